-Q theories Verif
theories/TradeModel.v
theories/TradeSpec.v
theories/TradeProofs.v
theories/TradeProofs2.v
theories/TradeProofs3.v
theories/TradeProofs4.v
theories/TradeProps.v
theories/MatchModel.v
theories/MatchSpec.v
theories/MatchProofs.v
theories/MatchProofs2.v
theories/MatchProofs3.v
theories/MatchProps.v
theories/PairModel.v
theories/PairSpec.v
theories/PairProofs.v
theories/PairProps.v
theories/SimModel.v
theories/SimSpec.v
theories/SimProofs.v
theories/SimProofs2.v
theories/SimProofs3.v
theories/SimProofs4.v
theories/SimProofs5.v
theories/SimProofs6.v
theories/SimProofs7.v
theories/SimProofs8.v
theories/SimProofs9.v
theories/SimProps.v
theories/FastModel.v
theories/FastSpec.v
theories/FastProofs.v
theories/FastProofs2.v
theories/FastProofs3.v
theories/FastProofs4.v
theories/FastProps.v
theories/CurveModel.v
theories/CurveSpec.v
theories/CurveProofs.v
theories/CurveProofs2.v
theories/CurveProofs3.v
theories/CurveProofs4.v
theories/CurveProofs5.v
theories/CurveProps.v
theories/OrderModel.v
theories/ExactModel.v
theories/ExactSpec.v
theories/ExactProofs.v
theories/ExactProofs2.v
theories/ExactProofs3.v
theories/ExactProofs4.v
theories/ExactProofs5.v
theories/ExactProofs6.v
theories/ExactProofs7.v
theories/OrderProofs.v
theories/ExactProps.v
theories/OrderProps.v
theories/AlphaModel.v
theories/AlphaSpec.v
theories/AlphaProofs.v
theories/AlphaProofs2.v
theories/AlphaProofs3.v
theories/AlphaProps.v
theories/HelperModel.v
theories/HelperSpec.v
theories/HelperProofs.v
theories/HelperProps.v
theories/Univ3Model.v
theories/Univ3Spec.v
theories/Univ3Proofs.v
theories/Univ3Props.v
theories/ParamsModel.v
theories/ParamsSpec.v
theories/ParamsProofs.v
theories/ParamsProps.v
theories/SharedModel.v
theories/SharedSpec.v
theories/SharedProofs.v
theories/SharedProps.v
theories/CpcModel.v
theories/CpcSpec.v
theories/CpcProofs.v
theories/CpcProofs2.v
theories/CpcProofs3.v
theories/CpcProps.v
theories/GraphModel.v
theories/GraphSpec.v
theories/GraphProofs.v
theories/GraphProofs2.v
theories/GraphProofs3.v
theories/GraphProofs4.v
theories/GraphProofs5.v
theories/GraphProofs6.v
theories/GraphProofs7.v
theories/GraphProofs8.v
theories/GraphProofs9.v
theories/GraphProps.v
theories/StrategyModel.v
theories/StrategyProofs.v
theories/StrategyProps.v
theories/ContainerModel.v
theories/ContainerSpec.v
theories/ContainerProofs.v
theories/ContainerProofs2.v
theories/ContainerProofs3.v
theories/ContainerProofs4.v
theories/ContainerProps.v
theories/OptModel.v
theories/OptSpec.v
theories/OptProofs.v
theories/OptProofs2.v
theories/OptProofs3.v
theories/OptProofs4.v
theories/OptProofs5.v
theories/OptProofs6.v
theories/OptProofs7.v
theories/OptProofs8.v
theories/OptProofs9.v
theories/OptProofs10.v
theories/OptProps.v
theories/RunModel.v
theories/RunSpec.v
theories/RunProofs.v
theories/RunProofs2.v
theories/RunProofs3.v
theories/RunProofs4.v
theories/RunProofs5.v
theories/RunProofs6.v
theories/RunProofs7.v
theories/RunProofs8.v
theories/RunProps.v
theories/SdkModel.v
theories/SdkSpec.v
theories/SdkProofs.v
theories/SdkProofs2.v
theories/SdkProofs3.v
theories/SdkProofs4.v
theories/SdkProps.v
theories/AnalyticsModel.v
theories/AnalyticsSpec.v
theories/AnalyticsProofs.v
theories/AnalyticsProofs2.v
theories/AnalyticsProps.v
theories/UiModel.v
theories/UiSpec.v
theories/UiProofs.v
theories/UiProofs2.v
theories/UiProps.v
theories/PathModel.v
theories/PathSpec.v
theories/PathProofs.v
theories/PathProofs2.v
theories/PathProofs3.v
theories/PathProps.v
theories/CcModel.v
theories/CcSpec.v
theories/CcProofs.v
theories/CcProps.v
theories/WidgetModel.v
theories/WidgetSpec.v
theories/WidgetProofs.v
theories/WidgetProps.v
theories/FileModel.v
theories/FileSpec.v
theories/FileProofs.v
theories/FileProps.v
theories/LoadModel.v
theories/LoadSpec.v
theories/LoadProofs.v
theories/LoadProps.v
theories/NetModel.v
theories/NetSpec.v
theories/NetProofs.v
theories/NetProofs2.v
theories/NetProofs3.v
theories/NetProofs4.v
theories/NetProofs5.v
theories/NetProofs6.v
theories/NetProofs7.v
theories/NetProps.v
theories/TiModel.v
theories/TiSpec.v
theories/TiProofs.v
theories/TiProofs2.v
theories/TiProofs3.v
theories/TiProps.v
theories/ImpModel.v
theories/ImpSpec.v
theories/ImpProofs.v
theories/ImpProps.v
theories/TabModel.v
theories/TabSpec.v
theories/TabProofs.v
theories/TabProofs2.v
theories/TabProofs3.v
theories/TabProps.v
theories/MetaModel.v
theories/MetaSpec.v
theories/MetaProofs.v
theories/MetaProofs2.v
theories/MetaProofs3.v
theories/MetaProps.v
theories/BenchModel.v
theories/BenchSpec.v
theories/BenchProofs.v
theories/BenchProofs2.v
theories/BenchProofs3.v
theories/BenchProofs4.v
theories/BenchProofs5.v
theories/BenchProps.v
theories/ArbModel.v
theories/ArbSpec.v
theories/ArbProofs.v
theories/ArbProofs2.v
theories/ArbProofs3.v
theories/ArbProofs4.v
theories/ArbProps.v
theories/GainSpec.v
theories/GainProofs.v
theories/GainProofs2.v
theories/GainProofs3.v
theories/GainProofs4.v
theories/GainProps.v
theories/SplitSpec.v
theories/SplitProofs.v
theories/SplitProofs2.v
theories/SplitProofs3.v
theories/SplitProps.v
theories/InvProofs.v
theories/InvProps.v
theories/LegacyModel.v
theories/LegacyProofs.v
theories/LegacyProps.v
theories/EdgeModel.v
theories/EdgeProps.v
theories/StartModel.v
theories/StartProps.v
theories/ChartModel.v
theories/ChartProps.v
theories/ThreshSpec.v
theories/ThreshProofs.v
theories/ThreshProofs2.v
theories/ThreshProps.v
theories/SvModel.v
theories/SvProofs.v
theories/SvProps.v
theories/AggrModel.v
theories/AggrSpec.v
theories/AggrProofs.v
theories/AggrProofs2.v
theories/AggrProps.v
theories/ReqModel.v
theories/ReqSpec.v
theories/ReqProofs.v
theories/ReqProps.v
theories/FpModel.v
theories/FpSpec.v
theories/FpProofs.v
theories/FpProofs2.v
theories/FpProofs3.v
theories/FpProps.v
theories/FpSdkModel.v
theories/FpSdkProofs.v
theories/FpSdkProofs2.v
theories/FpSdkProps.v
theories/FpOrderModel.v
theories/FpOrderProofs.v
theories/FpOrderProofs2.v
theories/FpOrderProps.v
theories/FpDecModel.v
theories/FpDecProofs.v
theories/FpDecProofs2.v
theories/FpDecProps.v
theories/FpRateModel.v
theories/FpRateProofs.v
theories/FpRateProps.v
theories/FpSpecModel.v
theories/FpSpecProofs.v
theories/FpSpecProps.v
theories/RawModel.v
theories/RawProofs.v
theories/RawProps.v
theories/FpCpcModel.v
theories/FpCpcSpec.v
theories/FpCpcProofs.v
theories/FpCpcProofs2.v
theories/FpCpcProps.v
theories/FpCpc2Model.v
theories/FpCpc2Spec.v
theories/FpCpc2Proofs.v
theories/FpCpc2Props.v
theories/FpCpc3Model.v
theories/FpCpc3Spec.v
theories/FpCpc3Proofs.v
theories/FpCpc3Props.v
theories/FpCpc4Model.v
theories/FpCpc4Proofs.v
theories/FpCpc4Props.v
theories/FpUniModel.v
theories/FpUniSpec.v
theories/FpUniProofs.v
theories/FpUniProps.v
theories/FpUni2Model.v
theories/FpUni2Proofs.v
theories/FpUni2Props.v
theories/FpUni3Model.v
theories/FpUni3Proofs.v
theories/FpUni3Props.v
theories/FpCpc5Model.v
theories/FpCpc5Proofs.v
theories/FpCpc5Props.v
