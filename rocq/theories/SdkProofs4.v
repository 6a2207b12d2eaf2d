(** Market data, trades and strategies. *)
From Coq Require Import ZArith QArith Qminmax List Bool Ascii String Lia Lqa.
From Verif Require Import PairModel PairSpec PairProofs CurveModel SdkModel SdkSpec SdkProofs2.
Import ListNotations.
Local Open Scope string_scope.

Definition good (p : pair) : Prop := no_slash (tknb p) = true /\ no_slash (tknq p) = true /\ upper (tknb p) = tknb p /\ upper (tknq p) = tknq p.
Lemma names_pair a b q : names a b q -> exists p, as_pair a = Ret p /\ tknb p = b /\ tknq p = q /\ good p.
Proof.
  assert (G : forall x y d e o, slash_free x -> slash_free y -> good (mkPair (upper x) (upper y) x y o d e)).
  { intros x y d e o Hx Hy. unfold good. cbn [tknb tknq]. rewrite !no_slash_upper, !PairProofs.upper_idem. repeat split; apply no_slash_free; assumption. }
  intros [(x & y & -> & Hx & Hy & <- & <-)|(p & -> & Hx & Hy & <- & <-)].
  - unfold as_pair, mk_pair. assert (Ht : slash_truthy (SlashStr (x ++ "/" ++ y)) = true) by (destruct x; reflexivity). rewrite Ht. cbn [str_truthy orb].
    rewrite split_app by (apply no_slash_free; assumption). eexists. split; [reflexivity|]. split; [reflexivity|]. split; [reflexivity|]. apply G; assumption.
  - unfold as_pair, mk_pair. cbn [slash_truthy str_truthy orb]. unfold slashpair_of. rewrite split_app by (apply no_slash_free; assumption).
    eexists. split; [reflexivity|]. split; [reflexivity|]. split; [reflexivity|]. apply G; assumption.
Qed.
Lemma getitem_found T b : byticker T (t_T b) (Some false) false = Ret (Some b) -> getitem T (t_T b) = Ret b.
Proof. unfold getitem, byticker, not_found. destruct (dget (upper (t_T b)) (c_byticker T)); [intros [= ->]; reflexivity|discriminate]. Qed.
Lemma other_base p : other p (tknb p) = Some (tknq p). Proof. unfold other, has_basetoken. rewrite String.eqb_refl. reflexivity. Qed.
Lemma other_quote p : tknb p <> tknq p -> other p (tknq p) = Some (tknb p).
Proof. intros N. unfold other, has_basetoken, has_quotetoken. destruct (String.eqb_spec (tknq p) (tknb p)); [congruence|]. rewrite String.eqb_refl. reflexivity. Qed.
Lemma sdiv_pos a x : (0 < x)%Q -> sdiv a x = Ret (a / x)%Q.
Proof. intros H. unfold sdiv. destruct (Qeq_bool x 0) eqn:E; [apply Qeq_bool_iff in E; lra|reflexivity]. Qed.
Lemma pair_price_bid p x : tknb p <> tknq p -> pair_price p x (tknb p) (tknq p) = Ret (Some x).
Proof.
  intros N. unfold pair_price, price, has_token, has_basetoken, has_quotetoken. rewrite !String.eqb_refl. destruct (String.eqb_spec (tknb p) (tknq p)); [congruence|]. cbn [negb].
  destruct (String.eqb_spec (tknq p) (tknb p)); [congruence|]. reflexivity.
Qed.
Lemma pair_price_ask p x : tknb p <> tknq p -> (0 < x)%Q -> pair_price p x (tknq p) (tknb p) = Ret (Some (1 / x)%Q).
Proof.
  intros N H. unfold pair_price, price, has_token, has_basetoken, has_quotetoken. rewrite !String.eqb_refl. cbn [negb]. destruct (String.eqb_spec (tknb p) (tknq p)); [congruence|]. cbn [negb].
  destruct (String.eqb_spec (tknq p) (tknb p)); [congruence|]. rewrite qdiv_pos by exact H. reflexivity.
Qed.
Lemma side_base p : bid_ask p (tknb p) = "ask". Proof. unfold bid_ask, has_basetoken. rewrite String.eqb_refl. reflexivity. Qed.
Lemma side_quote p : tknb p <> tknq p -> bid_ask p (tknq p) = "bid". Proof. intros N. unfold bid_ask, has_basetoken. destruct (String.eqb_spec (tknq p) (tknb p)); [congruence|reflexivity]. Qed.

Lemma range_bid s T a b q : listed T a b q -> sane s b q ->
  mGetRangeByPair s T a (t_T q) = Ret (mkPrange (Some (s_maxrate s (t_a b) (t_a q))) (Some (s_minrate s (t_a b) (t_a q))) (t_T q) (t_T b) "bid" true).
Proof.
  intros (N & D & Fb & Fq) _. destruct (names_pair _ _ _ N) as (p & E & B & Q & _). unfold mGetRangeByPair. rewrite E. cbn [rbind]. rewrite <- Q, <- B in D.
  assert (O : other p (t_T q) = Some (t_T b)) by (rewrite <- Q, <- B; apply other_quote; exact D). rewrite O. cbn [getitem_o]. rewrite (getitem_found _ _ Fb). cbn [rbind]. rewrite (getitem_found _ _ Fq). cbn [rbind].
  rewrite <- !B, <- !Q, !pair_price_bid by exact D. cbn [rbind]. rewrite side_quote by exact D. unfold has_quotetoken. rewrite String.eqb_refl. reflexivity.
Qed.
Lemma range_ask s T a b q : listed T a b q -> sane s q b ->
  mGetRangeByPair s T a (t_T b) = Ret (mkPrange (Some (1 / s_maxrate s (t_a q) (t_a b))%Q) (Some (1 / s_minrate s (t_a q) (t_a b))%Q) (t_T b) (t_T q) "ask" false).
Proof.
  intros (N & D & Fb & Fq) [S1 S2]. destruct (names_pair _ _ _ N) as (p & E & B & Q & _). unfold mGetRangeByPair. rewrite E. cbn [rbind]. rewrite <- Q, <- B in D.
  assert (O : other p (t_T b) = Some (t_T q)) by (rewrite <- Q, <- B; apply other_base). rewrite O. cbn [getitem_o]. rewrite (getitem_found _ _ Fq). cbn [rbind]. rewrite (getitem_found _ _ Fb). cbn [rbind].
  rewrite <- !B, <- !Q. rewrite (pair_price_ask p _ D) by lra. cbn [rbind]. rewrite (pair_price_ask p _ D) by lra. cbn [rbind]. rewrite side_base. unfold has_quotetoken. destruct (String.eqb_spec (tknb p) (tknq p)); [congruence|]. reflexivity.
Qed.
Lemma pair_price_zero p x : tknb p <> tknq p -> (x == 0)%Q -> pair_price p x (tknq p) (tknb p) = Raise ZeroDivision.
Proof.
  intros N H. unfold pair_price, price, has_token, has_basetoken, has_quotetoken. rewrite !String.eqb_refl. cbn [negb]. destruct (String.eqb_spec (tknb p) (tknq p)); [congruence|]. cbn [negb].
  destruct (String.eqb_spec (tknq p) (tknb p)); [congruence|]. unfold qdiv. rewrite (proj2 (Qeq_bool_iff x 0) H). reflexivity.
Qed.
Lemma pair_price_ask_any p x : tknb p <> tknq p -> ~ (x == 0)%Q -> exists v, pair_price p x (tknq p) (tknb p) = Ret v.
Proof.
  intros N H. unfold pair_price, price, has_token, has_basetoken, has_quotetoken. rewrite !String.eqb_refl. cbn [negb]. destruct (String.eqb_spec (tknb p) (tknq p)); [congruence|]. cbn [negb].
  destruct (String.eqb_spec (tknq p) (tknb p)); [congruence|]. unfold qdiv. destruct (Qeq_bool x 0) eqn:E; [apply Qeq_bool_iff in E; contradiction|]. eexists; reflexivity.
Qed.
Lemma range_ask_zero s T a b q : listed T a b q -> (s_maxrate s (t_a q) (t_a b) == 0)%Q \/ (s_minrate s (t_a q) (t_a b) == 0)%Q -> mGetRangeByPair s T a (t_T b) = Raise ZeroDivision.
Proof.
  intros (N & D & Fb & Fq) S. destruct (names_pair _ _ _ N) as (p & E & B & Q & _). unfold mGetRangeByPair. rewrite E. cbn [rbind]. rewrite <- Q, <- B in D.
  assert (O : other p (t_T b) = Some (t_T q)) by (rewrite <- Q, <- B; apply other_base). rewrite O. cbn [getitem_o]. rewrite (getitem_found _ _ Fq). cbn [rbind]. rewrite (getitem_found _ _ Fb). cbn [rbind].
  rewrite <- !B, <- !Q. destruct (Qeq_dec (s_maxrate s (t_a q) (t_a b)) 0) as [Z|Z]; [rewrite (pair_price_zero p _ D Z); reflexivity|]. destruct S as [S|S]; [contradiction|].
  destruct (pair_price_ask_any p _ D Z) as [v ->]. cbn [rbind]. rewrite (pair_price_zero p _ D S). reflexivity.
Qed.
Lemma range_foreign s T a b q x : names a b q -> x <> b -> x <> q -> mGetRangeByPair s T a x = Raise AttributeError.
Proof.
  intros N X1 X2. destruct (names_pair _ _ _ N) as (p & E & B & Q & _). unfold mGetRangeByPair. rewrite E. cbn [rbind].
  assert (O : other p x = None) by (apply other_none; subst; auto). rewrite O. reflexivity.
Qed.
Ltac look E O1 O2 Fb Fq := apply getitem_found in Fb; apply getitem_found in Fq; repeat (progress (rewrite ?E, ?O1, ?O2, ?Fb, ?Fq; cbn [rbind getitem_o])).
Lemma liq_spec s T a b q : listed T a b q ->
  mGetLiquidityByPair s T a (t_T q) = Ret (mkPliq (s_liq s (t_a b) (t_a q)) (t_T q) (t_T q) "bid" None None) /\
  mGetLiquidityByPair s T a (t_T b) = Ret (mkPliq (s_liq s (t_a q) (t_a b)) (t_T b) (t_T b) "ask" None None) /\
  mHasLiquidityByPair s T a (t_T q) = Ret (s_hasliq s (t_a b) (t_a q)) /\ mHasLiquidityByPair s T a (t_T b) = Ret (s_hasliq s (t_a q) (t_a b)).
Proof.
  intros (N & D & Fb & Fq). destruct (names_pair _ _ _ N) as (p & E & B & Q & _). rewrite <- Q, <- B in D.
  assert (O1 : other p (t_T q) = Some (t_T b)) by (rewrite <- Q, <- B; apply other_quote; exact D). assert (O2 : other p (t_T b) = Some (t_T q)) by (rewrite <- Q, <- B; apply other_base).
  unfold mGetLiquidityByPair, mHasLiquidityByPair. look E O1 O2 Fb Fq.
  rewrite <- B, <- Q, (side_base p), (side_quote p D). auto.
Qed.
Lemma depth_spec s T a b q rate : listed T a b q ->
  mGetRateLiquidityDepthByPair s T rate a (t_T q) = Ret (mkPliq (s_depth s (t_a b) (t_a q) rate) (t_T q) (t_T q) "bid" (Some rate) (Some false)) /\
  ((0 < rate)%Q -> mGetRateLiquidityDepthByPair s T rate a (t_T b) = Ret (mkPliq (s_depth s (t_a q) (t_a b) (1 / rate)%Q) (t_T b) (t_T b) "ask" (Some rate) (Some true))) /\
  ((rate == 0)%Q -> mGetRateLiquidityDepthByPair s T rate a (t_T b) = Raise ZeroDivision).
Proof.
  intros (N & D & Fb & Fq). destruct (names_pair _ _ _ N) as (p & E & B & Q & _). rewrite <- Q, <- B in D.
  assert (O1 : other p (t_T q) = Some (t_T b)) by (rewrite <- Q, <- B; apply other_quote; exact D). assert (O2 : other p (t_T b) = Some (t_T q)) by (rewrite <- Q, <- B; apply other_base).
  unfold mGetRateLiquidityDepthByPair. look E O1 O2 Fb Fq.
  rewrite <- B, <- Q, (side_base p), (side_quote p D). unfold has_basetoken. rewrite String.eqb_refl. destruct (String.eqb_spec (tknq p) (tknb p)); [congruence|]. cbn [rbind].
  split; [reflexivity|]. split; intros H; [rewrite sdiv_pos by exact H; reflexivity|]. unfold sdiv. apply Qeq_bool_iff in H. rewrite H. reflexivity.
Qed.
Lemma raw_rates_ok inv l : (inv = true -> Forall (fun r => 0 < r)%Q l) -> raw_rates inv l = Ret (map (fun r => if inv then (1 / r)%Q else r) l).
Proof.
  induction l as [|r l IH]; intros H; [reflexivity|]. cbn [raw_rates map]. rewrite IH by (intros X; specialize (H X); inversion H; assumption). destruct inv; [|reflexivity]. rewrite sdiv_pos by (specialize (H eq_refl); inversion H; assumption). reflexivity.
Qed.
Lemma raw_rates_zero l : Exists (fun r => r == 0)%Q l -> exists e, raw_rates true l = Raise e.
Proof.
  induction 1 as [r l H|r l _ (e & IH)]; cbn [raw_rates].
  - unfold sdiv. apply Qeq_bool_iff in H. rewrite H. eexists. reflexivity.
  - rewrite IH. destruct (sdiv 1 r); eexists; reflexivity.
Qed.
Lemma depths_spec s T a b q rates : listed T a b q ->
  mGetRateLiquidityDepthsByPair s T rates a (t_T q) = Ret (map (s_depth s (t_a b) (t_a q)) rates) /\
  (Forall (fun r => 0 < r)%Q rates -> mGetRateLiquidityDepthsByPair s T rates a (t_T b) = Ret (map (fun r => s_depth s (t_a q) (t_a b) (1 / r)%Q) rates)) /\
  (Exists (fun r => r == 0)%Q rates -> mGetRateLiquidityDepthsByPair s T rates a (t_T b) = Raise TypeError).
Proof.
  intros (N & D & Fb & Fq). destruct (names_pair _ _ _ N) as (p & E & B & Q & _). rewrite <- Q, <- B in D.
  assert (O1 : other p (t_T q) = Some (t_T b)) by (rewrite <- Q, <- B; apply other_quote; exact D). assert (O2 : other p (t_T b) = Some (t_T q)) by (rewrite <- Q, <- B; apply other_base).
  unfold mGetRateLiquidityDepthsByPair. look E O1 O2 Fb Fq.
  rewrite <- B, <- Q. unfold has_basetoken. rewrite String.eqb_refl. destruct (String.eqb_spec (tknq p) (tknb p)); [congruence|].
  split; [|split]; intros.
  - rewrite raw_rates_ok by discriminate. rewrite map_id. reflexivity.
  - rewrite raw_rates_ok by trivial. rewrite map_map. reflexivity.
  - destruct (raw_rates_zero rates H) as (e & ->). reflexivity.
Qed.
Lemma pairs_spec s T l : (Forall (fun e => let '(a, b, q) := e in listed T a b q) l) ->
  exists r, mHasLiquidityByPairs s T (map (fun e => fst (fst e)) l) = Ret r /\
   map (fun e => (snd (fst e), snd e)) r = flat_map (fun e => let '(a, b, q) := e in [(t_T q, s_hasliq s (t_a b) (t_a q)); (t_T b, s_hasliq s (t_a q) (t_a b))]) l.
Proof.
  induction 1 as [|[[a b] q] l H _ (r & IH & IH2)]; [exists []; split; reflexivity|]. destruct H as (N & D & Fb & Fq). destruct (names_pair _ _ _ N) as (p & E & B & Q & _).
  cbn [map fst mHasLiquidityByPairs]. rewrite E. cbn [rbind]. rewrite B, Q, (getitem_found _ _ Fb), (getitem_found _ _ Fq). cbn [rbind]. rewrite IH. cbn [rbind]. eexists. split; [reflexivity|]. cbn [map fst snd flat_map app]. rewrite IH2. reflexivity.
Qed.

Lemma market_spec s T a b q : listed T a b q -> sane s b q -> sane s q b ->
  exists m, mGetMarketByPair s T a = Ret m /\ m_pair m = t_T b ++ "/" ++ t_T q /\
   m_bestBid m = Some (s_maxrate s (t_a b) (t_a q)) /\ m_lastBid m = Some (s_minrate s (t_a b) (t_a q)) /\
   m_bestAsk m = Some (1 / s_maxrate s (t_a q) (t_a b))%Q /\ m_lastAsk m = Some (1 / s_minrate s (t_a q) (t_a b))%Q /\
   m_liqBid m = s_liq s (t_a b) (t_a q) /\ m_liqAsk m = s_liq s (t_a q) (t_a b).
Proof.
  intros (N & D & Fb & Fq) S1 S2. destruct (names_pair _ _ _ N) as (p & E & B & Q & G).
  assert (L : listed T (SlashPair p) b q).
  { split; [|auto]. right. exists p. destruct G as (G1 & G2 & G3 & G4). rewrite G3, G4. apply no_slash_free in G1. apply no_slash_free in G2. auto. }
  destruct (liq_spec s T _ b q L) as (L1 & L2 & _).
  unfold mGetMarketByPair. rewrite E. cbn [rbind]. rewrite B, Q. rewrite (range_bid s T _ b q L S1). cbn [rbind]. rewrite (range_ask s T _ b q L S2). cbn [rbind]. rewrite L1. cbn [rbind]. rewrite L2. cbn [rbind].
  eexists. split; [reflexivity|]. unfold slashpair_of. rewrite B, Q. cbn. auto 10.
Qed.
Lemma market_order s b q x y : sane s b q -> sane s q b -> (x == 1 / s_maxrate s (t_a q) (t_a b))%Q -> (y == 1 / s_minrate s (t_a q) (t_a b))%Q ->
  (x <= y)%Q /\ (x < s_maxrate s (t_a b) (t_a q) <-> 1 < s_maxrate s (t_a b) (t_a q) * s_maxrate s (t_a q) (t_a b))%Q.
Proof.
  intros [A1 A2] [B1 B2] X Y. rewrite X, Y. set (M := s_maxrate s (t_a q) (t_a b)) in *. set (m := s_minrate s (t_a q) (t_a b)) in *. set (N := s_maxrate s (t_a b) (t_a q)) in *.
  assert (HM : (0 < M)%Q) by lra. split.
  - apply Qle_shift_div_l; [exact B1|]. setoid_replace (1 / M * m)%Q with (m / M)%Q by (field; lra). apply Qle_shift_div_r; [exact HM|]. lra.
  - split; intros H.
    + setoid_replace 1%Q with (1 / M * M)%Q by (field; lra). apply Qmult_lt_compat_r; assumption.
    + apply Qlt_shift_div_r; [exact HM|exact H].
Qed.
Lemma market_values m x a b la lb : m_bestBid m = Some b -> m_bestAsk m = Some a -> m_lastBid m = Some lb -> m_lastAsk m = Some la ->
  (exists i, m_inverted m = Ret i /\ (i = true <-> a < b)%Q) /\
  (exists d, m_mid m = Ret d /\ (d == (a + b) / 2)%Q) /\ (exists d, m_spread m = Ret d /\ (b + d == a)%Q) /\
  (~ (a + b == 0)%Q -> exists d, m_spreadpc m = Ret d /\ (d == 2 * (a - b) / (a + b))%Q) /\ ((a + b == 0)%Q -> m_spreadpc m = Raise ZeroDivision) /\
  (exists d, m_ibid m x = Ret d /\ (d == (1 - x) * b + x * lb)%Q) /\ (exists d, m_iask m x = Ret d /\ (d == (1 - x) * a + x * la)%Q) /\ (exists d, m_iall m x = Ret d /\ (d == (1 - x) * lb + x * la)%Q).
Proof.
  intros H1 H2 H3 H4. unfold m_inverted, m_spreadpc, m_mid, m_spread, m_ibid, m_iask, m_iall. rewrite H1, H2, H3, H4. cbn [both rbind].
  split; [eexists; split; [reflexivity|apply Qlt_bool_iff]|]. split; [eexists; split; [reflexivity|field]|]. split; [eexists; split; [reflexivity|ring]|].
  split; [|split]; [| |repeat split; (eexists; split; [reflexivity|unfold interp; ring])].
  - intros N. unfold sdiv. destruct (Qeq_bool ((1 # 2) * (b + a)) 0) eqn:E; [apply Qeq_bool_iff in E; exfalso; apply N; lra|]. eexists. split; [reflexivity|]. field. intros X. apply N. lra.
  - intros N. unfold sdiv. destruct (Qeq_bool ((1 # 2) * (b + a)) 0) eqn:E; [reflexivity|]. exfalso. apply Qeq_bool_neq in E. apply E. lra.
Qed.

(** ** strategies and trades *)
Lemma create_spec T a b q ss se sa bs be ba eth usdc : names a b q -> byticker T "ETH" (Some false) false = Ret (Some eth) -> byticker T "USDC" (Some false) false = Ret (Some usdc) ->
  (Qmin ss se <= Qmax bs be -> mCreateStrategy T a ss se sa bs be ba = Raise ValueError)%Q /\
  (Qmax bs be < Qmin ss se -> exists r, mCreateStrategy T a ss se sa bs be ba = Ret r /\ cr_base r = t_a eth /\ cr_quote r = t_a usdc /\ cr_buyBudget r = ba /\ cr_sellBudget r = sa /\
    cr_buyLow r == Qmin bs be /\ cr_buyHigh r == Qmax bs be /\ cr_sellLow r == Qmin ss se /\ cr_sellHigh r == Qmax ss se)%Q.
Proof.
  intros N F1 F2. destruct (names_pair _ _ _ N) as (p & E & _). unfold mCreateStrategy. rewrite E. cbn [rbind].
  assert (G1 : getitem T "ETH" = Ret eth). { revert F1. unfold getitem, byticker, not_found. destruct (dget (upper "ETH") (c_byticker T)); [intros [= ->]; reflexivity|discriminate]. }
  assert (G2 : getitem T "USDC" = Ret usdc). { revert F2. unfold getitem, byticker, not_found. destruct (dget (upper "USDC") (c_byticker T)); [intros [= ->]; reflexivity|discriminate]. }
  rewrite G1, G2. cbn [rbind]. clear - ss.
  assert (L : forall x y, Qle_bool x y = true /\ (x <= y)%Q \/ Qle_bool x y = false /\ (y < x)%Q).
  { intros x y. destruct (Qle_bool x y) eqn:E; [left|right]; split; trivial; [apply Qle_bool_iff; exact E|]. apply Qnot_le_lt. intros H. apply Qle_bool_iff in H. congruence. }
  assert (M : forall x y, (x <= y)%Q -> (Qmin x y == x /\ Qmin y x == x /\ Qmax x y == y /\ Qmax y x == y)%Q).
  { intros x y H. pose proof (Q.min_l x y H). pose proof (Q.min_r y x H). pose proof (Q.max_r x y H). pose proof (Q.max_l y x H). auto. }
  destruct (L ss se) as [[-> A]|[-> A]]; destruct (L be bs) as [[-> B]|[-> B]]; try apply Qlt_le_weak in A; try apply Qlt_le_weak in B; destruct (M _ _ A) as (A1 & A2 & A3 & A4); destruct (M _ _ B) as (B1 & B2 & B3 & B4);
  (split; intros H; rewrite ?A1, ?A2, ?B3, ?B4 in H; match goal with |- context [Qle_bool ?x ?y] => destruct (L x y) as [[-> C]|[-> C]]; try lra end; [reflexivity|]; eexists; split; [reflexivity|]; cbn; rewrite ?A1, ?A2, ?A3, ?A4, ?B1, ?B2, ?B3, ?B4; repeat split; reflexivity).
Qed.
Lemma create_pair T a b q a' b' q' ss se sa bs be ba : names a b q -> names a' b' q' -> mCreateStrategy T a ss se sa bs be ba = mCreateStrategy T a' ss se sa bs be ba.
Proof. intros H H'. destruct (names_pair _ _ _ H) as (p & E & _). destruct (names_pair _ _ _ H') as (p' & E' & _). unfold mCreateStrategy. rewrite E, E'. reflexivity. Qed.

Lemma prepare_ok g T a b q amount : listed T a b q -> (0 < amount)%Q -> containsall g [t_T b; t_T q] = true ->
  mPrepareTrade g T a "BUY" (t_T b) amount = Ret (mkTradeReq q b true amount) /\
  mPrepareTrade g T a "SELL" (t_T b) amount = Ret (mkTradeReq b q false amount) /\
  mPrepareTrade g T a "BUY" (t_T q) amount = Ret (mkTradeReq b q true amount) /\
  mPrepareTrade g T a "SELL" (t_T q) amount = Ret (mkTradeReq q b false amount).
Proof.
  intros (N & D & Fb & Fq) A C. destruct (names_pair _ _ _ N) as (p & E & B & Q & _). rewrite <- Q, <- B in D.
  assert (O1 : other p (t_T q) = Some (t_T b)) by (rewrite <- Q, <- B; apply other_quote; exact D). assert (O2 : other p (t_T b) = Some (t_T q)) by (rewrite <- Q, <- B; apply other_base).
  assert (C' : containsall g [t_T q; t_T b] = true). { revert C. unfold containsall. cbn [forallb]. destruct (dget (t_T b) _), (dget (t_T q) _); cbn; congruence. }
  assert (H1 : has_token p (t_T b) = true) by (apply has_token_spec; left; congruence). assert (H2 : has_token p (t_T q) = true) by (apply has_token_spec; right; congruence).
  assert (L : Qlt_bool 0 amount = true) by (apply Qlt_bool_iff; exact A). assert (X1 : String.eqb (t_T b) (t_T q) = false) by (apply String.eqb_neq; congruence). assert (X2 : String.eqb (t_T q) (t_T b) = false) by (apply String.eqb_neq; congruence).
  unfold mPrepareTrade. rewrite !E. cbn [rbind]. change (String.eqb "BUY" "BUY") with true. change (String.eqb "BUY" "SELL") with false. change (String.eqb "SELL" "BUY") with false. change (String.eqb "SELL" "SELL") with true. cbn [orb negb].
  rewrite !H1, !H2, !L. cbn [negb]. apply getitem_found in Fb. apply getitem_found in Fq. repeat (progress (rewrite ?O1, ?O2, ?Fb, ?Fq, ?C, ?C', ?String.eqb_refl, ?X1, ?X2; cbn [rbind getitem_o])). auto.
Qed.
Lemma prepare_bad g T a b q w x amount : names a b q -> (w <> "BUY" /\ w <> "SELL") \/ (x <> b /\ x <> q) \/ (amount <= 0)%Q -> mPrepareTrade g T a w x amount = Raise ValueError.
Proof.
  intros N H. destruct (names_pair _ _ _ N) as (p & E & B & Q & _). unfold mPrepareTrade. rewrite E. cbn [rbind].
  destruct (String.eqb_spec w "BUY") as [W1|W1]; destruct (String.eqb_spec w "SELL") as [W2|W2]; cbn [orb negb]; try reflexivity;
  (destruct (has_token p x) eqn:Ht; cbn [negb]; [|reflexivity]; destruct (Qlt_bool 0 amount) eqn:L; cbn [negb]; [|reflexivity]; exfalso; apply Qlt_bool_iff in L; apply has_token_spec in Ht; destruct H as [[]|[[]|H]]; [congruence|destruct Ht; congruence|lra]).
Qed.
Lemma prepare_global g T a b q w x amount : listed T a b q -> containsall g [t_T b; t_T q] = false -> mPrepareTrade g T a w x amount = Raise ValueError.
Proof.
  intros (N & D & Fb & Fq) C. destruct (names_pair _ _ _ N) as (p & E & B & Q & G).
  destruct (String.eqb_spec w "BUY") as [W|W]; [|destruct (String.eqb_spec w "SELL") as [W2|W2]; [|apply (prepare_bad g T a _ _ w x amount N); auto]];
  (destruct (string_dec x (t_T b)) as [X|X]; [|destruct (string_dec x (t_T q)) as [X2|X2]; [|apply (prepare_bad g T a _ _ w x amount N); auto]]);
  (destruct (Qlt_le_dec 0 amount) as [A|A]; [|apply (prepare_bad g T a _ _ w x amount N); auto]); subst w x;
  (assert (O1 : other p (t_T q) = Some (t_T b)) by (rewrite <- Q, <- B; apply other_quote; congruence); assert (O2 : other p (t_T b) = Some (t_T q)) by (rewrite <- Q, <- B; apply other_base);
  assert (C' : containsall g [t_T q; t_T b] = false) by (revert C; unfold containsall; cbn [forallb]; destruct (dget (t_T b) _), (dget (t_T q) _); cbn; congruence);
  assert (H1 : has_token p (t_T b) = true) by (apply has_token_spec; left; congruence); assert (H2 : has_token p (t_T q) = true) by (apply has_token_spec; right; congruence);
  assert (L : Qlt_bool 0 amount = true) by (apply Qlt_bool_iff; exact A);
  unfold mPrepareTrade; rewrite !E; cbn [rbind]; change (String.eqb "BUY" "BUY") with true; change (String.eqb "BUY" "SELL") with false; change (String.eqb "SELL" "BUY") with false; change (String.eqb "SELL" "SELL") with true; cbn [orb negb];
  rewrite ?H1, ?H2, ?L; cbn [negb]; apply getitem_found in Fb; apply getitem_found in Fq; repeat (progress (rewrite ?O1, ?O2, ?Fb, ?Fq, ?C, ?C'; cbn [rbind getitem_o])); reflexivity).
Qed.
Lemma compose_spec src tgt a b dev : 
  (exists m, mComposeTradeTransaction src tgt a b true dev = ByTarget (t_a src) (t_a tgt) m /\ (m == a + a * match dev with Some d => d | None => 1 # 10 end)%Q) /\
  (exists m, mComposeTradeTransaction src tgt a b false dev = BySource (t_a src) (t_a tgt) m /\ (m == b - b * match dev with Some d => d | None => 1 # 10 end)%Q).
Proof. unfold mComposeTradeTransaction, MAXDEVIATIONPC. split; (eexists; split; [reflexivity|]; destruct dev; ring). Qed.

(** ** strategies of a user *)
Lemma user_one T s : (base_first s -> exists o, user_strategy T s = Ret o /\ named (byaddr1_name T) s o) /\ (~ base_first s -> user_strategy T s = Raise AssertionError).
Proof.
  unfold user_strategy, base_first, same_ci. rewrite !lower_idem. split.
  - intros [H1 H2]. rewrite H1, H2, !String.eqb_refl. cbn [negb]. eexists. split; [reflexivity|]. unfold named. cbn. rewrite H1, H2. repeat split.
  - intros H. destruct (String.eqb_spec (lower (sk_base s)) (lower (eo_token (sk_order0 s)))) as [E1|E1]; cbn [negb]; [|reflexivity]. destruct (String.eqb_spec (lower (sk_quote s)) (lower (eo_token (sk_order1 s)))) as [E2|E2]; cbn [negb]; [|reflexivity]. exfalso. auto.
Qed.
Lemma user_all T l : (Forall base_first l -> exists os, mGetUserStrategies T l = Ret os /\ Forall2 (named (byaddr1_name T)) l os) /\ (~ Forall base_first l -> mGetUserStrategies T l = Raise AssertionError).
Proof.
  induction l as [|s l [IH1 IH2]]; [split; [intros _; exists []; split; [reflexivity|constructor]|intros H; exfalso; apply H; constructor]|].
  destruct (user_one T s) as [U1 U2]. cbn [mGetUserStrategies]. split.
  - intros H. inversion H as [|? ? H1 H2]; subst. destruct (U1 H1) as (o & -> & No). destruct (IH1 H2) as (os & -> & Nos). cbn [rbind]. eexists. split; [reflexivity|]. constructor; assumption.
  - intros H. assert (Dec : base_first s \/ ~ base_first s). { unfold base_first, same_ci. destruct (string_dec (lower (sk_base s)) (lower (eo_token (sk_order0 s)))), (string_dec (lower (sk_quote s)) (lower (eo_token (sk_order1 s)))); intuition congruence. }
    destruct Dec as [Y|N]; [|rewrite (U2 N); reflexivity]. destruct (U1 Y) as (o & -> & _). cbn [rbind]. rewrite IH2; [reflexivity|]. intros X. apply H. constructor; assumption.
Qed.
Lemma named_ext f g s o : (forall a, f a = g a) -> named f s o -> named g s o.
Proof. intros H (H1 & H2 & H3 & H4 & R). unfold named. rewrite <- !H. auto. Qed.
Lemma user_names l0 r T l : new_container l0 r = Ret T ->
  (Forall base_first l -> exists os, mGetUserStrategies T l = Ret os /\ Forall2 (named (name_of l0)) l os) /\ (~ Forall base_first l -> mGetUserStrategies T l = Raise AssertionError).
Proof.
  intros H. destruct (user_all T l) as [U1 U2]. split; [|exact U2]. intros F. destruct (U1 F) as (os & E & N). exists os. split; [exact E|]. clear - N H.
  induction N; constructor; [|assumption]. apply (named_ext (byaddr1_name T)); [|assumption]. intros a. exact (proj2 (byaddr1_spec _ _ _ a H)).
Qed.
