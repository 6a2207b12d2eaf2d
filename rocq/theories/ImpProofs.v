(** Proofs about ImpModel.v. *)
From Coq Require Import Reals ZArith List Bool String Ascii Lra Lia.
From Verif Require Import TradeModel PairModel PairSpec PairProofs CurveModel CurveSpec CurveProofs CurveProofs2 CurveProofs3 CurveProofs4 OrderModel UiModel UiSpec UiProofs ImpModel ImpSpec.
From Verif Require SdkModel SimModel.
Import ListNotations.
Local Open Scope R_scope.

(** ** decimals *)
Lemma set_spec p db dq dct t : let q := set_decimals p db dq dct in let known t v := exists d, dct = Some d /\ SdkModel.dget t d = Some v in
  d_pair q = d_pair p /\ (db = Some t -> d_b q = Some t) /\ (dq = Some t -> d_q q = Some t) /\
  (db = None -> (forall v, known (tknb (d_pair p)) v -> d_b q = Some (DInt v)) /\ ((forall v, ~ known (tknb (d_pair p)) v) -> d_b q = None)) /\
  (dq = None -> (forall v, known (tknq (d_pair p)) v -> d_q q = Some (DInt v)) /\ ((forall v, ~ known (tknq (d_pair p)) v) -> d_q q = None)).
Proof.
  cbv zeta. unfold set_decimals. cbn [d_pair d_b d_q]. split; [reflexivity|]. split; [intros ->; reflexivity|]. split; [intros ->; reflexivity|].
  split; intros ->; (split; [intros v (d & -> & ->); reflexivity|]); intros N; destruct dct as [d|]; [|reflexivity| |reflexivity].
  - destruct (SdkModel.dget (tknb (d_pair p)) d) as [v|] eqn:E; [|reflexivity]. exfalso. apply (N v). eauto.
  - destruct (SdkModel.dget (tknq (d_pair p)) d) as [v|] eqn:E; [|reflexivity]. exfalso. apply (N v). eauto.
Qed.
Lemma dec_table p : let b := tknb (d_pair p) in let q := tknq (d_pair p) in b <> q -> ~ reserved b -> ~ reserved q ->
  decimals p = [(b, d_b p); (q, d_q p); ("_TKNB"%string, d_b p); ("_TKNQ"%string, d_q p); ("_DIFFQB"%string, decdiffqb p)].
Proof.
  intros b q N Rb Rq. unfold decimals. fold b q. unfold reserved in *. set (x := "_TKNB"%string) in *. set (y := "_TKNQ"%string) in *. set (z := "_DIFFQB"%string) in *.
  assert (F : forall u v, u <> v -> String.eqb u v = false) by (intros u v; apply String.eqb_neq).
  assert (F1 : y <> x) by discriminate. assert (F2 : z <> x) by discriminate. assert (F3 : z <> y) by discriminate. clearbody x y z b q.
  cbn [fold_left fst snd]. cbn [SdkModel.dset]. rewrite (F q b) by congruence. cbn [SdkModel.dset]. rewrite (F x b), (F x q) by intuition congruence. cbn [SdkModel.dset].
  rewrite (F y b), (F y q), (F y x) by intuition congruence. cbn [SdkModel.dset]. rewrite (F z b), (F z q), (F z x), (F z y) by intuition congruence. reflexivity.
Qed.
Lemma diff_spec p v : decdiffqb p = Some v <-> exists b q, d_b p = Some (DInt b) /\ d_q p = Some (DInt q) /\ v = DInt (q - b).
Proof.
  unfold decdiffqb. split.
  - destruct (d_q p) as [[q|]|]; try discriminate. destruct (d_b p) as [[b|]|]; try discriminate. intros [= <-]. eauto.
  - intros (b & q & -> & -> & ->). reflexivity.
Qed.
Lemma has_spec p : has_decimals p = true <-> d_b p <> None /\ d_q p <> None.
Proof. unfold has_decimals. destruct (d_b p), (d_q p); split; try discriminate; try (intros [A B]; congruence). intros _; split; discriminate. Qed.

(** ** reading a pair with blanks *)
Lemma space_upper c : SdkModel.is_space (upper_ascii c) = SdkModel.is_space c.
Proof. destruct c as [[] [] [] [] [] [] [] []]; reflexivity. Qed.
Lemma lstrip_upper s : SdkModel.lstrip (upper s) = upper (SdkModel.lstrip s).
Proof. induction s as [|c s IH]; [reflexivity|]. cbn [upper SdkModel.lstrip]. rewrite space_upper. destruct (SdkModel.is_space c); [exact IH|reflexivity]. Qed.
Lemma rstrip_upper s : SdkModel.rstrip (upper s) = upper (SdkModel.rstrip s).
Proof.
  induction s as [|c s IH]; [reflexivity|]. cbn [upper SdkModel.rstrip]. rewrite IH, space_upper. destruct (SdkModel.rstrip s); cbn [upper]; [|reflexivity].
  destruct (SdkModel.is_space c); reflexivity.
Qed.
Lemma strip_upper s : SdkModel.strip (upper s) = upper (SdkModel.strip s).
Proof. unfold SdkModel.strip. rewrite lstrip_upper, rstrip_upper. reflexivity. Qed.
Lemma no_slash_cons c s : no_slash (String c s) = negb (Ascii.eqb c "/") && no_slash s.
Proof. reflexivity. Qed.
Lemma no_slash_lstrip s : no_slash s = true -> no_slash (SdkModel.lstrip s) = true.
Proof. induction s as [|c s IH]; [auto|]. intros H. cbn [SdkModel.lstrip]. destruct (SdkModel.is_space c); [|exact H]. apply IH. rewrite no_slash_cons in H. apply andb_true_iff in H. tauto. Qed.
Lemma no_slash_rstrip s : no_slash s = true -> no_slash (SdkModel.rstrip s) = true.
Proof.
  induction s as [|c s IH]; [auto|]. intros H. rewrite no_slash_cons in H. apply andb_true_iff in H. destruct H as [H1 H2]. specialize (IH H2). cbn [SdkModel.rstrip].
  destruct (SdkModel.rstrip s) as [|d r]; [|rewrite no_slash_cons, H1; exact IH]. destruct (SdkModel.is_space c); [reflexivity|]. rewrite no_slash_cons, H1. reflexivity.
Qed.
Lemma no_slash_strip s : no_slash s = true -> no_slash (SdkModel.strip s) = true.
Proof. intros H. apply no_slash_rstrip, no_slash_lstrip, H. Qed.
Lemma slashpair_spec b q decs : slash_free b -> slash_free q ->
  exists p, from_slashpair (b ++ "/" ++ q) decs = Some p /\ tknb (d_pair p) = upper (SdkModel.strip b) /\ tknq (d_pair p) = upper (SdkModel.strip q) /\
    d_b p = match decs with Some (x, y) => Some (DTup x y) | None => None end /\ d_q p = None.
Proof.
  intros Hb Hq. apply no_slash_free in Hb, Hq. unfold from_slashpair.
  assert (U : upper (b ++ "/" ++ q) = (upper b ++ "/" ++ upper q)%string) by (rewrite upper_app; reflexivity). rewrite U. rewrite split_app by (rewrite no_slash_upper; assumption).
  rewrite !strip_upper. set (sb := SdkModel.strip b). set (sq := SdkModel.strip q).
  unfold mk_pair. cbn [slash_truthy str_truthy orb]. rewrite append_slash_nonempty. cbn [negb]. rewrite split_app by (rewrite no_slash_upper; apply no_slash_strip; assumption). rewrite !upper_idem.
  eexists. split; [reflexivity|]. cbn [d_pair d_b d_q set_decimals dpair_of tknb tknq option_map SdkModel.dget]. destruct decs as [[x y]|]; auto.
Qed.
Lemma split_upper s : split_slash (upper s) = map upper (split_slash s).
Proof.
  induction s as [|c s IH]; [reflexivity|]. cbn [upper split_slash]. rewrite IH. destruct (Ascii.eqb_spec c "/") as [->|N]; [reflexivity|].
  destruct (Ascii.eqb_spec (upper_ascii c) "/") as [E|_]; [apply upper_ascii_slash in E; contradiction|]. destruct (split_slash s); reflexivity.
Qed.
Lemma slashpair_refused s decs : (forall b q, slash_free b -> slash_free q -> s <> (b ++ "/" ++ q)%string) -> from_slashpair s decs = None.
Proof.
  intros N. unfold from_slashpair. rewrite split_upper. destruct (split_slash s) as [|b [|q [|x l]]] eqn:E; try reflexivity. exfalso.
  apply split_inv_2 in E. destruct E as (-> & Hb & Hq). apply no_slash_free in Hb, Hq. exact (N _ _ Hb Hq eq_refl).
Qed.
Lemma copy_spec p d : plain (tknb p) -> plain (tknq p) ->
  mk_pair (SlashPair p) None None d = Some (mkPair (tknb p) (tknq p) (tknb p) (tknq p) d (tknb_decimals p) (tknq_decimals p)).
Proof.
  intros [Ub Hb] [Uq Hq]. apply no_slash_free in Hb, Hq. unfold mk_pair. cbn [slash_truthy str_truthy orb]. unfold slashpair_of. rewrite split_app by assumption. rewrite Ub, Uq. reflexivity.
Qed.

(** ** adding a strategy *)
Lemma from_prices_inv base p1 p2 yint y c : from_prices base p1 p2 yint y = Ret c ->
  c_base c = base /\ c_yint c = yint /\ c_y c = y /\ 0 <= y <= yint /\ 0 <= c_B c /\ 0 <= c_S c /\ (base = true -> 0 < c_B c) /\ (disabled c = true <-> base = false /\ p1 = 0 /\ p2 = 0).
Proof.
  unfold from_prices. destruct (Rlt_dec yint 0) as [L1|L1]; [rewrite rlt_true by exact L1; discriminate|]. rewrite rlt_false by lra.
  destruct (Rlt_dec yint y) as [L2|L2]; [rewrite rlt_true by exact L2; discriminate|]. rewrite rlt_false by lra.
  destruct (Rlt_dec y 0) as [L3|L3]; [rewrite rlt_true by exact L3; discriminate|]. rewrite rlt_false by lra.
  assert (core : forall q1 q2, (base = true -> q1 <> 0 /\ q2 <> 0) -> (let '(a, b) := if rlt q1 q2 then (q2, q1) else (q1, q2) in let* sb := rsqrt b in let* sa := rsqrt a in construct base sb (sa - sb) yint y) = Ret c ->
    c_base c = base /\ c_yint c = yint /\ c_y c = y /\ 0 <= y <= yint /\ 0 <= c_B c /\ 0 <= c_S c /\ (base = true -> 0 < c_B c) /\ (disabled c = true <-> base = false /\ q1 = 0 /\ q2 = 0)).
  { intros q1 q2 NZ.
    assert (core2 : forall a b, b <= a -> (base = true -> a <> 0 /\ b <> 0) -> (let* sb := rsqrt b in let* sa := rsqrt a in construct base sb (sa - sb) yint y) = Ret c ->
      c_base c = base /\ c_yint c = yint /\ c_y c = y /\ 0 <= y <= yint /\ 0 <= c_B c /\ 0 <= c_S c /\ (base = true -> 0 < c_B c) /\ (disabled c = true <-> base = false /\ a = 0 /\ b = 0)).
    { intros a b L NZ2 H. unfold rsqrt in H at 1. destruct (Rlt_dec b 0) as [Lb|Lb]; [rewrite rlt_true in H by exact Lb; discriminate|]. rewrite rlt_false in H by lra. cbn [rbind] in H.
      rewrite rsqrt_ok in H by lra. cbn [rbind] in H. unfold construct in H. destruct (pminmax _); [|discriminate]. cbn [rbind] in H. injection H as <-. cbn [c_base c_yint c_y c_B c_S].
      assert (SL : sqrt b <= sqrt a) by (apply sqrt_le_1_alt; exact L). assert (Sb := sqrt_pos b). repeat (split; [first [reflexivity|lra]|]). split.
      - intros Hb. destruct (NZ2 Hb) as [_ Nb]. apply sqrt_lt_R0. lra.
      - assert (Ha0 : sqrt a * sqrt a = a) by (apply sqrt_sqrt; lra). assert (Hb0 : sqrt b * sqrt b = b) by (apply sqrt_sqrt; lra).
        unfold disabled, pa_raw, pb_raw. cbn [c_B c_S]. replace ((sqrt a - sqrt b + sqrt b) ^ 2) with a by (rewrite <- Ha0 at 1; ring). rewrite Hb0. rewrite andb_true_iff. unfold req.
        destruct (Req_EM_T a 0) as [E1|E1], (Req_EM_T b 0) as [E2|E2]; split; try (intros [? ?]; discriminate); try (intros (? & ? & ?); contradiction).
        + intros _. destruct base; [destruct (NZ2 eq_refl); contradiction|auto].
        + auto. }
    destruct (Rlt_dec q1 q2) as [L|L]; [rewrite rlt_true by exact L|rewrite rlt_false by lra]; intros H.
    - destruct (core2 q2 q1 ltac:(lra) ltac:(intros B; destruct (NZ B); auto) H) as (A1 & A2 & A3 & A4 & A5 & A6 & A7 & A8). repeat (split; [assumption|]). rewrite A8. tauto.
    - exact (core2 q1 q2 ltac:(lra) NZ H). }
  destruct base.
  - unfold rdiv at 1. destruct (Req_EM_T p1 0) as [E1|E1]; [rewrite req_true by exact E1; discriminate|]. rewrite req_false by exact E1. cbn [rbind]. unfold rdiv at 1. destruct (Req_EM_T p2 0) as [E2|E2]; [rewrite req_true by exact E2; discriminate|]. rewrite req_false by exact E2. cbn [rbind]. intros H.
    assert (I1 : 1 / p1 <> 0) by (unfold Rdiv; rewrite Rmult_1_l; apply Rinv_neq_0_compat; exact E1). assert (I2 : 1 / p2 <> 0) by (unfold Rdiv; rewrite Rmult_1_l; apply Rinv_neq_0_compat; exact E2).
    destruct (core (1 / p1) (1 / p2) (fun _ => conj I1 I2) H) as (A1 & A2 & A3 & A4 & A5 & A6 & A7 & A8). repeat (split; [assumption|]). rewrite A8. split; intros (? & _); discriminate.
  - cbn [rbind]. intros H. exact (core p1 p2 ltac:(discriminate) H).
Qed.
(** a curve is found again from its prices *)
Lemma rebuild (c : curve) : 0 <= c_B c -> 0 <= c_S c -> 0 <= c_y c <= c_yint c -> (c_base c = true -> 0 < c_B c) -> disabled c = false ->
  exists o, make_order (mkIn None None (Some (c_yint c)) (Some (pa_raw c)) (Some (pb_raw c)) None (Some (c_y c)) None false false) = Ret o /\ from_order (c_base c) o = Ret c /\ (exists m, p_marg c = Ret m) /\
    o_y o = c_y c /\ o_yint o = c_yint c /\ o_plow o = pb_raw c /\ o_phigh o = pa_raw c.
Proof.
  intros HB HS HY Hb D. assert (Pl : 0 <= pb_raw c) by (unfold pb_raw; apply Rle_0_sqr). assert (Le : pb_raw c <= pa_raw c) by (unfold pb_raw, pa_raw; assert (0 <= c_S c * c_S c) by apply Rle_0_sqr; assert (0 <= c_S c * c_B c) by (apply Rmult_le_pos; assumption); simpl; lra).
  assert (Sl : sqrt (pb_raw c) = c_B c) by (unfold pb_raw; apply sqrt_square; exact HB). assert (Sh : sqrt (pa_raw c) = c_S c + c_B c) by (unfold pa_raw; replace ((c_S c + c_B c) ^ 2) with ((c_S c + c_B c) * (c_S c + c_B c)) by ring; apply sqrt_square; lra).
  unfold make_order, convert_prices. cbn [i_B i_S i_plow i_phigh]. rewrite rlt_false by exact Le. rewrite !rsqrt_ok by lra. cbn [rbind]. unfold convert_yint. cbn [i_yint i_y i_adj i_D rbind opt_eqb]. rewrite req_true by reflexivity.
  eexists. split; [reflexivity|]. unfold from_order. cbn [o_B o_S o_yint o_y o_plow o_phigh]. rewrite Sl, Sh. replace (c_S c + c_B c - c_B c) with (c_S c) by ring.
  assert (Pos : 0 < pa_raw c). { destruct (Req_EM_T (pa_raw c) 0) as [E|E]; [|lra]. exfalso. unfold disabled in D. rewrite (req_true _ _ E), (req_true (pb_raw c) 0) in D by lra. discriminate. }
  assert (Pb : c_base c = true -> pb_raw c <> 0). { intros B. specialize (Hb B). unfold pb_raw. assert (0 < c_B c * c_B c) by (apply Rmult_lt_0_compat; assumption). lra. }
  split; [|split; [|auto]].
  - unfold construct. destruct c as [bs B W z y]. cbn [c_base c_B c_S c_yint c_y] in *. unfold pminmax. rewrite D. unfold pa, pb. rewrite D. cbn [c_base]. destruct bs; [rewrite (rdiv_ok 1 (pa_raw _)) by lra; rewrite (rdiv_ok 1 (pb_raw _)) by (apply Pb; reflexivity)|]; cbn [rbind]; reflexivity.
  - unfold p_marg, p_marg_f. rewrite D. cbn [negb]. rewrite rlt_false by lra. cbn [andb]. replace (c_y c - 0) with (c_y c) by ring. rewrite rlt_false by lra. cbn [andb].
    assert (Q : forall d, 0 < d \/ c_base c = false -> exists m, (let* p := quoted c d in Ret (Some p)) = Ret m). { intros d Hd. unfold quoted. destruct (c_base c) eqn:Eb; [|eexists; reflexivity]. destruct Hd as [Hd|]; [|discriminate]. rewrite rdiv_ok by lra. eexists. reflexivity. }
    destruct (Req_EM_T (c_yint c) 0) as [Z|Z].
    + rewrite (req_true _ _ Z). rewrite (req_true (c_y c) 0) by lra. cbn [negb andb rbind]. apply Q. left. unfold pa_raw in Pos. rewrite Rplus_comm. exact Pos.
    + rewrite (req_false _ _ Z). cbn [rbind]. apply Q. destruct (c_base c) eqn:Eb; [left|right; reflexivity]. specialize (Hb eq_refl). apply pow_lt.
      assert (0 <= c_S c * c_y c / c_yint c). { unfold Rdiv. apply Rmult_le_pos; [apply Rmult_le_pos; lra|]. left. apply Rinv_0_lt_compat. lra. } lra.
Qed.

Lemma sdk_name_inv tokens a d n x : names_as tokens a d n -> sdk_name tokens a d = Ret x -> x = n.
Proof. intros H E. rewrite (sdk_name_spec _ _ _ _ H) in E. injection E as <-. reflexivity. Qed.
(** what from_SDK returns *)
Lemma from_sdk_inv tokens k nsd nb nq buy sell : names_as tokens (k_base k) "TKNB" nb -> names_as tokens (k_quote k) "TKNQ" nq -> plain nb -> plain nq -> nb <> nq ->
  from_SDK tokens k nsd = Ret (buy, sell) ->
  let p := mkPair nb nq nb nq false None None in exists cs cb ys yb, sell = mkUi p nb cs /\ buy = mkUi p nq cb /\
    from_prices true (roundsd (k_sellLow k) nsd) (roundsd (k_sellHigh k) nsd) (roundsd (k_sellBudget k) nsd) ys = Ret cs /\
    from_prices false (roundsd (k_buyHigh k) nsd) (roundsd (k_buyLow k) nsd) (roundsd (k_buyBudget k) nsd) yb = Ret cb.
Proof.
  intros Hb Hq Pb Pq Nn H p. unfold from_SDK in H. destruct (negb _); [discriminate|].
  set (sel := if String.eqb (k_base k) (k_token0 k) then _ else _) in H. destruct sel as [[[yb zb] yq] zq].
  rewrite (sdk_name_spec _ _ _ _ Hq), (sdk_name_spec _ _ _ _ Hb) in H. cbn [rbind] in H. destruct (ratio yq zq) as [lq|]; [|discriminate]. cbn [rbind] in H. destruct (ratio yb zb) as [lb|]; [|discriminate]. cbn [rbind] in H.
  unfold mk_pair at 1 in H. cbn [slash_truthy str_truthy orb] in H. destruct Pb as [Ub Sb]. destruct Pq as [Uq Sq]. rewrite Ub, Uq in H. fold p in H.
  unfold ui_from_prices in H. rewrite !copy_spec in H by (cbn [tknb tknq p]; split; assumption). cbn [tknb tknq tknb_decimals tknq_decimals p] in H. fold p in H.
  assert (E1 : has_basetoken p nb = true) by (apply String.eqb_refl). assert (E2 : has_basetoken p nq = false) by (apply String.eqb_neq; cbn; congruence).
  rewrite E1, E2, Ub, Uq in H. assert (T1 : has_token p nb = true) by (apply has_token_spec; left; reflexivity). assert (T2 : has_token p nq = true) by (apply has_token_spec; right; reflexivity). rewrite T1, T2 in H.
  destruct (from_prices true _ _ _ _) as [cs|] eqn:Es; [|discriminate]. cbn [rbind] in H. destruct (from_prices false _ _ _ _) as [cb|] eqn:Eb; [|discriminate]. cbn [rbind] in H.
  injection H as <- <-. exists cs, cb. do 2 eexists. split; [reflexivity|]. split; [reflexivity|]. split; eassumption.
Qed.
Lemma dset_new {V} (d : list (nat * V)) i v : (forall j w, In (j, w) d -> j <> i) -> SimModel.dset Nat.eqb i v d = d ++ [(i, v)].
Proof.
  induction d as [|[j w] d IH]; intros H; [reflexivity|]. cbn [SimModel.dset app]. destruct (Nat.eqb_spec i j) as [->|_]; [exfalso; exact (H j w (or_introl eq_refl) eq_refl)|]. rewrite IH; [reflexivity|]. intros a b Hab. apply (H a b). right. exact Hab.
Qed.
Lemma sell_again s tkn p id1 id2 cid c : has_basetoken p tkn = c_base c -> 0 <= c_B c -> 0 <= c_S c -> 0 <= c_y c <= c_yint c -> (c_base c = true -> 0 < c_B c) -> disabled c = false ->
  plain (tknb p) -> plain (tknq p) -> has_token p tkn = true -> upper tkn = tkn -> p = mkPair (tknb p) (tknq p) (tknb p) (tknq p) false (tknb_decimals p) (tknq_decimals p) ->
  exists o, sell_tkn s tkn (c_y c) (pb_raw c) (pa_raw c) p id1 id2 (c_yint c) cid = (put s o, Ret o) /\ shown o = Ret (mkUi p tkn c) /\
    so_tkn o = tkn /\ so_pair o = p /\ so_id o = id1 /\ so_lid o = id2 /\ so_cid o = cid /\ o_y (so_order o) = c_y c /\ o_yint (so_order o) = c_yint c /\ o_plow (so_order o) = pb_raw c /\ o_phigh (so_order o) = pa_raw c.
Proof.
  intros Hb HB HS HY Hp D Pb Pq Ht U Ep. destruct (rebuild c HB HS HY Hp D) as (o & M & F & (m & Pm) & O1 & O2 & O3 & O4).
  assert (Le : pb_raw c <= pa_raw c) by (unfold pb_raw, pa_raw; assert (0 <= c_S c * c_S c) by apply Rle_0_sqr; assert (0 <= c_S c * c_B c) by (apply Rmult_le_pos; assumption); simpl; lra).
  unfold sell_tkn. rewrite rle_true by exact Le. rewrite rlt_false by lra. rewrite M. eexists. split; [reflexivity|]. split; [|cbn [so_tkn so_pair so_id so_lid so_cid so_order]; auto 20].
  unfold shown. cbn [so_pair so_tkn so_order]. rewrite copy_spec by assumption. rewrite <- Ep. rewrite U, Ht. cbn [negb]. rewrite Hb, F. cbn [rbind]. rewrite Pm. reflexivity.
Qed.
Lemma back_price p tkn c x y : has_token p tkn = true -> tknb p <> tknq p -> has_basetoken p tkn = c_base c -> disabled c = false -> (c_base c = true -> pa_raw c <> 0 /\ pb_raw c <> 0) ->
  pa c = Ret x -> pb c = Ret y -> convert_priceR p x tkn = Ret (pa_raw c) /\ convert_priceR p y tkn = Ret (pb_raw c).
Proof.
  intros Ht N Hb D Nz. unfold pa, pb. rewrite D. unfold convert_priceR. apply has_token_spec in Ht. unfold has_quotetoken. unfold has_basetoken in Hb. destruct (c_base c).
  - apply String.eqb_eq in Hb. subst tkn. rewrite (proj2 (String.eqb_neq _ _) N). destruct (Nz eq_refl) as [N1 N2]. rewrite !rdiv_ok by assumption. intros [= <-] [= <-].
    assert (I1 : / pa_raw c <> 0) by (apply Rinv_neq_0_compat; exact N1). assert (I2 : / pb_raw c <> 0) by (apply Rinv_neq_0_compat; exact N2). unfold Rdiv. rewrite !Rmult_1_l. rewrite !rdiv_ok by assumption. unfold Rdiv. rewrite !Rmult_1_l, !Rinv_inv. auto.
  - destruct Ht as [->| ->]; [rewrite String.eqb_refl in Hb; discriminate|]. rewrite String.eqb_refl. intros [= <-] [= <-]. auto.
Qed.
Lemma price_pos c : 0 <= c_B c -> 0 <= c_S c -> (c_base c = true -> 0 < c_B c) -> disabled c = false -> (c_base c = true -> pa_raw c <> 0 /\ pb_raw c <> 0) /\ exists x y, pa c = Ret x /\ pb c = Ret y.
Proof.
  intros HB HS Hb D. assert (Nz : c_base c = true -> pa_raw c <> 0 /\ pb_raw c <> 0).
  { intros B. specialize (Hb B). assert (0 < c_B c * c_B c) by (apply Rmult_lt_0_compat; assumption). assert (0 < (c_S c + c_B c) ^ 2) by (apply pow_lt; lra). unfold pa_raw, pb_raw. split; lra. }
  split; [exact Nz|]. unfold pa, pb. rewrite D. destruct (c_base c); [|eauto]. destruct (Nz eq_refl). rewrite !rdiv_ok by assumption. eauto.
Qed.
Lemma added tokens s k id nsd nb nq buy sell : names_as tokens (k_base k) "TKNB" nb -> names_as tokens (k_quote k) "TKNQ" nq -> plain nb -> plain nq -> nb <> nq ->
  from_SDK tokens k nsd = Ret (buy, sell) -> ~ (roundsd (k_buyLow k) nsd = 0 /\ roundsd (k_buyHigh k) nsd = 0) -> orderly s ->
  let n := s_next s in exists o1 o2,
    add_fromsdk tokens s k id nsd = (mkSim (S (S n)) (s_orders s ++ [(n, o1); (S n, o2)]), Ret [(n, (sell, buy)); (S n, (buy, sell))]) /\
    (so_tkn o1 = nb /\ so_id o1 = n /\ so_lid o1 = S n /\ so_cid o1 = id /\ so_pair o1 = u_pair sell /\ o_y (so_order o1) = c_y (u_curve sell) /\ o_yint (so_order o1) = c_yint (u_curve sell)) /\
    (so_tkn o2 = nq /\ so_id o2 = S n /\ so_lid o2 = n /\ so_cid o2 = id /\ so_pair o2 = u_pair sell /\ o_y (so_order o2) = c_y (u_curve buy) /\ o_yint (so_order o2) = c_yint (u_curve buy)).
Proof.
  intros Hb Hq Pb Pq Nn H Nz Ord n. destruct (from_sdk_inv _ _ _ _ _ _ _ Hb Hq Pb Pq Nn H) as (cs & cb & ys & yb & Es & Eb & Fs & Fb). cbv zeta in Es, Eb. set (p := mkPair nb nq nb nq false None None) in *. subst sell buy.
  destruct (from_prices_inv _ _ _ _ _ _ Fs) as (S1 & S2 & S3 & S4 & S5 & S6 & S7 & S8). destruct (from_prices_inv _ _ _ _ _ _ Fb) as (B1 & B2 & B3 & B4 & B5 & B6 & B7 & B8).
  assert (Ds : disabled cs = false). { destruct (disabled cs); [|reflexivity]. destruct (proj1 S8 eq_refl) as [? _]. discriminate. }
  assert (Db : disabled cb = false). { destruct (disabled cb); [|reflexivity]. destruct (proj1 B8 eq_refl) as (_ & E1 & E2). exfalso. apply Nz. auto. }
  rewrite <- S2, <- S3 in S4. rewrite <- B2, <- B3 in B4. assert (S7' : c_base cs = true -> 0 < c_B cs) by (intros _; apply S7; reflexivity). clear S7. rename S7' into S7. assert (B7' : c_base cb = true -> 0 < c_B cb) by (rewrite B1; discriminate). clear B7. rename B7' into B7.
  destruct (price_pos cs S5 S6 S7 Ds) as (Ns & xs & zs & Pa1 & Pb1). destruct (price_pos cb B5 B6 B7 Db) as (Nb & xb & zb & Pa2 & Pb2).
  assert (T1 : has_token p nb = true) by (apply has_token_spec; left; reflexivity). assert (T2 : has_token p nq = true) by (apply has_token_spec; right; reflexivity).
  assert (E1 : has_basetoken p nb = c_base cs) by (rewrite S1; apply String.eqb_refl). assert (E2 : has_basetoken p nq = c_base cb) by (rewrite B1; apply String.eqb_neq; cbn; congruence).
  destruct (back_price p nb cs xs zs T1 Nn E1 Ds Ns Pa1 Pb1) as [C1 C2]. destruct (back_price p nq cb xb zb T2 Nn E2 Db Nb Pa2 Pb2) as [C3 C4].
  unfold add_fromsdk. rewrite H. cbn [rbind u_curve u_tkn u_pair]. rewrite Pa1, Pb1, Pa2, Pb2. cbn [rbind u_curve u_tkn u_pair].
  unfold add_strategyR. assert (Ot : other p nb = Some nq) by (unfold other; rewrite E1, S1; reflexivity). rewrite Ot, C1, C2, C3, C4. cbn [rbind]. fold n.
  set (s0 := mkSim (S (S n)) (s_orders s)). destruct Pb as [Ub Fbn]. destruct Pq as [Uq Fqn].
  destruct (sell_again s0 nb p n (S n) id cs E1 S5 S6 S4 S7 Ds (conj Ub Fbn) (conj Uq Fqn) T1 Ub eq_refl) as (o1 & O1 & W1 & X1 & X2 & X3 & X4 & X5 & X6 & X7 & _). rewrite O1.
  destruct (sell_again (put s0 o1) nq p (S n) n id cb E2 B5 B6 B4 B7 Db (conj Ub Fbn) (conj Uq Fqn) T2 Uq eq_refl) as (o2 & O2 & W2 & Y1 & Y2 & Y3 & Y4 & Y5 & Y6 & Y7 & _). rewrite O2.
  exists o1, o2. rewrite W1, W2. cbn [rbind]. split; [|auto 20]. f_equal. unfold put. cbn [s_next s_orders s0]. rewrite X3, Y3. f_equal.
  rewrite (dset_new (s_orders s)). 2: { intros j w Hj. destruct (Ord j w Hj). fold n in H0. lia. }
  rewrite dset_new; [rewrite <- app_assoc; reflexivity|]. intros j w Hj. apply in_app_iff in Hj. destruct Hj as [Hj|[[= <- _]|[]]]; [destruct (Ord j w Hj); fold n in H0; lia|lia].
Qed.
Lemma added_fail tokens s k id nsd : (forall e, from_SDK tokens k nsd = Raise e -> add_fromsdk tokens s k id nsd = (s, Raise e)) /\
  (forall nb nq bs, names_as tokens (k_base k) "TKNB" nb -> names_as tokens (k_quote k) "TKNQ" nq -> plain nb -> plain nq -> nb <> nq -> from_SDK tokens k nsd = Ret bs -> roundsd (k_buyLow k) nsd = 0 -> roundsd (k_buyHigh k) nsd = 0 -> add_fromsdk tokens s k id nsd = (s, Raise AttributeError)).
Proof.
  split; [intros e E; unfold add_fromsdk; rewrite E; reflexivity|]. intros nb nq [buy sell] Hb Hq Pb Pq Nn H Z1 Z2.
  destruct (from_sdk_inv _ _ _ _ _ _ _ Hb Hq Pb Pq Nn H) as (cs & cb & ys & yb & Es & Eb & Fs & Fb). cbv zeta in Es, Eb. subst sell buy.
  destruct (from_prices_inv _ _ _ _ _ _ Fs) as (S1 & S2 & S3 & S4 & S5 & S6 & S7 & S8). destruct (from_prices_inv _ _ _ _ _ _ Fb) as (B1 & B2 & B3 & B4 & B5 & B6 & B7 & B8).
  assert (Ds : disabled cs = false). { destruct (disabled cs); [|reflexivity]. destruct (proj1 S8 eq_refl) as [? _]. discriminate. }
  assert (Db : disabled cb = true) by (apply B8; auto). assert (S7' : c_base cs = true -> 0 < c_B cs) by (intros _; apply S7; reflexivity). clear S7. rename S7' into S7. destruct (price_pos cs S5 S6 S7 Ds) as (Ns & xs & zs & Pa1 & Pb1).
  unfold add_fromsdk. rewrite H. cbn [rbind u_curve]. rewrite Pa1, Pb1. cbn [rbind]. unfold pa at 1. rewrite Db. reflexivity.
Qed.
(** whatever happens, nothing is lost *)
Lemma put_kept s o : orderly s -> (so_id o < s_next s)%nat -> (forall j w, In (j, w) (s_orders s) -> j <> so_id o) -> orderly (put s o) /\ s_next (put s o) = s_next s /\ s_orders (put s o) = s_orders s ++ [(so_id o, o)].
Proof.
  intros Or L F. unfold put. cbn [s_next s_orders]. rewrite dset_new by exact F. split; [|auto]. intros i x. cbn [s_orders s_next]. rewrite in_app_iff. intros [Hi|[[= <- <-]|[]]]; [exact (Or i x Hi)|auto].
Qed.
Lemma kept tokens s k id nsd : orderly s -> let s' := fst (add_fromsdk tokens s k id nsd) in orderly s' /\ (s_next s <= s_next s' <= S (S (s_next s)))%nat /\ exists l, s_orders s' = s_orders s ++ l /\ (List.length l <= 2)%nat.
Proof.
  intros Or. cbv zeta.
  assert (K : orderly s /\ (s_next s <= s_next s <= S (S (s_next s)))%nat /\ exists l, s_orders s = s_orders s ++ l /\ (List.length l <= 2)%nat) by (split; [exact Or|split; [lia|exists []; split; [rewrite app_nil_r; reflexivity|cbn; lia]]]).
  unfold add_fromsdk. set (r := let* bs := from_SDK tokens k nsd in _). destruct r as [[[[[[buy sell] a] b] c] d]|e]; [|exact K].
  unfold add_strategyR. destruct (other _ _) as [tkn2|]; [|exact K]. set (n := s_next s) in *. set (s0 := mkSim (S (S n)) (s_orders s)).
  assert (Or0 : orderly s0). { intros i o Hi. destruct (Or i o Hi) as [Li Ei]. cbn [s_next s0]. fold n in Li. split; [lia|exact Ei]. }
  assert (K0 : orderly s0 /\ (n <= s_next s0 <= S (S n))%nat /\ exists l, s_orders s0 = s_orders s ++ l /\ (List.length l <= 2)%nat) by (split; [exact Or0|split; [cbn; lia|exists []; split; [rewrite app_nil_r; reflexivity|cbn; lia]]]).
  set (r2 := let* x := convert_priceR _ a _ in _). destruct r2 as [[[[pss pse] pbs] pbe]|e]; [|exact K0].
  assert (F0 : forall j w, In (j, w) (s_orders s0) -> j <> n) by (intros j w Hj; destruct (Or j w Hj) as [L _]; fold n in L; lia).
  assert (Sk1 : forall amt lo hi yint, let '(s', r) := sell_tkn s0 (u_tkn sell) amt lo hi (u_pair sell) n (S n) yint id in orderly s' /\ s_next s' = S (S n) /\ exists l, s_orders s' = s_orders s ++ l /\ (List.length l <= 1)%nat /\ (forall j w, In (j, w) l -> j = n)).
  { intros amt lo hi yint. unfold sell_tkn. destruct (if rle lo hi then (lo, hi) else (hi, lo)) as [x y]. assert (K1 : orderly s0 /\ s_next s0 = S (S n) /\ exists l, s_orders s0 = s_orders s ++ l /\ (List.length l <= 1)%nat /\ (forall j w, In (j, w) l -> j = n)) by (split; [exact Or0|split; [reflexivity|exists []; split; [rewrite app_nil_r; reflexivity|split; [cbn; lia|intros j w []]]]]).
    destruct (rlt yint amt); [exact K1|]. destruct (make_order _) as [o|]; [|exact K1]. destruct (put_kept s0 (mkSo (u_tkn sell) (u_pair sell) o n (S n) id) Or0) as (A & B & C); cbn [so_id s_next s0] in *; [lia|exact F0|]. split; [exact A|]. split; [exact B|]. eexists. split; [exact C|]. split; [cbn; lia|]. intros j w [[= <- _]|[]]; reflexivity. }
  specialize (Sk1 (c_y (u_curve sell)) pse pss (c_yint (u_curve sell))). destruct (sell_tkn s0 _ _ _ _ _ _ _ _ _) as [s1 [o1|e1]]; destruct Sk1 as (A & B & l & C & Ll & Lk); [|split; [exact A|split; [cbn [fst]; lia|exists l; split; [exact C|lia]]]].
  assert (Sk2 : let '(s', r) := sell_tkn s1 tkn2 (c_y (u_curve buy)) pbe pbs (u_pair sell) (S n) n (c_yint (u_curve buy)) id in orderly s' /\ s_next s' = S (S n) /\ exists l, s_orders s' = s_orders s ++ l /\ (List.length l <= 2)%nat).
  { unfold sell_tkn. destruct (if rle pbe pbs then (pbe, pbs) else (pbs, pbe)) as [x y]. assert (K1 : orderly s1 /\ s_next s1 = S (S n) /\ exists l, s_orders s1 = s_orders s ++ l /\ (List.length l <= 2)%nat) by (split; [exact A|split; [exact B|exists l; split; [exact C|lia]]]).
    destruct (rlt _ _); [exact K1|]. destruct (make_order _) as [o|]; [|exact K1]. destruct (put_kept s1 (mkSo tkn2 (u_pair sell) o (S n) n id) A) as (A2 & B2 & C2); cbn [so_id] in *; [lia| |].
    - intros j w. rewrite C, in_app_iff. intros [Hj|Hj]; [destruct (Or j w Hj) as [L _]; fold n in L; lia|rewrite (Lk j w Hj); lia].
    - split; [exact A2|]. split; [congruence|]. rewrite C2, C. exists (l ++ [(S n, mkSo tkn2 (u_pair sell) o (S n) n id)]). rewrite app_assoc. split; [reflexivity|]. rewrite app_length. cbn [List.length]. lia. }
  destruct (sell_tkn s1 _ _ _ _ _ _ _ _ _) as [s2 [o2|e2]]; destruct Sk2 as (A2 & B2 & l2 & C2 & Ll2); cbn [fst]; (split; [exact A2|split; [lia|exists l2; auto]]).
Qed.

(** ** groups of curves *)
Lemma once_in l x : In x (once l) <-> In x l.
Proof.
  induction l as [|a l IH]; [tauto|]. cbn [once In]. rewrite filter_In, IH, negb_true_iff, String.eqb_neq. destruct (string_dec a x); tauto.
Qed.
Lemma once_nodup l : NoDup (once l).
Proof.
  induction l as [|a l IH]; cbn [once]; constructor.
  - rewrite filter_In, String.eqb_refl. intros [_ H]. discriminate.
  - apply NoDup_filter. exact IH.
Qed.
Lemma groups_spec {I} (curves : list (I * ui)) : let r := curves_by_pair_bidask curves in
  NoDup (map fst r) /\ (forall p, In p (map fst r) <-> exists u, In u (map snd curves) /\ slashpair_of (u_pair u) = p) /\
  forall p g, In (p, g) r -> forall u,
    (In u (g_all g) <-> In u (map snd curves) /\ slashpair_of (u_pair u) = p) /\ (In u (g_ask g) <-> In u (g_all g) /\ u_tkn u = tknb (u_pair u)) /\ (In u (g_bid g) <-> In u (g_all g) /\ u_tkn u <> tknb (u_pair u)).
Proof.
  cbv zeta. unfold curves_by_pair_bidask. rewrite map_map. cbn [fst]. rewrite map_id. split; [apply once_nodup|]. split.
  - intros p. rewrite once_in, in_map_iff. split; intros (u & A & B); exists u; auto.
  - intros p g Hg u. apply in_map_iff in Hg. destruct Hg as (q & [= <- <-] & _). cbn [g_all g_ask g_bid]. rewrite !filter_In, !andb_true_iff, !String.eqb_eq. unfold bidask. destruct (String.eqb_spec (u_tkn u) (tknb (u_pair u))) as [E|E]; cbn; intuition congruence.
Qed.
Lemma groups_order {I} (curves : list (I * ui)) p g : In (p, g) (curves_by_pair_bidask curves) -> g_all g = filter (fun u => String.eqb (slashpair_of (u_pair u)) p) (map snd curves) /\
  (List.length (g_ask g) + List.length (g_bid g) = List.length (g_all g))%nat.
Proof.
  unfold curves_by_pair_bidask. intros Hg. apply in_map_iff in Hg. destruct Hg as (q & [= <- <-] & _). cbn [g_all g_ask g_bid]. split; [reflexivity|].
  induction (map snd curves) as [|u l IH]; [reflexivity|]. cbn [filter]. destruct (String.eqb (slashpair_of (u_pair u)) q); cbn [andb]; [|exact IH]. assert (B : bidask u = "BID"%string \/ bidask u = "ASK"%string) by (unfold bidask; destruct (String.eqb (u_tkn u) (tknb (u_pair u))); auto). destruct B as [-> | ->]; cbn [String.eqb Ascii.eqb Bool.eqb List.length]; lia.
Qed.
(** ** reading single orders *)
Lemma bn_spec d : (forall z, Forall (fun kv => exists v, bn2int (snd kv) = Ret v) d -> bn2intd d <> Raise z) /\ forall r, bn2intd d = Ret r -> map fst r = map fst d /\ Forall2 (fun kv kz => bn2int (snd kv) = Ret (snd kz)) d r.
Proof.
  induction d as [|[k v] d [IH1 IH2]]; cbn [bn2intd].
  - split; [discriminate|]. intros r [= <-]. split; [reflexivity|constructor].
  - split.
    + intros z F. inversion F as [|? ? (x & Ex) Fd]; subst. cbn [snd] in Ex. rewrite Ex. cbn [rbind]. destruct (bn2intd d) as [r|e] eqn:E; [discriminate|]. exfalso. exact (IH1 e Fd eq_refl).
    + intros r. destruct (bn2int v) as [x|] eqn:Ex; [|discriminate]. cbn [rbind]. destruct (bn2intd d) as [r'|] eqn:E; [|discriminate]. cbn [rbind]. intros [= <-]. destruct (IH2 r' eq_refl) as [A B]. split; [cbn; rewrite A; reflexivity|constructor; assumption].
Qed.
Lemma sdk0_never d enc dec sx : exists e, from_SDK0 d enc dec sx = Raise e.
Proof.
  unfold from_SDK0. destruct (bn2intd _) as [r|e]; [|eexists; reflexivity]. cbn [rbind].
  destruct (SdkModel.dget "A" r); [|eexists; reflexivity]. cbn [rbind]. destruct (SdkModel.dget "B" r); [|eexists; reflexivity]. cbn [rbind]. destruct (SdkModel.dget "y" r); [|eexists; reflexivity]. cbn [rbind]. destruct (SdkModel.dget "z" r); eexists; reflexivity.
Qed.
Lemma dget_key {A} (l : list (string * A)) k : In k (map fst l) -> exists v, SdkModel.dget k l = Some v.
Proof. induction l as [|[j v] l IH]; [intros []|]. cbn [map fst In SdkModel.dget]. destruct (String.eqb_spec k j) as [->|N]; [eauto|]. intros [E|H]; [congruence|auto]. Qed.
Lemma sdk0_complete d enc dec sx : let e := match enc with Some e => e | None => d end in Forall (fun kv => exists v, bn2int (snd kv) = Ret v) e -> (forall k, In k ["A"; "B"; "y"; "z"]%string -> In k (map fst e)) -> from_SDK0 d enc dec sx = Raise TypeError.
Proof.
  intros e F K. unfold from_SDK0. fold e. destruct (bn_spec e) as [B1 B2]. destruct (bn2intd e) as [r|x]; [|exfalso; exact (B1 x F eq_refl)]. destruct (B2 r eq_refl) as [M _]. cbn [rbind].
  assert (G : forall k, In k ["A"; "B"; "y"; "z"]%string -> exists v, SdkModel.dget k r = Some v) by (intros k Hk; apply dget_key; rewrite M; apply K; exact Hk).
  destruct (G "A"%string) as (a & ->); [cbn; auto|]. destruct (G "B"%string) as (b & ->); [cbn; auto|]. destruct (G "y"%string) as (y & ->); [cbn; auto|]. destruct (G "z"%string) as (z & ->); [cbn; auto|]. reflexivity.
Qed.
