(** Orders, their curve and what the exact router sees of them. *)
From Coq Require Import Reals Lra Bool List.
From Verif Require Import CurveModel CurveSpec CurveProofs OrderModel ExactModel ExactSpec ExactProofs.
Local Open Scope R_scope.

Definition by_prices (p1 p2 : R) (yint pm y : option R) : order_in := mkIn None None yint (Some p1) (Some p2) pm y None false false.

Lemma sqrt_minmax p1 p2 : 0 < p1 -> 0 < p2 -> p1 <> p2 -> 0 < sqrt (Rmin p1 p2) < sqrt (Rmax p1 p2).
Proof.
  intros H1 H2 N. assert (0 < Rmin p1 p2 < Rmax p1 p2) by (unfold Rmin, Rmax; destruct (Rle_dec p1 p2); lra).
  split; [apply sqrt_lt_R0; lra|apply sqrt_lt_1; lra].
Qed.
Lemma convert_sorted p1 p2 yint pm y : 0 < p1 -> 0 < p2 ->
  convert_prices (by_prices p1 p2 yint pm y) = Ret (Some (sqrt (Rmin p1 p2)), Some (sqrt (Rmax p1 p2) - sqrt (Rmin p1 p2)), Some (Rmin p1 p2), Some (Rmax p1 p2)).
Proof.
  intros H1 H2. unfold convert_prices, by_prices. cbn [i_B i_S i_plow i_phigh]. unfold rlt, Rmin, Rmax. destruct (Rlt_dec p1 p2) as [L|L], (Rle_dec p1 p2) as [M|M]; try lra.
  - rewrite !rsqrt_ok by lra. reflexivity.
  - rewrite !rsqrt_ok by lra. cbn [rbind]. assert (p1 = p2) by lra. subst. reflexivity.
  - rewrite !rsqrt_ok by lra. reflexivity.
Qed.
Lemma from_order_ok base o B S : o_B o = Some B -> o_S o = Some S -> 0 < B -> 0 <= S -> from_order base o = Ret (mkCurve base B S (o_yint o) (o_y o)).
Proof.
  intros EB ES HB HS. unfold from_order. rewrite EB, ES. unfold construct, pminmax, pa, pb. 
  assert (Hd : disabled (mkCurve base B S (o_yint o) (o_y o)) = false). { unfold disabled, pb_raw. cbn [c_B]. rewrite (req_false (B * B)); [apply andb_false_r|]. pose proof (Rmult_lt_0_compat _ _ HB HB). lra. }
  rewrite Hd. cbn [c_base]. destruct base; [|reflexivity].
  assert (0 < pa_raw (mkCurve true B S (o_yint o) (o_y o))) by (unfold pa_raw; cbn [c_B c_S]; apply pow_lt; lra).
  assert (0 < pb_raw (mkCurve true B S (o_yint o) (o_y o))) by (unfold pb_raw; cbn [c_B c_S]; apply Rmult_lt_0_compat; lra).
  rewrite !rdiv_ok by lra. reflexivity.
Qed.

(** C34 *)
Lemma marginal_order base p1 p2 pm y : 0 < p1 -> 0 < p2 -> p1 <> p2 -> Rmin p1 p2 < pm -> 0 < y ->
  exists o c, make_order (by_prices p1 p2 None (Some pm) (Some y)) = Ret o /\ from_order base o = Ret c /\
    o_plow o = Rmin p1 p2 /\ o_phigh o = Rmax p1 p2 /\ o_y o = y /\ c_y c = y /\ c_yint c = o_yint o /\ c_base c = base /\ 0 < o_yint o /\
    raw_price c 0 = Rmin p1 p2 /\ raw_price c (o_yint o) = Rmax p1 p2 /\ raw_price c y = pm /\ (y <= o_yint o <-> pm <= Rmax p1 p2) /\
    (pm <= Rmax p1 p2 -> valid c /\ forall cb re, p_marg_f c 0 false cb re = Ret (Some (in_quote c pm))).
Proof.
  intros H1 H2 N Hm Hy. destruct (sqrt_minmax p1 p2 H1 H2 N) as [Hl Hlh]. assert (Hmin : 0 < Rmin p1 p2) by (unfold Rmin; destruct (Rle_dec p1 p2); lra).
  assert (Hmax : 0 < Rmax p1 p2) by (unfold Rmax; destruct (Rle_dec p1 p2); lra).
  assert (Hlm : sqrt (Rmin p1 p2) < sqrt pm) by (apply sqrt_lt_1; lra).
  assert (Hne : Rmax p1 p2 <> Rmin p1 p2) by (unfold Rmin, Rmax; destruct (Rle_dec p1 p2); lra).
  unfold make_order. rewrite convert_sorted by assumption. cbn [rbind]. unfold convert_yint, by_prices. cbn [i_yint i_pmarg i_y i_D i_adj].
  rewrite !rsqrt_ok by lra. cbn [rbind]. rewrite rdiv_ok by lra. cbn [rbind opt_eqb]. rewrite (req_false _ _ Hne).
  set (z := y * (sqrt (Rmax p1 p2) - sqrt (Rmin p1 p2)) / (sqrt pm - sqrt (Rmin p1 p2))).
  rewrite (req_true z z eq_refl). eexists. eexists. split; [reflexivity|]. split; [apply from_order_ok; [reflexivity|reflexivity|assumption|lra]|]. cbn [o_plow o_phigh o_y c_y c_yint o_yint c_base].
  assert (Hz : 0 < z) by (unfold z; apply Rdiv_lt_0_compat; [apply Rmult_lt_0_compat; lra|lra]).
  do 6 (split; [reflexivity|]). split; [assumption|]. unfold raw_price. cbn [c_B c_S c_yint].
  split. { unfold Rdiv. rewrite Rmult_0_l, Rmult_0_r, Rplus_0_r. rewrite <- Rsqr_pow2. apply Rsqr_sqrt. lra. }
  split. { replace (sqrt (Rmin p1 p2) + (sqrt (Rmax p1 p2) - sqrt (Rmin p1 p2)) * (z / z)) with (sqrt (Rmax p1 p2)) by (field; lra). rewrite <- Rsqr_pow2. apply Rsqr_sqrt. lra. }
  assert (Emid : sqrt (Rmin p1 p2) + (sqrt (Rmax p1 p2) - sqrt (Rmin p1 p2)) * (y / z) = sqrt pm) by (unfold z; field; repeat split; lra).
  split. { rewrite Emid. rewrite <- Rsqr_pow2. apply Rsqr_sqrt. lra. }
  assert (Hiff : y <= z <-> pm <= Rmax p1 p2).
  { assert (Eyz : z * (sqrt pm - sqrt (Rmin p1 p2)) = y * (sqrt (Rmax p1 p2) - sqrt (Rmin p1 p2))) by (unfold z; field; lra).
    split; intros H.
    - apply Rnot_lt_le. intro Hc. assert (Hs : sqrt (Rmax p1 p2) < sqrt pm) by (apply sqrt_lt_1; lra).
      assert (y * (sqrt pm - sqrt (Rmin p1 p2)) <= z * (sqrt pm - sqrt (Rmin p1 p2))) by (apply Rmult_le_compat_r; lra).
      assert (y * (sqrt (Rmax p1 p2) - sqrt (Rmin p1 p2)) < y * (sqrt pm - sqrt (Rmin p1 p2))) by (apply Rmult_lt_compat_l; lra). lra.
    - apply Rnot_lt_le. intro Hc. assert (Hs : sqrt pm <= sqrt (Rmax p1 p2)) by (apply sqrt_le_1; lra).
      assert (z * (sqrt pm - sqrt (Rmin p1 p2)) < y * (sqrt pm - sqrt (Rmin p1 p2))) by (apply Rmult_lt_compat_r; lra).
      assert (y * (sqrt pm - sqrt (Rmin p1 p2)) <= y * (sqrt (Rmax p1 p2) - sqrt (Rmin p1 p2))) by (apply Rmult_le_compat_l; lra). lra. }
  split; [assumption|]. intros H. apply Hiff in H.
  set (c := mkCurve base (sqrt (Rmin p1 p2)) (sqrt (Rmax p1 p2) - sqrt (Rmin p1 p2)) z y).
  assert (V : valid c) by (unfold valid, c; cbn; lra). split; [assumption|]. intros cb re. rewrite (p_marg_value c 0 cb re V) by (unfold c; cbn; lra).
  do 2 f_equal. unfold price_at. f_equal. unfold raw_price, c. cbn [c_B c_S c_yint c_y]. rewrite Rminus_0_r, Emid. rewrite <- Rsqr_pow2. apply Rsqr_sqrt. lra.
Qed.
Lemma marginal_at_low p1 p2 y : 0 < p1 -> 0 < p2 -> make_order (by_prices p1 p2 None (Some (Rmin p1 p2)) (Some y)) = Raise ZeroDivision.
Proof.
  intros H1 H2. assert (Hmin : 0 < Rmin p1 p2) by (unfold Rmin; destruct (Rle_dec p1 p2); lra).
  assert (Hmax : 0 < Rmax p1 p2) by (unfold Rmax; destruct (Rle_dec p1 p2); lra).
  unfold make_order. rewrite convert_sorted by assumption. cbn [rbind]. unfold convert_yint, by_prices. cbn [i_yint i_pmarg i_y]. rewrite !rsqrt_ok by lra. cbn [rbind].
  unfold rdiv. rewrite req_true by lra. reflexivity.
Qed.
Lemma marginal_below p1 p2 pm y : 0 < p1 -> 0 < p2 -> p1 <> p2 -> 0 <= pm < Rmin p1 p2 -> 0 < y ->
  exists o, make_order (by_prices p1 p2 None (Some pm) (Some y)) = Ret o /\ o_yint o < 0.
Proof.
  intros H1 H2 N Hm Hy. destruct (sqrt_minmax p1 p2 H1 H2 N) as [Hl Hlh].
  assert (Hmax : 0 < Rmax p1 p2) by (unfold Rmax; destruct (Rle_dec p1 p2); lra).
  assert (Hlm : sqrt pm < sqrt (Rmin p1 p2)) by (apply sqrt_lt_1; lra).
  assert (Hne : Rmax p1 p2 <> Rmin p1 p2) by (unfold Rmin, Rmax; destruct (Rle_dec p1 p2); lra).
  unfold make_order. rewrite convert_sorted by assumption. cbn [rbind]. unfold convert_yint, by_prices. cbn [i_yint i_pmarg i_y i_D i_adj].
  rewrite !rsqrt_ok by lra. cbn [rbind]. rewrite rdiv_ok by lra. cbn [rbind opt_eqb]. rewrite (req_false _ _ Hne), (req_true _ _ eq_refl). eexists. split; [reflexivity|]. cbn [o_yint].
  replace (y * (sqrt (Rmax p1 p2) - sqrt (Rmin p1 p2)) / (sqrt pm - sqrt (Rmin p1 p2))) with (- (y * (sqrt (Rmax p1 p2) - sqrt (Rmin p1 p2)) / (sqrt (Rmin p1 p2) - sqrt pm))) by (field; lra).
  assert (0 < y * (sqrt (Rmax p1 p2) - sqrt (Rmin p1 p2)) / (sqrt (Rmin p1 p2) - sqrt pm)) by (apply Rdiv_lt_0_compat; [apply Rmult_lt_0_compat; lra|lra]). lra.
Qed.
(** capacity given, or defaulting to the balance *)
Lemma capacity_order base p1 p2 yint pm y : 0 < p1 -> 0 < p2 -> p1 <> p2 -> (yint <> None \/ pm = None) ->
  let z := match yint with Some z => z | None => y end in
  exists o c, make_order (by_prices p1 p2 yint pm (Some y)) = Ret o /\ from_order base o = Ret c /\ o_yint o = z /\ c_yint c = z /\ o_y o = y /\ c_y c = y /\ c_base c = base /\
    o_adj o = false /\ o_plow o = Rmin p1 p2 /\ o_phigh o = Rmax p1 p2 /\ o_B o = Some (sqrt (Rmin p1 p2)) /\ o_S o = Some (sqrt (Rmax p1 p2) - sqrt (Rmin p1 p2)) /\ raw_price c 0 = Rmin p1 p2 /\ (z <> 0 -> raw_price c z = Rmax p1 p2).
Proof.
  intros H1 H2 N Hz z. destruct (sqrt_minmax p1 p2 H1 H2 N) as [Hl Hlh]. assert (Hmin : 0 < Rmin p1 p2) by (unfold Rmin; destruct (Rle_dec p1 p2); lra).
  assert (Hmax : 0 < Rmax p1 p2) by (unfold Rmax; destruct (Rle_dec p1 p2); lra).
  assert (Hne : Rmax p1 p2 <> Rmin p1 p2) by (unfold Rmin, Rmax; destruct (Rle_dec p1 p2); lra).
  assert (E : make_order (by_prices p1 p2 yint pm (Some y)) = Ret (mkOrder (Some (sqrt (Rmin p1 p2))) (Some (sqrt (Rmax p1 p2) - sqrt (Rmin p1 p2))) z (Rmax p1 p2) (Rmin p1 p2) y false)).
  { unfold make_order. rewrite convert_sorted by assumption. cbn [rbind]. unfold convert_yint, by_prices. cbn [i_yint i_pmarg i_y i_D i_adj]. destruct yint as [w|].
    - cbn [rbind opt_eqb]. rewrite (req_false _ _ Hne), (req_true _ _ eq_refl). reflexivity.
    - destruct Hz as [?| ->]; [congruence|]. cbn [rbind opt_eqb]. rewrite (req_false _ _ Hne), (req_true _ _ eq_refl). reflexivity. }
  eexists. eexists. split; [exact E|]. split; [apply from_order_ok; [reflexivity|reflexivity|assumption|lra]|]. cbn [o_yint c_yint o_y c_y c_base o_adj o_plow o_phigh o_B o_S]. do 10 (split; [reflexivity|]). unfold raw_price. cbn [c_B c_S c_yint]. split.
  - unfold Rdiv. rewrite Rmult_0_l, Rmult_0_r, Rplus_0_r. rewrite <- Rsqr_pow2. apply Rsqr_sqrt. lra.
  - intros Z0. fold z. replace (sqrt (Rmin p1 p2) + (sqrt (Rmax p1 p2) - sqrt (Rmin p1 p2)) * (z / z)) with (sqrt (Rmax p1 p2)) by (field; assumption). rewrite <- Rsqr_pow2. apply Rsqr_sqrt. lra.
Qed.

(** ** what the exact router sees *)
Lemma zmax_eq o : zmax o = Rmax (o_yint o) 1.
Proof. unfold zmax, rlt, Rmax. destruct (Rlt_dec (o_yint o) 1), (Rle_dec (o_yint o) 1); lra. Qed.
Lemma view_value o : 0 < o_plow o < o_phigh o -> o_adj o = false ->
  exists s T, 0 < s < 1 /\ 0 < T /\ sqrt (o_plow o) = s ^ 2 * T /\ sqrt (o_phigh o) = T /\
    view o = Ret (mkX (1 - s) (zmax o / (T ^ 2 * s * (1 + s))) (zmax o * s / (1 + s)) (o_y o)).
Proof.
  intros H Hadj. set (s := sqrt (sqrt (o_plow o / o_phigh o))). set (T := sqrt (o_phigh o)).
  assert (Hq : 0 < o_plow o / o_phigh o < 1). { split; [apply Rdiv_lt_0_compat; lra|]. apply (Rmult_lt_reg_r (o_phigh o)); [lra|]. unfold Rdiv. rewrite Rmult_assoc, Rinv_l by lra. lra. }
  assert (Hr : 0 < sqrt (o_plow o / o_phigh o) < 1). { split; [apply sqrt_lt_R0; lra|]. rewrite <- sqrt_1. apply sqrt_lt_1; lra. }
  assert (Hs : 0 < s < 1). { split; [apply sqrt_lt_R0; lra|]. unfold s. apply Rlt_le_trans with (sqrt 1); [apply sqrt_lt_1; lra|rewrite sqrt_1; lra]. }
  assert (HT : 0 < T) by (apply sqrt_lt_R0; lra).
  assert (Es : s ^ 2 = sqrt (o_plow o / o_phigh o)) by (unfold s; rewrite <- Rsqr_pow2; apply Rsqr_sqrt; lra).
  assert (El : sqrt (o_plow o) = s ^ 2 * T). { rewrite Es. unfold T. rewrite <- sqrt_mult by lra. f_equal. field. lra. }
  assert (Ep : sqrt (o_phigh o * o_plow o) = T * (s ^ 2 * T)) by (rewrite sqrt_mult by lra; rewrite El; reflexivity).
  exists s, T. split; [assumption|]. split; [assumption|]. split; [assumption|]. split; [reflexivity|].
  assert (En : o_n o = Ret (1 - s)). { unfold o_n. rewrite Hadj. rewrite rdiv_ok by lra. cbn [rbind]. rewrite rsqrt_ok by lra. cbn [rbind]. rewrite rsqrt_ok by lra. reflexivity. }
  unfold view, o_x0, o_y0, o_p. rewrite En. cbn [rbind]. rewrite rsqrt_ok by (apply Rmult_le_pos; lra). cbn [rbind]. rewrite Ep.
  assert (0 < s ^ 2) by (apply pow_lt; lra). assert (0 < T * (s ^ 2 * T) * (2 - (1 - s))) by (repeat apply Rmult_lt_0_compat; lra).
  rewrite rdiv_ok by lra. cbn [rbind]. rewrite rdiv_ok by lra. cbn [rbind]. do 2 f_equal; field; repeat split; lra.
Qed.
Lemma view_sane o : 0 < o_plow o < o_phigh o -> o_adj o = false -> 0 <= o_y o -> exists x, view o = Ret x /\ sane x /\ xo_y x = o_y o.
Proof.
  intros H Ha Hy. destruct (view_value o H Ha) as (s & T & Hs & HT & _ & _ & E). eexists. split; [exact E|]. split; [|reflexivity]. unfold sane. cbn [xo_n xo_x0 xo_y0 xo_y].
  assert (Hz : 0 < zmax o) by (rewrite zmax_eq; pose proof (Rmax_r (o_yint o) 1); lra). assert (0 < T ^ 2) by (apply pow_lt; assumption).
  split; [lra|]. split; [apply Rdiv_lt_0_compat; [assumption|repeat apply Rmult_lt_0_compat; lra]|]. split; [apply Rdiv_lt_0_compat; [apply Rmult_lt_0_compat; lra|lra]|assumption].
Qed.
(** the curve the router works with: the capacity is at least 1 *)
Definition seen (base : bool) (o : order) : curve := mkCurve base (sqrt (o_plow o)) (sqrt (o_phigh o) - sqrt (o_plow o)) (zmax o) (o_y o).
Lemma view_curve base o x v : 0 < o_plow o < o_phigh o -> o_adj o = false -> view o = Ret x ->
  price_after x v = raw_price (seen base o) (o_y o + v) /\ (rate (seen base o) (o_y o) <> 0 -> rate (seen base o) (o_y o - v) <> 0 -> payment x v = cost (seen base o) (o_y o) v).
Proof.
  intros H Ha E. destruct (view_value o H Ha) as (s & T & Hs & HT & El & Eh & E'). rewrite E' in E. assert (HE : forall a b : xorder, Ret a = Ret b -> a = b) by congruence. apply HE in E. subst x.
  assert (Hz : 0 < zmax o) by (rewrite zmax_eq; pose proof (Rmax_r (o_yint o) 1); lra).
  assert (Hk : zmax o / (T ^ 2 * s * (1 + s)) * (zmax o * s / (1 + s)) = (zmax o / (T * (1 + s))) ^ 2) by (field; repeat split; lra).
  assert (Hd : forall w, depth (mkX (1 - s) (zmax o / (T ^ 2 * s * (1 + s))) (zmax o * s / (1 + s)) (o_y o)) w = zmax o / (T * (1 + s)) * rate (seen base o) (o_y o + w)).
  { intros w. unfold depth, rate, seen. cbn [xo_n xo_y xo_y0 c_B c_S c_yint]. rewrite El, Eh. field. repeat split; lra. }
  split.
  - unfold price_after. rewrite Hd. cbn [xo_x0 xo_y0]. rewrite Hk. unfold raw_price. fold (rate (seen base o) (o_y o + v)). set (r := rate (seen base o) (o_y o + v)). clearbody r. field. repeat split; lra.
  - intros R1 R2. unfold payment, cost. rewrite !Hd. cbn [xo_x0 xo_y0]. rewrite Hk, Rplus_0_r. replace (o_y o + - v) with (o_y o - v) by ring.
    set (r1 := rate (seen base o) (o_y o)) in *. set (r2 := rate (seen base o) (o_y o - v)) in *. clearbody r1 r2. field. repeat split; lra.
Qed.
(** orders made from prices *)
Definition from_range (o : order) : Prop := 0 < o_plow o < o_phigh o /\ o_adj o = false /\ o_B o = Some (sqrt (o_plow o)) /\ o_S o = Some (sqrt (o_phigh o) - sqrt (o_plow o)).
Lemma from_range_curve base o : from_range o -> from_order base o = Ret (mkCurve base (sqrt (o_plow o)) (sqrt (o_phigh o) - sqrt (o_plow o)) (o_yint o) (o_y o)).
Proof. intros (H & _ & EB & ES). apply from_order_ok; try assumption; [apply sqrt_lt_R0; lra|]. assert (sqrt (o_plow o) < sqrt (o_phigh o)) by (apply sqrt_lt_1; lra). lra. Qed.

(** C35 *)
Lemma forms_agree base o c x d : from_range o -> 1 <= o_yint o -> 0 <= o_y o <= o_yint o -> from_order base o = Ret c -> view o = Ret x -> 0 <= d <= o_y o ->
  exists dx, dxdy x (- d) = Ret dx /\ (forall cb re, dxfromdy_f c d cb re = Ret (Some dx)) /\ price_after x (- d) = raw_price c (o_y o - d).
Proof.
  intros R Hz Hy Ec Ex Hd. rewrite (from_range_curve base o R) in Ec. injection Ec as <-. destruct R as (H & Ha & EB & ES).
  assert (Ez : zmax o = o_yint o) by (unfold zmax; rewrite rlt_false by lra; reflexivity).
  set (c := mkCurve base (sqrt (o_plow o)) (sqrt (o_phigh o) - sqrt (o_plow o)) (o_yint o) (o_y o)). assert (Es : seen base o = c) by (unfold seen, c; rewrite Ez; reflexivity).
  assert (0 < sqrt (o_plow o) < sqrt (o_phigh o)) by (split; [apply sqrt_lt_R0; lra|apply sqrt_lt_1; lra]).
  assert (V : valid c) by (unfold valid, c; cbn; lra).
  pose proof (rate_pos c (o_y o) V ltac:(lra)) as R1. pose proof (rate_pos c (o_y o - d) V ltac:(lra)) as R2.
  destruct (view_sane o H Ha ltac:(lra)) as (x' & Ex' & Sx & Ey). rewrite Ex' in Ex. injection Ex as <-.
  destruct (view_curve base o x' d H Ha Ex') as [_ Hp]. destruct (view_curve base o x' (- d) H Ha Ex') as [Hpr _]. rewrite Es in Hp, Hpr.
  exists (cost c (o_y o) d). split; [|split].
  - rewrite dxdy_value; [rewrite Ropp_involutive; f_equal; apply Hp; lra|assumption|]. intro Hz0. assert (Hpp : 0 < raw_price c (o_y o - d)) by (apply raw_pos; [assumption|lra]).
    replace (o_y o + - d) with (o_y o - d) in Hpr by ring. rewrite <- Hpr in Hpp. unfold price_after in Hpp. rewrite Hz0 in Hpp. unfold Rdiv in Hpp. cbn in Hpp. rewrite !Rmult_0_l in Hpp. lra.
  - intros cb re. change (o_y o) with (c_y c). apply dx_value; [assumption|destruct cb; [lra|exact I]|exact (proj2 Hd)].
  - exact Hpr.
Qed.
Lemma forms_disagree base o c x d : from_range o -> 0 < o_yint o < 1 -> 0 < o_y o <= o_yint o -> from_order base o = Ret c -> view o = Ret x -> 0 < d <= o_y o ->
  exists dx dx', dxdy x (- d) = Ret dx /\ (forall cb re, dxfromdy_f c d cb re = Ret (Some dx')) /\ dx' < dx.
Proof.
  intros R Hz Hy Ec Ex Hd. rewrite (from_range_curve base o R) in Ec. injection Ec as <-. destruct R as (H & Ha & EB & ES).
  assert (Ez : zmax o = 1) by (unfold zmax; rewrite rlt_true by lra; reflexivity).
  set (c := mkCurve base (sqrt (o_plow o)) (sqrt (o_phigh o) - sqrt (o_plow o)) (o_yint o) (o_y o)).
  assert (0 < sqrt (o_plow o) < sqrt (o_phigh o)) by (split; [apply sqrt_lt_R0; lra|apply sqrt_lt_1; lra]).
  assert (V : valid c) by (unfold valid, c; cbn; lra). assert (V1 : valid (seen base o)) by (unfold valid, seen; cbn; rewrite Ez; lra).
  pose proof (rate_pos c (o_y o) V ltac:(lra)) as R1. pose proof (rate_pos c (o_y o - d) V ltac:(lra)) as R2.
  pose proof (rate_pos (seen base o) (o_y o) V1 ltac:(lra)) as S1. pose proof (rate_pos (seen base o) (o_y o - d) V1 ltac:(lra)) as S2.
  destruct (view_sane o H Ha ltac:(lra)) as (x' & Ex' & Sx & Ey). rewrite Ex' in Ex. injection Ex as <-.
  destruct (view_curve base o x' d H Ha Ex') as [_ Hp]. destruct (view_curve base o x' (- d) H Ha Ex') as [Hpr _].
  exists (cost (seen base o) (o_y o) d), (cost c (o_y o) d). split; [|split].
  - rewrite dxdy_value; [rewrite Ropp_involutive; f_equal; apply Hp; lra|assumption|]. intro Hz0. assert (Hpp : 0 < raw_price (seen base o) (o_y o - d)) by (apply raw_pos; [assumption|lra]).
    replace (o_y o + - d) with (o_y o - d) in Hpr by ring. rewrite <- Hpr in Hpp. unfold price_after in Hpp. rewrite Hz0 in Hpp. unfold Rdiv in Hpp. cbn in Hpp. rewrite !Rmult_0_l in Hpp. lra.
  - intros cb re. change (o_y o) with (c_y c). apply dx_value; [assumption|destruct cb; [lra|exact I]|exact (proj2 Hd)].
  - unfold cost, Rdiv. apply Rmult_lt_compat_l; [lra|]. apply Rinv_lt_contravar; [repeat apply Rmult_lt_0_compat; assumption|].
    assert (Hcmp : forall y, 0 <= y -> rate (seen base o) y <= rate c y /\ (0 < y -> rate (seen base o) y < rate c y)).
    { intros y Hy0. unfold rate, seen, c. cbn [c_B c_S c_yint]. rewrite Ez. assert (Hi : 1 < / o_yint o) by (rewrite <- Rinv_1; apply Rinv_lt_contravar; lra).
      assert (y / 1 <= y / o_yint o) by (unfold Rdiv; rewrite Rinv_1; apply Rmult_le_compat_l; lra).
      split; [apply Rplus_le_compat_l, Rmult_le_compat_l; lra|]. intros Hyp. apply Rplus_lt_compat_l, Rmult_lt_compat_l; [lra|]. unfold Rdiv. rewrite Rinv_1. apply Rmult_lt_compat_l; lra. }
    destruct (Hcmp (o_y o) ltac:(lra)) as [_ C1]. destruct (Hcmp (o_y o - d) ltac:(lra)) as [C2 _]. specialize (C1 ltac:(lra)).
    apply Rle_lt_trans with (rate (seen base o) (o_y o) * rate c (o_y o - d)); [apply Rmult_le_compat_l; lra|apply Rmult_lt_compat_r; lra].
Qed.
