(** Theorems about CarbonOrderUI curves (C28, C36-C43, C66). *)
From Coq Require Import Reals Bool Lra QArith Qreals.
From Verif Require Import FastModel FastSpec CurveModel CurveSpec CurveProofs CurveProofs2 CurveProofs3 CurveProofs4 CurveProofs5.
Local Open Scope R_scope.

(** a curve selling the base token: at capacity 2, price (in the quote token) from 1/4 to 1 *)
Definition ex_curve : curve := mkCurve true 1 1 2 2.
Example ex_valid : valid ex_curve. Proof. repeat split; cbn; lra. Qed.
Definition ex_linked : linked := mkLinked ex_curve (Some (mkCurve false 1 0 0 0)).
Example ex_linked_ok : valid (l_me ex_linked) /\ sound_opt (l_other ex_linked) /\ 0 < c_S (l_me ex_linked). Proof. repeat split; cbn; lra. Qed.

(** ** C36 *)
Theorem C36_dy_then_dx c dy re re' : valid c -> 0 <= dy <= c_y c ->
  exists dx, dxfromdy_f c dy true re = Ret (Some dx) /\ 0 <= dx /\ dyfromdx_f c dx true re' = Ret (Some dy).
Proof. exact (inverse_dy c dy re re'). Qed.
Print Assumptions C36_dy_then_dx.
Theorem C36_dx_then_dy c dx dy re re' : valid c -> 0 <= dx -> dyfromdx_f c dx true re = Ret (Some dy) -> dy <= c_y c ->
  0 <= dy /\ dxfromdy_f c dy true re' = Ret (Some dx).
Proof. exact (inverse_dx c dx dy re re'). Qed.
Print Assumptions C36_dx_then_dy.
Theorem C36_path_independent c d1 d2 re : valid c -> 0 <= d1 -> 0 <= d2 -> d1 + d2 <= c_y c ->
  exists x1 x2, dxfromdy_f c d1 true re = Ret (Some x1) /\ dxfromdy_f (with_y c (c_y c - d1)) d2 true re = Ret (Some x2) /\
    dxfromdy_f c (d1 + d2) true re = Ret (Some (x1 + x2)).
Proof. exact (path_independent c d1 d2 re). Qed.
Print Assumptions C36_path_independent.
Theorem C36_x_then_y c y re re' : valid c -> 0 <= y <= c_yint c ->
  exists x, xfromy_f c y true re = Ret (Some x) /\ 0 <= x /\ yfromx_f c x true re' = Ret (Some y).
Proof. exact (x_then_y c y re re'). Qed.
Print Assumptions C36_x_then_y.
Theorem C36_y_then_x c x xi re re' : valid c -> xint c = Ret xi -> 0 <= x <= xi ->
  exists y, yfromx_f c x true re = Ret (Some y) /\ 0 <= y <= c_yint c /\ xfromy_f c y true re' = Ret (Some x).
Proof. exact (y_then_x c x xi re re'). Qed.
Print Assumptions C36_y_then_x.
Theorem C36_differences c dy re : valid c -> 0 <= dy <= c_y c ->
  exists x1 x2, xfromy_f c (c_y c) true re = Ret (Some x1) /\ xfromy_f c (c_y c - dy) true re = Ret (Some x2) /\ dxfromdy_f c dy true re = Ret (Some (x2 - x1)).
Proof. exact (x_difference c dy re). Qed.
Print Assumptions C36_differences.
Example C36_ex : dxfromdy_f ex_curve 1 true true = Ret (Some (/ 3)) /\ dyfromdx_f ex_curve (/ 3) true true = Ret (Some 1) /\ xfromy_f ex_curve 1 true true = Ret (Some (/ 3)) /\ xint ex_curve = Ret 1.
Proof.
  split; [|split; [|split]].
  - rewrite dx_value by (try exact ex_valid; cbn; lra). f_equal. f_equal. unfold cost, rate. cbn. field.
  - rewrite dy_value by (try exact ex_valid; lra). f_equal. f_equal. unfold gain, rate. cbn. field.
  - rewrite x_value by (try exact ex_valid; cbn; lra). f_equal. f_equal. unfold cost, rate. cbn. field.
  - rewrite xint_value by exact ex_valid. f_equal. unfold cost, rate. cbn. field.
Qed.

(** ** C37 *)
Theorem C37_ends c : valid c -> pa c = Ret (price_at c (c_yint c)) /\ pb c = Ret (price_at c 0) /\
  p_marg (with_y c (c_yint c)) = Ret (Some (price_at c (c_yint c))) /\ p_marg (with_y c 0) = Ret (Some (price_at c 0)).
Proof. exact (marg_empty_full c true). Qed.
Print Assumptions C37_ends.
Theorem C37_marginal c dy re : valid c -> 0 <= dy <= c_y c ->
  p_marg_f c dy false true re = Ret (Some (price_at c (c_y c - dy))).
Proof. exact (p_marg_value c dy true re). Qed.
Print Assumptions C37_marginal.
Theorem C37_monotone c d1 d2 re : valid c -> 0 < c_S c -> 0 <= d1 -> d1 < d2 -> d2 <= c_y c ->
  exists p1 p2, p_marg_f c d1 false true re = Ret (Some p1) /\ p_marg_f c d2 false true re = Ret (Some p2) /\ (if c_base c then p1 < p2 else p2 < p1).
Proof.
  intros V HS H1 H2 H3. exists (price_at c (c_y c - d1)), (price_at c (c_y c - d2)). 
  split; [apply p_marg_value; [assumption|lra]|]. split; [apply p_marg_value; [assumption|lra]|]. apply price_moves; try assumption; lra.
Qed.
Print Assumptions C37_monotone.
Theorem C37_effective c dy re : valid c -> 0 < c_S c -> 0 < dy <= c_y c ->
  exists p0 p p1, p_marg_f c 0 false true re = Ret (Some p0) /\ p_eff_f c dy false true re = Ret (Some p) /\ p_marg_f c dy false true re = Ret (Some p1) /\
    (if c_base c then p0 < p < p1 else p1 < p < p0).
Proof.
  intros V HS H. destruct (eff_total c dy re V ltac:(lra)) as [p E]. pose proof (marg_between c dy p re V HS H E) as [M1 M2].
  exists (price_at c (c_y c)), p, (price_at c (c_y c - dy)). split; [rewrite p_marg_value by (try assumption; lra); rewrite Rminus_0_r; reflexivity|].
  split; [assumption|]. split; [apply p_marg_value; [assumption|lra]|]. unfold moves in *. destruct (c_base c); split; assumption.
Qed.
Print Assumptions C37_effective.
Theorem C37_derivative c (F : R -> R) t : valid c -> 0 < t < c_y c -> (forall d, 0 <= d <= c_y c -> dxfromdy_f c d true true = Ret (Some (F d))) ->
  derivable_pt_lim F t (/ raw_price c (c_y c - t)).
Proof. exact (pay_derivative c F t). Qed.
Print Assumptions C37_derivative.
Example C37_ex : p_marg ex_curve = Ret (Some (/ 4)) /\ p_eff_f ex_curve 1 false true true = Ret (Some (/ 3)) /\ p_marg_f ex_curve 1 false true true = Ret (Some (4 / 9)).
Proof.
  split; [|split].
  - unfold p_marg. rewrite p_marg_value by (try exact ex_valid; cbn; lra). f_equal. f_equal. unfold price_at, in_quote, raw_price. cbn. field.
  - unfold p_eff_f. rewrite (enabled _ ex_valid). cbn [andb ex_curve c_y c_yint]. rewrite !rlt_false by lra. rewrite !req_false by lra. fold ex_curve.
    rewrite !x_value by (try exact ex_valid; cbn; lra). cbn [rbind opt_sub].
    assert (E1 : cost ex_curve (c_yint ex_curve) (c_yint ex_curve - (2 - 1)) = / 3) by (unfold cost, rate; cbn; field).
    assert (E2 : cost ex_curve (c_yint ex_curve) (c_yint ex_curve - 2) = 0) by (unfold cost, rate; cbn; field).
    rewrite E1, E2. rewrite rdiv_ok by lra. cbn [rbind]. replace (1 / (/ 3 - 0)) with 3 by (field; lra). unfold quoted. cbn [c_base ex_curve]. rewrite rdiv_ok by lra. cbn [rbind]. f_equal. f_equal. field.
  - rewrite p_marg_value by (try exact ex_valid; cbn; lra). f_equal. f_equal. unfold price_at, in_quote, raw_price. cbn. field.
Qed.

(** ** C38 *)
Theorem C38_yfromp_inverts c y cb re : valid c -> 0 < c_S c -> 0 <= y <= c_y c ->
  exists p, p_marg (with_y c y) = Ret (Some p) /\ yfromp_f c p cb re = Ret (Some y).
Proof.
  intros V HS H. exists (price_at c y). split; [|apply yfromp_inverts; assumption]. pose proof V as (_ & _ & _ & HY).
  unfold p_marg. rewrite p_marg_value; [cbn [c_y with_y]; rewrite Rminus_0_r; reflexivity|apply valid_with_y; [assumption|lra]|cbn; lra].
Qed.
Print Assumptions C38_yfromp_inverts.
Theorem C38_lands s p : valid (l_me s) -> 0 < c_S (l_me s) -> sound_opt (l_other s) -> 0 < p ->
  between (price_at (l_me s) (c_y (l_me s))) (price_at (l_me s) 0) p ->
  exists y, 0 <= y <= c_y (l_me s) /\ p = price_at (l_me s) y /\
    (EPS <= c_y (l_me s) - y -> l_me (fst (tradeto s p true)) = with_y (l_me s) y /\ p_marg (l_me (fst (tradeto s p true))) = Ret (Some p)) /\
    (c_y (l_me s) - y < EPS -> fst (tradeto s p true) = s).
Proof. exact (tradeto_lands s p). Qed.
Print Assumptions C38_lands.
Theorem C38_beyond_end s p : valid (l_me s) -> 0 < c_S (l_me s) -> sound_opt (l_other s) -> 0 < p -> moves (l_me s) (price_at (l_me s) 0) p ->
  (EPS <= c_y (l_me s) -> l_me (fst (tradeto s p true)) = with_y (l_me s) 0) /\ (c_y (l_me s) < EPS -> fst (tradeto s p true) = s).
Proof. exact (tradeto_empties s p). Qed.
Print Assumptions C38_beyond_end.
Theorem C38_other_side s p : valid (l_me s) -> 0 < c_S (l_me s) -> sound_opt (l_other s) -> 0 < p -> moves (l_me s) p (price_at (l_me s) (c_y (l_me s))) ->
  fst (tradeto s p true) = s.
Proof. exact (tradeto_other_side s p). Qed.
Print Assumptions C38_other_side.
Theorem C38_regions c p : valid c -> 0 < p ->
  moves c p (price_at c (c_y c)) \/ between (price_at c (c_y c)) (price_at c 0) p \/ moves c (price_at c 0) p.
Proof. exact (price_cases c p). Qed.
Print Assumptions C38_regions.
Theorem C38_repeat s p : valid (l_me s) -> 0 < c_S (l_me s) -> sound_opt (l_other s) -> 0 < p ->
  fst (tradeto (fst (tradeto s p true)) p true) = fst (tradeto s p true).
Proof. exact (tradeto_idem s p). Qed.
Print Assumptions C38_repeat.
Theorem C38_flat_raises s p ex : valid (l_me s) -> c_S (l_me s) = 0 -> 0 < p -> in_quote (l_me s) p <= raw_price (l_me s) (c_y (l_me s)) ->
  tradeto s p ex = (s, Raise ZeroDivision).
Proof. exact (tradeto_flat s p ex). Qed.
Print Assumptions C38_flat_raises.
Lemma EPS_le_1 : EPS <= 1.
Proof. unfold EPS. rewrite <- Rinv_1. apply Rinv_le_contravar; [lra|]. apply pow_R1_Rle. lra. Qed.
Example C38_ex : between (price_at ex_curve (c_y ex_curve)) (price_at ex_curve 0) (4 / 9) /\ l_me (fst (tradeto ex_linked (4 / 9) true)) = with_y ex_curve 1 /\
  moves ex_curve (price_at ex_curve 0) 2 /\ moves ex_curve (/ 5) (price_at ex_curve (c_y ex_curve)) /\
  let flat := mkCurve false 2 0 5 3 in valid flat /\ in_quote flat 4 <= raw_price flat (c_y flat).
Proof.
  destruct ex_linked_ok as (V & VO & HS). pose proof EPS_le_1 as HE. split; [|split; [|split; [|split; [|split]]]].
  - unfold between, price_at, in_quote, raw_price. cbn. lra.
  - assert (E : 4 / 9 = price_at (l_me ex_linked) 1) by (unfold price_at, in_quote, raw_price; cbn; field).
    rewrite E, tradeto_between by (try assumption; cbn; lra). rewrite selly_value by (try assumption; cbn; lra). cbn [fst l_me ex_linked c_y ex_curve]. unfold settled. rewrite rlt_false by lra. f_equal. lra.
  - unfold moves, price_at, in_quote, raw_price. cbn. lra.
  - unfold moves, price_at, in_quote, raw_price. cbn. lra.
  - repeat split; cbn; lra.
  - unfold in_quote, raw_price. cbn. lra.
Qed.

(** ** C39 *)
Theorem C39_invariant c y re : valid c -> 0 < c_S c -> 0 <= y <= c_yint c ->
  exists x xa ya k, xfromy_f c y true re = Ret (Some x) /\ xasym c = Ret xa /\ yasym c = Ret ya /\ kappa c = Ret k /\ (x - xa) * (y - ya) = k /\ xa < 0 /\ ya < 0.
Proof. exact (invariant c y re). Qed.
Print Assumptions C39_invariant.
Theorem C39_centre c re : valid c -> 0 < c_S c ->
  exists x y p a b, x0 c = Ret x /\ y0 c = Ret y /\ p0_raw c = Ret p /\ pa c = Ret a /\ pb c = Ret b /\ 0 < x /\ 0 < y < c_yint c /\
    p = y / x /\ p = sqrt (pa_raw c * pb_raw c) /\ p0 c = Ret (in_quote c p) /\ in_quote c p = sqrt (a * b) /\
    xfromy_f c y true re = Ret (Some x) /\ raw_price c y = p.
Proof. exact (centre c re). Qed.
Print Assumptions C39_centre.
Theorem C39_xint c re re' : valid c -> exists x, xint c = Ret x /\ 0 < x /\ xfromy_f c 0 true re = Ret (Some x) /\ yfromx_f c x true re' = Ret (Some 0).
Proof. exact (xint_zero c re re'). Qed.
Print Assumptions C39_xint.
Theorem C39_kappa_bar c : valid c -> 0 < c_S c -> exists k b, kappa c = Ret k /\ kappa_bar c = Ret b /\ 0 < b /\ b ^ 2 = k.
Proof. exact (kappa_bar_sq c). Qed.
Print Assumptions C39_kappa_bar.
(** the two shape parameters determine each other, and the ratios that depend on them only *)
Theorem C39_shape c : valid c -> 0 < c_S c -> exists g q xi x y xa ya r, Gamma c = Ret g /\ Qpar c = Ret q /\ 0 < g < 1 /\ Q_from_Gamma g = q /\ Gamma_from_Q q = Ret g /\
  xint c = Ret xi /\ x0 c = Ret x /\ y0 c = Ret y /\ xasym c = Ret xa /\ yasym c = Ret ya /\ int_over_0 g = Ret r /\ xi / x = r /\ c_yint c / y = r /\ asym_over_0 g = Ret (xa / x) /\ xa / x = ya / y.
Proof.
  intros V HS. destruct (gamma_value c V HS) as (s & Hs & Hb & EG & EQ). destruct (xint_zero c true true V) as (xi & Ex & Hx & _). assert (Hz : 0 < c_yint c) by (destruct V as (_ & _ & HZ & HY); lra).
  exists (1 - s), (s ^ 2), xi, (xi * s / (1 + s)), (c_yint c * s / (1 + s)), (xi * s / (1 + s) * (1 - 1 / (1 - s))), (c_yint c * s / (1 + s) * (1 - 1 / (1 - s))), ((1 + s) / s).
  assert (EX : x0 c = Ret (xi * s / (1 + s))). { unfold x0. rewrite Ex, EG. cbn [rbind]. rewrite rdiv_ok by lra. f_equal. field. lra. }
  assert (EY : y0 c = Ret (c_yint c * s / (1 + s))). { unfold y0. rewrite EG. cbn [rbind]. rewrite rdiv_ok by lra. f_equal. field. lra. }
  split; [exact EG|]. split; [exact EQ|]. split; [lra|]. split; [unfold Q_from_Gamma; ring|]. split.
  { unfold Gamma_from_Q. rewrite rsqrt_ok by apply pow2_ge_0. cbn [rbind]. rewrite sqrt_pow2 by lra. reflexivity. }
  split; [exact Ex|]. split; [exact EX|]. split; [exact EY|].
  split; [unfold xasym, asym_over_0; rewrite EX, EG; cbn [rbind]; rewrite rdiv_ok by lra; reflexivity|]. split; [unfold yasym, asym_over_0; rewrite EY, EG; cbn [rbind]; rewrite rdiv_ok by lra; reflexivity|].
  split; [unfold int_over_0; rewrite rdiv_ok by lra; f_equal; field; lra|]. split; [field; lra|]. split; [field; lra|]. split; [unfold asym_over_0; rewrite rdiv_ok by lra; cbn [rbind]; f_equal; field; lra|field; lra].
Qed.
Print Assumptions C39_shape.
(** with B = 1, S = 3 the square root in Gamma is 1/2: Q = 1/4, x0 = 1/12 yint *)
Example C39_ex : let c := mkCurve false 1 3 12 6 in valid c /\ 0 < c_S c /\ Qpar c = Ret (/ 4) /\ Gamma c = Ret (/ 2) /\ x0 c = Ret 1 /\ y0 c = Ret 4.
Proof.
  cbv zeta. set (c := mkCurve false 1 3 12 6). assert (V : valid c) by (repeat split; cbn; lra). split; [assumption|]. split; [cbn; lra|].
  assert (Q : Qpar c = Ret (/ 4)).
  { unfold Qpar. rewrite (enabled c V). unfold pb_raw, pa_raw. cbn [c_B c_S c]. rewrite rdiv_ok by lra. cbn [rbind]. rewrite rsqrt_ok by lra. f_equal.
    replace (1 * 1 / (3 + 1) ^ 2) with (/ 4 * / 4) by field. apply sqrt_square. lra. }
  assert (G : Gamma c = Ret (/ 2)).
  { unfold Gamma. rewrite Q. cbn [rbind]. rewrite rsqrt_ok by lra. cbn [rbind]. f_equal. replace (/ 4) with (/ 2 * / 2) by field. rewrite sqrt_square by lra. field. }
  split; [assumption|]. split; [assumption|]. unfold x0, y0, xint. rewrite G. cbn [c_B c_S c c_yint]. rewrite rdiv_ok by lra. cbn [rbind]. rewrite !rdiv_ok by lra. split; f_equal; field.
Qed.

(** ** C40 *)
Theorem C40_sale s dy dx an ec re : valid (l_me s) -> sound_opt (l_other s) -> EPS <= dy <= c_y (l_me s) -> dxfromdy_f (l_me s) dy true true = Ret (Some dx) ->
  0 < dx /\ fst (selly s dy true an ec re) = mkLinked (with_y (l_me s) (c_y (l_me s) - dy)) (option_map (received dx) (l_other s)) /\
  exists r, snd (selly s dy true an ec re) = Ret (Some r) /\ s_executed r = true /\ s_dy r = dy /\ s_dx r = dx /\ s_y r = c_y (l_me s) - dy.
Proof. exact (sale s dy dx an ec re). Qed.
Print Assumptions C40_sale.
Theorem C40_range s dy ex an ec re : valid (l_me s) -> sound_opt (l_other s) -> 0 <= dy <= c_y (l_me s) ->
  let s' := fst (selly s dy ex an ec re) in valid (l_me s') /\ sound_opt (l_other s') /\ c_yint (l_me s') = c_yint (l_me s) /\
  match l_other s, l_other s' with Some o, Some o' => c_yint o <= c_yint o' /\ c_y o <= c_y o' | None, None => True | _, _ => False end.
Proof. exact (sale_range s dy ex an ec re). Qed.
Print Assumptions C40_range.
Theorem C40_dust s dy ex an ec re : valid (l_me s) -> sound_opt (l_other s) -> 0 <= dy <= c_y (l_me s) -> dy < EPS -> fst (selly s dy ex an ec re) = s.
Proof. exact (small_sale s dy ex an ec re). Qed.
Print Assumptions C40_dust.
Theorem C40_rejected s dy ex an ec re : 0 <= c_y (l_me s) -> c_y (l_me s) + EPS < dy ->
  fst (selly s dy ex an ec re) = s /\ (forall r, snd (selly s dy ex an ec re) <> Ret (Some r)).
Proof. exact (rejected_noop s dy ex an ec re). Qed.
Print Assumptions C40_rejected.
Theorem C40_buyx s dx dy an ec re : valid (l_me s) -> sound_opt (l_other s) -> 0 <= dx -> dyfromdx_f (l_me s) dx true true = Ret (Some dy) -> EPS <= dy <= c_y (l_me s) ->
  fst (buyx s dx true an ec re) = mkLinked (with_y (l_me s) (c_y (l_me s) - dy)) (option_map (received dx) (l_other s)) /\
  exists r, snd (buyx s dx true an ec re) = Ret (Some r) /\ s_executed r = true /\ s_dy r = dy /\ s_dx r = dx.
Proof. exact (purchase s dx dy an ec re). Qed.
Print Assumptions C40_buyx.
(** the naive claim "a failing sale changes nothing" is false in two situations *)
Theorem C40_overshoot_refuted : exists c o dy, valid c /\ sound o /\ 0 <= dy /\ forall ec re,
  selly (mkLinked c (Some o)) dy true false ec re = (mkLinked (with_y c 0) (Some o), Raise ValueError) /\ with_y c 0 <> c.
Proof. exact overshoot_refuted. Qed.
Print Assumptions C40_overshoot_refuted.
Theorem C40_negative_sale c o dy ec re : valid c -> dy <= - EPS -> c_y c - dy <= c_yint c ->
  selly (mkLinked c (Some o)) dy true true ec re = (mkLinked (with_y c (c_y c - dy)) (Some o), Raise ValueError).
Proof. exact (negative_sale c o dy ec re). Qed.
Print Assumptions C40_negative_sale.
Example C40_ex : EPS <= 1 <= c_y (l_me ex_linked) /\ dxfromdy_f (l_me ex_linked) 1 true true = Ret (Some (/ 3)) /\
  fst (selly ex_linked 1 true false false true) = mkLinked (mkCurve true 1 1 2 1) (Some (mkCurve false 1 0 (/ 3) (/ 3))) /\
  let c := mkCurve true 1 1 2 1 in valid c /\ -1 <= - EPS /\ c_y c - -1 <= c_yint c.
Proof.
  destruct ex_linked_ok as (V & VO & HS). pose proof EPS_le_1 as HE. destruct C36_ex as (D & _). split; [cbn; lra|]. split; [exact D|]. split.
  - destruct (C40_sale ex_linked 1 (/ 3) false false true V VO ltac:(cbn; lra) D) as (_ & F & _). rewrite F. unfold with_y, received. cbn.
    rewrite Rmax_right by lra. do 2 f_equal; [lra|]. f_equal; lra.
  - cbv zeta. split; [repeat split; cbn; lra|]. cbn. lra.
Qed.

(** ** C41 *)
Theorem C41_preview_moves_linked s dy dx an ec re : valid (l_me s) -> sound_opt (l_other s) -> EPS <= dy <= c_y (l_me s) -> dxfromdy_f (l_me s) dy true true = Ret (Some dx) ->
  0 < dx /\ fst (selly s dy false an ec re) = mkLinked (l_me s) (option_map (received dx) (l_other s)) /\
  exists r, snd (selly s dy false an ec re) = Ret (Some r) /\ s_executed r = false /\ s_dy r = dy /\ s_dx r = dx /\ s_y r = c_y (l_me s) - dy.
Proof. exact (preview s dy dx an ec re). Qed.
Print Assumptions C41_preview_moves_linked.
Theorem C41_own_curve_unchanged s dy an ec re : l_me (fst (selly s dy false an ec re)) = l_me s.
Proof. exact (preview_me s dy an ec re). Qed.
Print Assumptions C41_own_curve_unchanged.
Theorem C41_alone_unchanged c dy an ec re : fst (selly (mkLinked c None) dy false an ec re) = mkLinked c None.
Proof. exact (preview_alone c dy an ec re). Qed.
Print Assumptions C41_alone_unchanged.
Theorem C41_tradeto_capacity s p : c_yint (l_me (fst (tradeto s p false))) = (if Req_EM_T (c_yint (l_me s)) 0 then / 10 ^ 50 else c_yint (l_me s)).
Proof. rewrite (tradeto_preview_yint s p). unfold req, TINY. destruct (Req_EM_T (c_yint (l_me s)) 0); reflexivity. Qed.
Print Assumptions C41_tradeto_capacity.
(** the naive claim "the preview shows what execution does" is false when the curve is expanded *)
Theorem C41_expand_refuted : exists c dy r r', valid c /\
  snd (selly (mkLinked c None) dy false true true true) = Ret (Some r) /\ snd (selly (mkLinked c None) dy true true true true) = Ret (Some r') /\ s_dy r = s_dy r' /\ s_dx r <> s_dx r'.
Proof. exact expand_refuted. Qed.
Print Assumptions C41_expand_refuted.
Example C41_ex : fst (selly ex_linked 1 false false false true) = mkLinked ex_curve (Some (mkCurve false 1 0 (/ 3) (/ 3))).
Proof.
  destruct ex_linked_ok as (V & VO & HS). pose proof EPS_le_1 as HE. destruct C36_ex as (D & _).
  destruct (C41_preview_moves_linked ex_linked 1 (/ 3) false false true V VO ltac:(cbn; lra) D) as (_ & F & _). rewrite F. unfold received. cbn.
  rewrite Rmax_right by lra. do 2 f_equal. f_equal; lra.
Qed.

(** ** C42 *)
Theorem C42_range c p q t : valid c -> exists v, liquidity_approx c p q t true = Ret v /\ 0 <= v <= 1 /\ liquidity_approx c q p t true = Ret v.
Proof. exact (approx_range c p q t). Qed.
Print Assumptions C42_range.
Theorem C42_share c p q t : valid c -> 0 < c_S c -> liquidity_approx c p q t true = Ret (overlap (lowest c) (highest c) p q / (highest c - lowest c)).
Proof. exact (approx_value c p q t). Qed.
Print Assumptions C42_share.
Theorem C42_covering c p q t : valid c -> Rmin p q <= lowest c -> highest c <= Rmax p q -> (0 < c_S c \/ highest c < Rmax p q) -> liquidity_approx c p q t true = Ret 1.
Proof. exact (approx_cover c p q t). Qed.
Print Assumptions C42_covering.
Theorem C42_additive c p q r t : valid c -> 0 < c_S c -> p <= q <= r ->
  exists u v, liquidity_approx c p q t true = Ret u /\ liquidity_approx c q r t true = Ret v /\ liquidity_approx c p r t true = Ret (u + v).
Proof. exact (approx_add c p q r t). Qed.
Print Assumptions C42_additive.
Theorem C42_own_token c p q : valid c -> exists v, liquidity_approx c p q (Some (c_base c)) true = Ret v /\ liquidity_approx c p q (Some (c_base c)) false = Ret (c_y c * v).
Proof. exact (approx_own c p q). Qed.
Print Assumptions C42_own_token.
Example C42_ex : lowest ex_curve = / 4 /\ highest ex_curve = 1 /\ liquidity_approx ex_curve (/ 2) 3 None true = Ret (2 / 3) /\ Rmin 3 (/ 5) <= lowest ex_curve /\ highest ex_curve <= Rmax 3 (/ 5).
Proof.
  assert (L : lowest ex_curve = / 4). { unfold lowest, price_at, in_quote, raw_price. cbn. rewrite Rmin_right by lra. field. }
  assert (H : highest ex_curve = 1). { unfold highest, price_at, in_quote, raw_price. cbn. rewrite Rmax_left by lra. field. }
  split; [assumption|]. split; [assumption|]. split.
  - rewrite C42_share by (try exact ex_valid; cbn; lra). f_equal. rewrite L, H. unfold overlap. rewrite (Rmax_right (/ 2) 3), (Rmin_left (/ 2) 3), (Rmin_right 3 1), (Rmax_left (/ 2) (/ 4)) by lra. rewrite Rmax_right by lra. field.
  - rewrite L, H, Rmin_right, Rmax_left by lra. lra.
Qed.

(** ** C43 *)
Theorem C43_bracket f a b eps : 0 < a -> a < b -> 0 < eps -> f a * f b < 0 ->
  exists n m a' b', (forall fuel, (n <= fuel)%nat -> goalseek fuel f a b eps = Some (Ret m)) /\
    a <= a' /\ a' < b' /\ b' <= b /\ (m = a' \/ m = b') /\ b' - a' < eps * a' /\ 0 < f a' * f a /\ f b' * f a <= 0.
Proof. exact (seek_ok f a b eps). Qed.
Print Assumptions C43_bracket.
Theorem C43_never_with_zero_eps f a b eps : 0 < a -> a < b -> eps <= 0 -> f a * f b < 0 -> forall fuel, goalseek fuel f a b eps = None.
Proof. exact (seek_forever f a b eps). Qed.
Print Assumptions C43_never_with_zero_eps.
Theorem C43_rejects f a b eps fuel : b <= a \/ 0 <= f a * f b -> goalseek fuel f a b eps = Some (Raise ValueError).
Proof. exact (seek_rejects f a b eps fuel). Qed.
Print Assumptions C43_rejects.
Theorem C43_negative_bound f a b eps fuel : a < 0 -> a < b -> 0 <= eps -> f a * f b < 0 ->
  let m := / 2 * (a + b) in f m * f a <= 0 \/ m < 0 -> goalseek (S fuel) f a b eps = Some (Ret m).
Proof. exact (seek_negative f a b eps fuel). Qed.
Print Assumptions C43_negative_bound.
Theorem C43_zero_bound f a b eps fuel : a <= 0 -> a < b -> f a * f b < 0 ->
  let m := / 2 * (a + b) in (a = 0 /\ f m * f a <= 0) \/ (m = 0 /\ 0 < f m * f a) -> goalseek (S fuel) f a b eps = Some (Raise ZeroDivision).
Proof. exact (seek_zero f a b eps fuel). Qed.
Print Assumptions C43_zero_bound.
(** x^2 - 2 on [1,2]; with the lower bound -1 the point 1/2 comes back although the root of x - 2 is 2 *)
Example C43_ex : (let f := fun x => x * x - 2 in f 1 * f 2 < 0) /\ (let f := fun x => x - 2 in f (-4) * f 3 < 0 /\ goalseek 1 f (-4) 3 (/ 100) = Some (Ret (/ 2 * (-4 + 3)))).
Proof.
  split; [cbv beta zeta; lra|]. cbv beta zeta. split; [lra|]. apply (C43_negative_bound (fun x => x - 2) (-4) 3 (/ 100) 0); lra.
Qed.

(** ** C66 *)
Theorem C66_from_prices base p1 p2 yint y : 0 < p1 -> 0 < p2 -> 0 <= y <= yint ->
  exists c, from_prices base p1 p2 yint y = Ret c /\ c_base c = base /\ c_yint c = yint /\ c_y c = y /\ 0 < c_B c /\ 0 <= c_S c /\ (0 < c_S c <-> p1 <> p2) /\
    pminmax c = Ret (Some (Rmin p1 p2, Rmax p1 p2)) /\ pa c = Ret (if base then Rmin p1 p2 else Rmax p1 p2) /\ pb c = Ret (if base then Rmax p1 p2 else Rmin p1 p2).
Proof. exact (from_prices_ok base p1 p2 yint y). Qed.
Print Assumptions C66_from_prices.
Theorem C66_from_prices_range base p1 p2 yint y c : from_prices base p1 p2 yint y = Ret c ->
  0 <= y <= yint /\ c_y c = y /\ c_yint c = yint /\ c_base c = base /\ 0 <= c_B c /\ 0 <= c_S c.
Proof. exact (from_prices_range base p1 p2 yint y c). Qed.
Print Assumptions C66_from_prices_range.
Theorem C66_from_Qxy base Q xi yint y : 0 < Q <= 1 -> 0 < xi -> 0 < yint -> 0 <= y <= yint ->
  exists c, from_Qxy base Q xi yint y = Ret c /\ valid c /\ c_base c = base /\ c_yint c = yint /\ c_y c = y /\ Qpar c = Ret Q /\ xint c = Ret xi /\ (0 < c_S c <-> Q < 1).
Proof. exact (from_Qxy_ok base Q xi yint y). Qed.
Print Assumptions C66_from_Qxy.
Theorem C66_from_Qxy_inverted base Q xi yint y : 1 < Q -> 0 < xi -> 0 < yint -> 0 <= y <= yint ->
  exists c, from_Qxy base Q xi yint y = Ret c /\ c_S c < 0 /\ pa_raw c < pb_raw c.
Proof. exact (from_Qxy_concave base Q xi yint y). Qed.
Print Assumptions C66_from_Qxy_inverted.
Example C66_ex : exists c, from_prices true (/ 4) 1 2 2 = Ret c /\ c_B c = 1 /\ c_S c = 1.
Proof.
  unfold from_prices. rewrite !(rlt_false 2) by lra. rewrite !rdiv_ok by lra. cbn [rbind]. rewrite rlt_false by lra. rewrite !rsqrt_ok by lra. cbn [rbind].
  replace (1 / 1) with 1 by field. replace (1 / / 4) with (2 * 2) by field. rewrite sqrt_1, sqrt_square by lra. replace (2 - 1) with 1 by ring.
  unfold construct. fold ex_curve. rewrite pminmax_value by exact ex_valid. cbn [rbind]. exists ex_curve. repeat split.
Qed.

(** ** C28: the fast router's quotes are the curve's *)
Theorem C28_source_is_curve base o dy v cb re : good_order o -> (fo_y o <= fo_z o)%Q -> (0 <= dy)%Q -> (dy <= fo_y o)%Q -> amt_by_src false o dy = Some v ->
  dxfromdy_f (mkCurve base (Q2R (fo_B o)) (Q2R (fo_A o)) (Q2R (fo_z o)) (Q2R (fo_y o))) (Q2R dy) cb re = Ret (Some (Q2R v)).
Proof. exact (src_is_curve base o dy v cb re). Qed.
Print Assumptions C28_source_is_curve.
Theorem C28_target_is_curve base o dx v cb re : good_order o -> (fo_y o <= fo_z o)%Q -> (0 <= dx)%Q -> amt_by_target false o dx = Some v ->
  dyfromdx_f (mkCurve base (Q2R (fo_B o)) (Q2R (fo_A o)) (Q2R (fo_z o)) (Q2R (fo_y o))) (Q2R dx) cb re = Ret (Some (Q2R v)).
Proof. exact (target_is_curve base o dx v cb re). Qed.
Print Assumptions C28_target_is_curve.
Example C28_curve_ex : let o := mkForder 10 10 1 2 in good_order o /\ (fo_y o <= fo_z o)%Q /\ option_map Qred (amt_by_src false o 4) = Some (20 # 39)%Q.
Proof. split; [repeat split; discriminate|]. split; [discriminate|]. vm_compute. reflexivity. Qed.
