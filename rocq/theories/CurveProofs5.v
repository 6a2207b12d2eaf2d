From Coq Require Import Reals Bool Lra Lia QArith Qreals.
From Verif Require Import TradeModel PairModel SimModel FastModel FastSpec FastProofs FastProofs4.
From Verif Require Import CurveModel CurveSpec CurveProofs CurveProofs2 CurveProofs3 CurveProofs4.
Local Open Scope R_scope.

(** ** C42 *)
Lemma lp_sym a b p q : liquidity_perc a b p q = liquidity_perc a b q p.
Proof.
  unfold liquidity_perc. assert (E : (if rlt q p then (q, p) else (p, q)) = (if rlt p q then (p, q) else (q, p))).
  { unfold rlt. destruct (Rlt_dec q p), (Rlt_dec p q); [lra|reflexivity|reflexivity|]. assert (p = q) by lra. subst. reflexivity. }
  rewrite E. reflexivity.
Qed.
Lemma lp_value lo hi p q : lo < hi -> fst (liquidity_perc lo hi p q) = overlap lo hi p q / (hi - lo).
Proof.
  intros H.
  assert (core : forall p q, p <= q -> fst (liquidity_perc lo hi p q) = Rmax 0 (Rmin q hi - Rmax p lo) / (hi - lo)).
  { clear p q. intros p q L. unfold liquidity_perc. rewrite (rlt_false q p) by lra. rewrite (req_false hi lo) by lra. 
    destruct (Rle_dec hi p) as [L1|L1]; [|destruct (Rle_dec q lo) as [L2|L2]].
    - rewrite (rle_true hi p) by assumption. cbn [orb fst]. rewrite Rmax_left; [unfold Rdiv; rewrite Rmult_0_l; reflexivity|]. pose proof (Rmin_r q hi). pose proof (Rmax_l p lo). lra.
    - rewrite (rle_true q lo) by assumption. rewrite orb_true_r. cbn [fst]. rewrite Rmax_left; [unfold Rdiv; rewrite Rmult_0_l; reflexivity|]. pose proof (Rmin_l q hi). pose proof (Rmax_r p lo). lra.
    - rewrite (rle_false hi p), (rle_false q lo) by lra. cbn [orb fst]. f_equal.
      assert (E1 : (if rlt hi q then hi else q) = Rmin q hi) by (unfold rlt, Rmin; destruct (Rlt_dec hi q), (Rle_dec q hi); lra).
      assert (E2 : (if rlt p lo then lo else p) = Rmax p lo) by (unfold rlt, Rmax; destruct (Rlt_dec p lo), (Rle_dec p lo); lra).
      rewrite E1, E2. symmetry. apply Rmax_right. unfold Rmin, Rmax. destruct (Rle_dec q hi), (Rle_dec p lo); lra. }
  unfold overlap. destruct (Rle_dec p q) as [L|L].
  - rewrite (Rmin_left p q), (Rmax_right p q) by assumption. apply core. assumption.
  - rewrite lp_sym. rewrite (Rmin_right p q), (Rmax_left p q) by lra. apply core. lra.
Qed.
Lemma overlap_bounds lo hi p q : lo <= hi -> 0 <= overlap lo hi p q <= hi - lo.
Proof. intros H. unfold overlap. unfold Rmax, Rmin. repeat destruct (Rle_dec _ _); lra. Qed.
Lemma overlap_add lo hi p q r : p <= q -> q <= r -> lo < hi -> overlap lo hi p r = overlap lo hi p q + overlap lo hi q r.
Proof.
  intros H1 H2 H. unfold overlap. rewrite (Rmax_right p r), (Rmin_left p r), (Rmax_right p q), (Rmin_left p q), (Rmax_right q r), (Rmin_left q r) by lra.
  destruct (Rle_dec r hi), (Rle_dec q hi), (Rle_dec p lo), (Rle_dec q lo); rewrite ?(Rmin_left r hi), ?(Rmin_right r hi), ?(Rmin_left q hi), ?(Rmin_right q hi), ?(Rmax_right p lo), ?(Rmax_left p lo), ?(Rmax_right q lo), ?(Rmax_left q lo) by lra;
  unfold Rmax; repeat destruct (Rle_dec 0 _); lra.
Qed.
Lemma overlap_cover lo hi p q : lo <= hi -> Rmin p q <= lo -> hi <= Rmax p q -> overlap lo hi p q = hi - lo.
Proof. intros H H1 H2. unfold overlap. rewrite (Rmin_right _ hi), (Rmax_right _ lo) by assumption. apply Rmax_right. lra. Qed.
Lemma price_ends c : valid c -> if c_base c then price_at c (c_yint c) <= price_at c 0 else price_at c 0 <= price_at c (c_yint c).
Proof.
  intros V. pose proof V as (HB & HS & HZ & HY). pose proof (raw_mono_le c 0 (c_yint c) V ltac:(lra) ltac:(lra)). pose proof (raw_pos c 0 V ltac:(lra)).
  unfold price_at, in_quote. destruct (c_base c); [apply Rinv_le_contravar; assumption|assumption].
Qed.
Lemma pminmax_value c : valid c -> pminmax c = Ret (Some (lowest c, highest c)).
Proof.
  intros V. unfold pminmax. rewrite (enabled c V), price_full, price_empty by assumption. cbn [rbind]. unfold lowest, highest, rlt. f_equal. f_equal.
  destruct (Rlt_dec _ _) as [L|L].
  - rewrite Rmin_right, Rmax_left by lra. reflexivity.
  - rewrite Rmin_left, Rmax_right by lra. reflexivity.
Qed.
Lemma lp_range lo hi p q : lo <= hi -> 0 <= fst (liquidity_perc lo hi p q) <= 1.
Proof.
  intros [H|<-].
  - rewrite lp_value by assumption. pose proof (overlap_bounds lo hi p q ltac:(lra)). split.
    + apply Rmult_le_pos; [lra|]. left. apply Rinv_0_lt_compat. lra.
    + apply (Rmult_le_reg_r (hi - lo)); [lra|]. unfold Rdiv. rewrite Rmult_assoc, Rinv_l by lra. lra.
  - unfold liquidity_perc. destruct (if rlt q p then (q, p) else (p, q)) as [a b]. rewrite (req_true lo lo) by reflexivity. cbn [fst]. destruct (req a b); [destruct (req a lo)|destruct (rle a lo && rlt lo b)]; lra.
Qed.
Lemma low_high c : lowest c <= highest c.
Proof. unfold lowest, highest. pose proof (Rmin_l (price_at c 0) (price_at c (c_yint c))). pose proof (Rmax_l (price_at c 0) (price_at c (c_yint c))). lra. Qed.
Lemma low_high_lt c : valid c -> 0 < c_S c -> lowest c < highest c.
Proof.
  intros V HS. pose proof V as (HB & _ & HZ & HY). pose proof (price_moves c 0 (c_yint c) V HS ltac:(lra) HZ) as M. unfold moves in M. unfold lowest, highest.
  destruct (c_base c); [rewrite Rmin_right, Rmax_left by lra|rewrite Rmin_left, Rmax_right by lra]; assumption.
Qed.
Lemma approx_perc c p q t : valid c -> liquidity_approx c p q t true = Ret (fst (liquidity_perc (lowest c) (highest c) p q)).
Proof. intros V. unfold liquidity_approx. rewrite pminmax_value by assumption. cbn [rbind]. destruct (liquidity_perc _ _ p q). reflexivity. Qed.
Lemma approx_range c p q t : valid c -> exists v, liquidity_approx c p q t true = Ret v /\ 0 <= v <= 1 /\ liquidity_approx c q p t true = Ret v.
Proof. intros V. eexists. split; [apply approx_perc; assumption|]. split; [apply lp_range; apply low_high|]. rewrite approx_perc by assumption. rewrite lp_sym. reflexivity. Qed.
Lemma approx_value c p q t : valid c -> 0 < c_S c -> liquidity_approx c p q t true = Ret (overlap (lowest c) (highest c) p q / (highest c - lowest c)).
Proof. intros V HS. rewrite approx_perc by assumption. rewrite lp_value by (apply low_high_lt; assumption). reflexivity. Qed.
Lemma approx_add c p q r t : valid c -> 0 < c_S c -> p <= q <= r -> exists u v, liquidity_approx c p q t true = Ret u /\ liquidity_approx c q r t true = Ret v /\ liquidity_approx c p r t true = Ret (u + v).
Proof.
  intros V HS H. do 2 eexists. split; [apply approx_value; assumption|]. split; [apply approx_value; assumption|]. rewrite approx_value by assumption. f_equal.
  rewrite (overlap_add _ _ p q r) by (try lra; apply low_high_lt; assumption). field. pose proof (low_high_lt c V HS). lra.
Qed.
Lemma approx_cover c p q t : valid c -> Rmin p q <= lowest c -> highest c <= Rmax p q -> (0 < c_S c \/ highest c < Rmax p q) -> liquidity_approx c p q t true = Ret 1.
Proof.
  intros V H1 H2 H3. rewrite approx_perc by assumption. f_equal. destruct (Req_EM_T (lowest c) (highest c)) as [E|N].
  - assert (HL : highest c < Rmax p q). { destruct H3 as [HS|H3]; [|assumption]. pose proof (low_high_lt c V HS). lra. }
    unfold liquidity_perc. rewrite (req_true (highest c)) by (symmetry; assumption). unfold rlt at 1. unfold Rmin, Rmax in *.
    destruct (Rlt_dec q p); cbn [fst]; destruct (Rle_dec p q); try (exfalso; lra); rewrite req_false by lra; rewrite rle_true by lra; rewrite rlt_true by lra; reflexivity.
  - pose proof (low_high c). rewrite lp_value by lra. rewrite overlap_cover by lra. field. lra.
Qed.
Lemma approx_own c p q : valid c -> exists v, liquidity_approx c p q (Some (c_base c)) true = Ret v /\ liquidity_approx c p q (Some (c_base c)) false = Ret (c_y c * v).
Proof.
  intros V. eexists. split; [apply approx_perc; assumption|]. unfold liquidity_approx. rewrite pminmax_value by assumption. cbn [rbind]. destruct (liquidity_perc _ _ p q) as [v w]. cbn [fst].
  rewrite eqb_reflx. cbn [rbind]. unfold req. destruct (Req_EM_T v 0) as [->|_]; [f_equal; ring|reflexivity].
Qed.

(** ** C43 *)
Lemma loop_more f fa eps n : forall k a b r, goalseek_loop n f fa eps a b = Some r -> goalseek_loop (n + k) f fa eps a b = Some r.
Proof.
  induction n as [|n IH]; intros k a b r E; [discriminate|]. cbn [goalseek_loop plus] in *. destruct (if rlt 0 (f (/ 2 * (a + b)) * fa) then _ else _) as [a' b'].
  destruct (rdiv b' a'); [|assumption]. destruct (rlt _ eps); [assumption|]. apply IH. assumption.
Qed.
Lemma step_cases f fa (a b : R) : a < b -> 
  let m := / 2 * (a + b) in exists a' b', (if rlt 0 (f m * fa) then (m, b) else (a, m)) = (a', b') /\ a <= a' /\ a' < b' /\ b' <= b /\ b' - a' = (b - a) / 2 /\
   (0 < f a * fa -> 0 < f a' * fa) /\ (f b * fa <= 0 -> f b' * fa <= 0) /\ (m = a' \/ m = b').
Proof.
  intros H m. unfold rlt. destruct (Rlt_dec 0 (f m * fa)) as [L|L].
  - exists m, b. unfold m in *. repeat split; try lra.
  - exists a, m. unfold m in *. repeat split; try lra.
Qed.
Lemma loop_ends f fa eps n : forall a b, 0 < a -> a < b -> 0 < f a * fa -> f b * fa <= 0 -> b - a < a * eps * 2 ^ (S n) ->
  exists m a' b', goalseek_loop (S n) f fa eps a b = Some (Ret m) /\ a <= a' /\ a' < b' /\ b' <= b /\ (m = a' \/ m = b') /\ b' - a' < eps * a' /\ 0 < f a' * fa /\ f b' * fa <= 0.
Proof.
  induction n as [|n IH]; intros a b Ha Hab F1 F2 H.
  - destruct (step_cases f fa a b Hab) as (a' & b' & E & L1 & L2 & L3 & L4 & G1 & G2 & M). exists (/ 2 * (a + b)), a', b'.
    assert (D : b' - a' < eps * a').
    { cbn in H. assert (0 < eps). { apply (Rmult_lt_reg_l (a * 2)); lra. } pose proof (Rmult_le_compat_l eps _ _ ltac:(lra) L1). lra. }
    split; [|auto 10]. cbn [goalseek_loop]. rewrite E. rewrite rdiv_ok by lra. rewrite rlt_true; [reflexivity|].
    apply (Rmult_lt_reg_r a'); [lra|]. replace ((b' / a' - 1) * a') with (b' - a') by (field; lra). assumption.
  - destruct (step_cases f fa a b Hab) as (a' & b' & E & L1 & L2 & L3 & L4 & G1 & G2 & M).
    assert (P : 0 < 2 ^ (S n)) by (apply pow_lt; lra).
    assert (HE : 0 < eps). { change (2 ^ S (S n)) with (2 * 2 ^ (S n)) in H. apply (Rmult_lt_reg_l (a * (2 * 2 ^ S n))); [apply Rmult_lt_0_compat; lra|]. lra. }
    remember (S n) as k. cbn [goalseek_loop]. rewrite E. rewrite rdiv_ok by lra. unfold rlt at 1. destruct (Rlt_dec (b' / a' - 1) eps) as [T|T].
    + exists (/ 2 * (a + b)), a', b'. split; [reflexivity|]. assert (D : b' - a' < eps * a').
      { replace (b' - a') with ((b' / a' - 1) * a') by (field; lra). apply Rmult_lt_compat_r; lra. } auto 10.
    + destruct (IH a' b') as (m & a2 & b2 & R & K1 & K2 & K3 & K4); [lra|assumption|auto|auto| |].
      * rewrite L4. cbn [pow] in H. pose proof (Rmult_le_compat_r (eps * 2 ^ k) _ _ ltac:(apply Rmult_le_pos; lra) L1). lra.
      * exists m, a2, b2. split; [assumption|]. split; [lra|]. split; [assumption|]. split; [lra|]. assumption.
Qed.
Lemma pow2_above x : exists n, x < 2 ^ (S n).
Proof.
  destruct (Pow_x_infinity 2 ltac:(rewrite Rabs_right; lra) (x + 1)) as [N H]. exists N. specialize (H (S N) ltac:(lia)). assert (0 < 2 ^ S N) by (apply pow_lt; lra). rewrite Rabs_right in H by lra. lra.
Qed.
Lemma seek_ok f a b eps : 0 < a -> a < b -> 0 < eps -> f a * f b < 0 ->
  exists n m a' b', (forall fuel, (n <= fuel)%nat -> goalseek fuel f a b eps = Some (Ret m)) /\ a <= a' /\ a' < b' /\ b' <= b /\ (m = a' \/ m = b') /\ b' - a' < eps * a' /\ 0 < f a' * f a /\ f b' * f a <= 0.
Proof.
  intros Ha Hab He F. assert (F1 : 0 < f a * f a). { assert (f a <> 0) by (intros E; rewrite E in F; lra). pose proof (Rsqr_pos_lt _ H). unfold Rsqr in *. assumption. }
  destruct (pow2_above ((b - a) / (a * eps))) as [n N]. assert (AE : 0 < a * eps) by (apply Rmult_lt_0_compat; assumption).
  destruct (loop_ends f (f a) eps n a b Ha Hab F1 ltac:(lra)) as (m & a' & b' & R & K).
  { apply (Rmult_lt_compat_l (a * eps)) in N; [|assumption]. replace (a * eps * ((b - a) / (a * eps))) with (b - a) in N by (field; lra). assumption. }
  exists (S n), m, a', b'. split; [|assumption]. intros fuel L. unfold goalseek. rewrite (rlt_true a b) by assumption. rewrite (rlt_true (f a * f b)) by assumption. cbn [negb].
  replace fuel with (S n + (fuel - S n))%nat by lia. apply loop_more. assumption.
Qed.
Lemma seek_forever f a b eps : 0 < a -> a < b -> eps <= 0 -> f a * f b < 0 -> forall fuel, goalseek fuel f a b eps = None.
Proof.
  intros Ha Hab He F fuel. unfold goalseek. rewrite (rlt_true a b) by assumption. rewrite (rlt_true (f a * f b)) by assumption. cbn [negb]. generalize (f a). clear F. intros fa. revert a b Ha Hab.
  induction fuel as [|fuel IH]; intros a b Ha Hab; [reflexivity|]. cbn [goalseek_loop]. destruct (step_cases f fa a b Hab) as (a' & b' & E & L1 & L2 & _). rewrite E. rewrite rdiv_ok by lra.
  rewrite rlt_false; [apply IH; lra|]. assert (1 < b' / a'); [|lra]. apply (Rmult_lt_reg_r a'); [lra|]. unfold Rdiv. rewrite Rmult_assoc, Rinv_l by lra. lra.
Qed.
Lemma seek_rejects f a b eps fuel : b <= a \/ 0 <= f a * f b -> goalseek fuel f a b eps = Some (Raise ValueError).
Proof. intros [H|H]; unfold goalseek; [rewrite rlt_false by assumption; reflexivity|]. rewrite (rlt_false (f a * f b)) by assumption. destruct (rlt a b); reflexivity. Qed.
Lemma seek_negative f a b eps fuel : a < 0 -> a < b -> 0 <= eps -> f a * f b < 0 -> let m := / 2 * (a + b) in (f m * f a <= 0 \/ m < 0) -> goalseek (S fuel) f a b eps = Some (Ret m).
Proof.
  intros Ha Hab He F m H. unfold goalseek. rewrite (rlt_true a b) by assumption. rewrite (rlt_true (f a * f b)) by assumption. cbn [negb goalseek_loop]. fold m.
  assert (G : exists a' b', (if rlt 0 (f m * f a) then (m, b) else (a, m)) = (a', b') /\ a' < b' /\ a' < 0).
  { unfold rlt. destruct (Rlt_dec 0 (f m * f a)) as [L|L]; [exists m, b|exists a, m]; (split; [reflexivity|]); unfold m in *; lra. }
  destruct G as (a' & b' & -> & L1 & L2). rewrite rdiv_ok by lra. rewrite rlt_true; [reflexivity|]. assert (b' / a' < 1); [|lra].
  assert (I : / a' < 0) by (apply Rinv_lt_0_compat; assumption). replace 1 with (a' * / a') by (field; lra). unfold Rdiv. rewrite !(Rmult_comm _ (/ a')). apply Rmult_lt_gt_compat_neg_l; assumption.
Qed.
Lemma seek_zero f a b eps fuel : a <= 0 -> a < b -> f a * f b < 0 -> let m := / 2 * (a + b) in (a = 0 /\ f m * f a <= 0) \/ (m = 0 /\ 0 < f m * f a) -> goalseek (S fuel) f a b eps = Some (Raise ZeroDivision).
Proof.
  intros Ha Hab F m H. unfold goalseek. rewrite (rlt_true a b) by assumption. rewrite (rlt_true (f a * f b)) by assumption. cbn [negb goalseek_loop]. fold m.
  destruct H as [[E L]|[E L]].
  - rewrite rlt_false by assumption. unfold rdiv. rewrite req_true by assumption. reflexivity.
  - rewrite rlt_true by assumption. unfold rdiv. rewrite req_true by assumption. reflexivity.
Qed.

(** ** C28: the fast router and the curves *)
Definition as_curve (base : bool) (o : forder) : curve := mkCurve base (Q2R (fo_B o)) (Q2R (fo_A o)) (Q2R (fo_z o)) (Q2R (fo_y o)).
Lemma as_curve_valid base o : good_order o -> (fo_y o <= fo_z o)%Q -> valid (as_curve base o).
Proof.
  intros (H1 & H2 & H3 & H4) H. apply Qle_Rle in H1, H3, H. apply Qlt_Rlt in H2, H4. rewrite RMicromega.Q2R_0 in *. repeat split; cbn; assumption.
Qed.
Lemma rate_at_R base o y : Q2R (fo_z o) <> 0 -> Q2R (rate_at o y) = Q2R (fo_z o) * rate (as_curve base o) (Q2R y).
Proof. intros. unfold rate_at, rate. rewrite Q2R_plus, !Q2R_mult. cbn. field. assumption. Qed.
Lemma cost_R base o dy : good_order o -> (fo_y o <= fo_z o)%Q -> (0 <= dy)%Q -> (dy <= fo_y o)%Q -> Q2R (curve_cost o dy) = cost (as_curve base o) (Q2R (fo_y o)) (Q2R dy).
Proof.
  intros G H H0 H1. pose proof (as_curve_valid base o G H) as V. pose proof V as (HB & HS & HZ & HY). cbn [as_curve c_B c_S c_yint c_y] in HB, HS, HZ, HY.
  apply Qle_Rle in H0, H1. rewrite RMicromega.Q2R_0 in H0.
  pose proof (rate_pos _ (Q2R (fo_y o)) V ltac:(lra)) as R1. pose proof (rate_pos _ (Q2R (fo_y o) - Q2R dy) V ltac:(lra)) as R2.
  assert (E1 := rate_at_R base o (fo_y o) ltac:(lra)). assert (E2 := rate_at_R base o (fo_y o - dy) ltac:(lra)). rewrite Q2R_minus in E2.
  unfold curve_cost. rewrite Q2R_div.
  - rewrite !Q2R_mult, E1, E2. unfold cost. set (u := rate _ _) in *. set (w := rate _ _) in R2 |- *. field. repeat split; lra.
  - intros K. apply Qeq_eqR in K. rewrite RMicromega.Q2R_0, Q2R_mult, E1, E2 in K.
    assert (0 < Q2R (fo_z o) * rate (as_curve base o) (Q2R (fo_y o)) * (Q2R (fo_z o) * rate (as_curve base o) (Q2R (fo_y o) - Q2R dy))); [|lra]. apply Rmult_lt_0_compat; apply Rmult_lt_0_compat; assumption.
Qed.
Lemma gain_R base o dx : good_order o -> (fo_y o <= fo_z o)%Q -> (0 <= dx)%Q -> Q2R (curve_gain o dx) = gain (as_curve base o) (Q2R (fo_y o)) (Q2R dx).
Proof.
  intros G H H0. pose proof (as_curve_valid base o G H) as V. pose proof V as (HB & HS & HZ & HY). cbn [as_curve c_B c_S c_yint c_y] in HB, HS, HZ, HY.
  apply Qle_Rle in H0. rewrite RMicromega.Q2R_0 in H0. pose proof (gain_den _ (Q2R (fo_y o)) (Q2R dx) V ltac:(lra) H0) as D. pose proof (rate_pos _ (Q2R (fo_y o)) V ltac:(lra)) as R1.
  assert (E1 := rate_at_R base o (fo_y o) ltac:(lra)).
  assert (E : Q2R (fo_A o * dx * rate_at o (fo_y o) + fo_z o * fo_z o) = Q2R (fo_z o) ^ 2 * (c_S (as_curve base o) / c_yint (as_curve base o) * Q2R dx * rate (as_curve base o) (Q2R (fo_y o)) + 1)).
  { rewrite Q2R_plus, !Q2R_mult, E1. cbn [as_curve c_S c_yint]. field. lra. }
  unfold curve_gain. rewrite Q2R_div.
  - rewrite E, !Q2R_mult, E1. unfold gain. set (d := _ + 1) in *. clearbody d. set (u := rate _ _) in *. clearbody u. field. lra.
  - intros K. apply Qeq_eqR in K. rewrite RMicromega.Q2R_0, E in K. pose proof (pow_lt _ 2 HZ). pose proof (Rmult_lt_0_compat _ _ H1 D). lra.
Qed.
Lemma src_is_curve base o dy v (cb re : bool) : good_order o -> (fo_y o <= fo_z o)%Q -> (0 <= dy)%Q -> (dy <= fo_y o)%Q -> amt_by_src false o dy = Some v ->
  dxfromdy_f (as_curve base o) (Q2R dy) cb re = Ret (Some (Q2R v)).
Proof.
  intros G H H0 H1 E. destruct (round_trip_target o dy G H0 H1) as (v' & w & E' & EV & _). rewrite E in E'. injection E' as <-.
  rewrite (Qeq_eqR _ _ EV). rewrite (cost_R base) by assumption. apply dx_value; [apply as_curve_valid; assumption| |apply Qle_Rle; assumption].
  destruct cb; [|exact I]. apply Qle_Rle in H0. rewrite RMicromega.Q2R_0 in H0. assumption.
Qed.
Lemma target_is_curve base o dx v (cb re : bool) : good_order o -> (fo_y o <= fo_z o)%Q -> (0 <= dx)%Q -> amt_by_target false o dx = Some v ->
  dyfromdx_f (as_curve base o) (Q2R dx) cb re = Ret (Some (Q2R v)).
Proof.
  intros G H H0 E. destruct (target_value o dx G H0) as (v' & E' & EV). rewrite E in E'. injection E' as <-.
  rewrite (Qeq_eqR _ _ EV). rewrite (gain_R base) by assumption. apply dy_value; [apply as_curve_valid; assumption|]. apply Qle_Rle in H0. rewrite RMicromega.Q2R_0 in H0. assumption.
Qed.
(** ** the derivative, for the function actually computed *)
Lemma pay_derivative c (F : R -> R) t : valid c -> 0 < t < c_y c -> (forall d, 0 <= d <= c_y c -> dxfromdy_f c d true true = Ret (Some (F d))) ->
  derivable_pt_lim F t (/ raw_price c (c_y c - t)).
Proof.
  intros V H E. apply (derivable_pt_lim_locally_ext (fun d => cost c (c_y c) d) F t 0 (c_y c)); [assumption| |apply cost_derivative; [assumption|lra|lra]].
  intros d Hd. specialize (E d ltac:(lra)). rewrite dx_value in E by (try assumption; lra). injection E. auto.
Qed.
Lemma marg_empty_full c (re : bool) : valid c -> pa c = Ret (price_at c (c_yint c)) /\ pb c = Ret (price_at c 0) /\
  p_marg (with_y c (c_yint c)) = Ret (Some (price_at c (c_yint c))) /\ p_marg (with_y c 0) = Ret (Some (price_at c 0)).
Proof.
  intros V. pose proof V as (HB & HS & HZ & HY). split; [apply price_full; assumption|]. split; [apply price_empty; assumption|]. unfold p_marg.
  split; (rewrite p_marg_value; [cbn [c_y with_y]; rewrite Rminus_0_r; reflexivity|apply valid_with_y; [assumption|lra]|cbn; lra]).
Qed.
