From Coq Require Import Reals Bool Lra Lia.
From Verif Require Import CurveModel CurveSpec.
Local Open Scope R_scope.

Lemma rlt_true a b : a < b -> rlt a b = true. Proof. intros. unfold rlt. destruct (Rlt_dec a b); [reflexivity|contradiction]. Qed.
Lemma rlt_false a b : b <= a -> rlt a b = false. Proof. intros. unfold rlt. destruct (Rlt_dec a b); [lra|reflexivity]. Qed.
Lemma rle_true a b : a <= b -> rle a b = true. Proof. intros. unfold rle. destruct (Rle_dec a b); [reflexivity|contradiction]. Qed.
Lemma rle_false a b : b < a -> rle a b = false. Proof. intros. unfold rle. destruct (Rle_dec a b); [lra|reflexivity]. Qed.
Lemma req_true a b : a = b -> req a b = true. Proof. intros. unfold req. destruct (Req_EM_T a b); [reflexivity|contradiction]. Qed.
Lemma req_false a b : a <> b -> req a b = false. Proof. intros. unfold req. destruct (Req_EM_T a b); [contradiction|reflexivity]. Qed.
Lemma rdiv_ok a b : b <> 0 -> rdiv a b = Ret (a / b). Proof. intros. unfold rdiv. rewrite req_false by assumption. reflexivity. Qed.
Lemma rsqrt_ok a : 0 <= a -> rsqrt a = Ret (sqrt a). Proof. intros. unfold rsqrt. rewrite rlt_false by assumption. reflexivity. Qed.

(** ** Basic positivity *)
Definition rate (c : curve) (y : R) : R := c_B c + c_S c * (y / c_yint c).
Lemma rate_pos c y : valid c -> 0 <= y -> 0 < rate c y.
Proof.
  intros (HB & HS & HZ & _) Hy. unfold rate. assert (0 <= y / c_yint c) by (apply Rmult_le_pos; [assumption|left; apply Rinv_0_lt_compat; assumption]).
  pose proof (Rmult_le_pos _ _ HS H). lra.
Qed.
Lemma rate_scaled c y : c_yint c <> 0 -> c_S c * y + c_B c * c_yint c = c_yint c * rate c y.
Proof. intros. unfold rate. field. assumption. Qed.
Lemma raw_rate c y : raw_price c y = rate c y ^ 2. Proof. reflexivity. Qed.
Lemma raw_pos c y : valid c -> 0 <= y -> 0 < raw_price c y.
Proof. intros V H. rewrite raw_rate. apply pow_lt. apply rate_pos; assumption. Qed.
Lemma enabled c : valid c -> disabled c = false.
Proof. intros (HB & _). unfold disabled, pb_raw. rewrite (req_false (c_B c * c_B c)); [apply andb_false_r|]. pose proof (Rmult_lt_0_compat _ _ HB HB). lra. Qed.
Lemma nonempty c : valid c -> req (c_B c) 0 && req (c_S c) 0 = false.
Proof. intros (HB & _). rewrite req_false; [reflexivity|lra]. Qed.
Lemma quoted_ok c d : 0 < d -> quoted c d = Ret (in_quote c d).
Proof. intros. unfold quoted, in_quote. destruct (c_base c); [|reflexivity]. rewrite rdiv_ok by lra. unfold Rdiv. rewrite Rmult_1_l. reflexivity. Qed.

(** ** Values of the price and trade functions *)
Lemma p_marg_value c dy (checkbounds raiseonerror : bool) : valid c -> 0 <= dy <= c_y c ->
  p_marg_f c dy false checkbounds raiseonerror = Ret (Some (price_at c (c_y c - dy))).
Proof.
  intros V H. unfold p_marg_f. rewrite (enabled c V). rewrite rlt_false by lra. rewrite andb_false_r. rewrite rlt_false by lra. rewrite andb_false_r.
  pose proof V as (_ & _ & HZ & _). rewrite req_false by lra. cbn [rbind].
  replace (c_B c + c_S c * (c_y c - dy) / c_yint c) with (rate c (c_y c - dy)) by (unfold rate; field; lra).
  rewrite <- raw_rate. rewrite quoted_ok by (apply raw_pos; [assumption|lra]). reflexivity.
Qed.
Lemma p_marg_full_value c dy (checkbounds raiseonerror : bool) : valid c -> 0 <= dy <= c_yint c ->
  p_marg_f c dy true checkbounds raiseonerror = Ret (Some (price_at c (c_yint c - dy))).
Proof.
  intros V H. unfold p_marg_f. rewrite (enabled c V). rewrite rlt_false by lra. rewrite andb_false_r. rewrite rlt_false by lra. rewrite andb_false_r.
  pose proof V as (_ & _ & HZ & _). rewrite req_false by lra. cbn [rbind].
  replace (c_B c + c_S c * (c_yint c - dy) / c_yint c) with (rate c (c_yint c - dy)) by (unfold rate; field; lra).
  rewrite <- raw_rate. rewrite quoted_ok by (apply raw_pos; [assumption|lra]). reflexivity.
Qed.
(** what the curve charges for [dy] when it holds [y] *)
Definition cost (c : curve) (y dy : R) : R := dy / (rate c y * rate c (y - dy)).
Definition gain (c : curve) (y dx : R) : R := dx * rate c y ^ 2 / (c_S c / c_yint c * dx * rate c y + 1).
Lemma dx_value c dy (checkbounds raiseonerror : bool) : valid c -> (if checkbounds then 0 <= dy else True) -> dy <= c_y c ->
  dxfromdy_f c dy checkbounds raiseonerror = Ret (Some (cost c (c_y c) dy)).
Proof.
  intros V H0 H1. unfold dxfromdy_f. rewrite (nonempty c V). 
  assert (E : checkbounds && rlt dy 0 = false) by (destruct checkbounds; [cbn; apply rlt_false; assumption|reflexivity]). rewrite E.
  rewrite rlt_false by assumption. rewrite andb_false_r.
  pose proof V as (HB & HS & HZ & HY). pose proof (rate_pos c (c_y c) V ltac:(lra)) as R1. pose proof (rate_pos c (c_y c - dy) V ltac:(lra)) as R2.
  assert (E2 : c_S c * c_y c + c_B c * c_yint c - c_S c * dy = c_yint c * rate c (c_y c - dy)) by (unfold rate; field; lra).
  rewrite E2, rate_scaled by lra. rewrite rdiv_ok.
  2:{ apply Rgt_not_eq. repeat apply Rmult_lt_0_compat; lra. }
  cbn [rbind]. f_equal. f_equal. unfold cost. field. repeat split; lra.
Qed.
Lemma dy_value c dx (checkbounds raiseonerror : bool) : valid c -> 0 <= dx ->
  dyfromdx_f c dx checkbounds raiseonerror = Ret (Some (gain c (c_y c) dx)).
Proof.
  intros V H0. unfold dyfromdx_f. rewrite (nonempty c V). rewrite rlt_false by assumption. rewrite andb_false_r.
  pose proof V as (HB & HS & HZ & HY). pose proof (rate_pos c (c_y c) V ltac:(lra)) as R1.
  rewrite rate_scaled by lra. rewrite rlt_false by (apply pow2_ge_0). rewrite andb_false_r.
  assert (D : 0 < c_S c / c_yint c * dx * rate c (c_y c) + 1).
  { assert (0 <= c_S c / c_yint c * dx * rate c (c_y c)); [|lra]. repeat apply Rmult_le_pos; try lra. left. apply Rinv_0_lt_compat. assumption. }
  assert (E : c_S c * dx * (c_yint c * rate c (c_y c)) + c_yint c ^ 2 = c_yint c ^ 2 * (c_S c / c_yint c * dx * rate c (c_y c) + 1)) by (field; lra).
  rewrite E. assert (0 < c_yint c ^ 2) by (apply pow_lt; assumption).
  rewrite rdiv_ok by (apply Rgt_not_eq; apply Rmult_lt_0_compat; assumption). cbn [rbind]. f_equal. f_equal. unfold gain.
  set (d := c_S c / c_yint c * dx * rate c (c_y c) + 1) in *. clearbody d. field. split; lra.
Qed.
Lemma cost_nonneg c y dy : valid c -> 0 <= dy <= y -> 0 <= cost c y dy.
Proof.
  intros V H. unfold cost. apply Rmult_le_pos; [lra|]. left. apply Rinv_0_lt_compat. apply Rmult_lt_0_compat; apply rate_pos; try assumption; lra.
Qed.
Lemma gain_den c y dx : valid c -> 0 <= y -> 0 <= dx -> 0 < c_S c / c_yint c * dx * rate c y + 1.
Proof.
  intros V Hy Hx. pose proof V as (HB & HS & HZ & _). pose proof (rate_pos c y V Hy).
  assert (0 <= c_S c / c_yint c * dx * rate c y); [|lra]. repeat apply Rmult_le_pos; try lra. left. apply Rinv_0_lt_compat. assumption.
Qed.
Lemma rate_sub c y d : c_yint c <> 0 -> rate c (y - d) = rate c y - c_S c / c_yint c * d.
Proof. intros. unfold rate. field. assumption. Qed.
Lemma gain_cost c y dy : valid c -> 0 <= dy <= y -> gain c y (cost c y dy) = dy.
Proof.
  intros V H. pose proof V as (HB & HS & HZ & _). pose proof (rate_pos c y V ltac:(lra)) as R1. pose proof (rate_pos c (y - dy) V ltac:(lra)) as R2.
  unfold gain, cost. rewrite rate_sub in * by lra. set (r := rate c y) in *. set (k := c_S c / c_yint c) in *. clearbody r k.
  assert (E : k * (dy / (r * (r - k * dy))) * r + 1 = r / (r - k * dy)) by (field; lra).
  rewrite E. field. lra.
Qed.
Lemma cost_gain c y dx : valid c -> 0 <= y -> 0 <= dx -> cost c y (gain c y dx) = dx.
Proof.
  intros V Hy Hx. pose proof V as (HB & HS & HZ & _). pose proof (rate_pos c y V Hy) as R1. pose proof (gain_den c y dx V Hy Hx) as D.
  unfold cost. rewrite rate_sub by lra. unfold gain. set (r := rate c y) in *. set (k := c_S c / c_yint c) in *. clearbody r k.
  assert (E : r - k * (dx * r ^ 2 / (k * dx * r + 1)) = r / (k * dx * r + 1)) by (field; lra).
  rewrite E. field. lra.
Qed.
Lemma cost_split c y d1 d2 : valid c -> 0 <= y - d1 - d2 -> 0 <= y - d1 -> 0 <= y -> cost c y (d1 + d2) = cost c y d1 + cost c (y - d1) d2.
Proof.
  intros V H1 H2 H3. pose proof V as (HB & HS & HZ & _). pose proof (rate_pos c y V H3) as R1. pose proof (rate_pos c (y - d1) V H2) as R2. pose proof (rate_pos c (y - d1 - d2) V H1) as R3.
  unfold cost. replace (y - (d1 + d2)) with (y - d1 - d2) by ring. rewrite !rate_sub in * by lra. set (r := rate c y) in *. set (k := c_S c / c_yint c) in *. clearbody r k.
  field. lra.
Qed.

(** ** x(y) and y(x) *)
Lemma xden c y : valid c -> c_B c ^ 2 * c_yint c + c_B c * c_S c * y + c_B c * c_S c * c_yint c + c_S c ^ 2 * y = c_yint c * ((c_B c + c_S c) * rate c y).
Proof. intros (HB & HS & HZ & _). unfold rate. field. lra. Qed.
Lemma rate_full c : valid c -> rate c (c_yint c) = c_B c + c_S c.
Proof. intros (HB & HS & HZ & _). unfold rate. field. lra. Qed.
Lemma x_value c y (raiseonerror cb : bool) : valid c -> 0 <= y <= c_yint c ->
  xfromy_f c y cb raiseonerror = Ret (Some (cost c (c_yint c) (c_yint c - y))).
Proof.
  intros V H. unfold xfromy_f. rewrite !rlt_false by lra. rewrite !andb_false_r. rewrite xden by assumption.
  pose proof V as (HB & HS & HZ & _). pose proof (rate_pos c y V ltac:(lra)) as R1.
  rewrite rdiv_ok. 2:{ apply Rgt_not_eq. repeat apply Rmult_lt_0_compat; lra. }
  cbn [rbind]. f_equal. f_equal. unfold cost. replace (c_yint c - (c_yint c - y)) with y by ring. rewrite rate_full by assumption. field. repeat split; lra.
Qed.
Lemma y_value c x (raiseonerror cb : bool) : valid c -> 0 <= x -> (cb = true -> x <= cost c (c_yint c) (c_yint c)) ->
  yfromx_f c x cb raiseonerror = Ret (Some (c_yint c - gain c (c_yint c) x)).
Proof.
  intros V H Hc. unfold yfromx_f. rewrite rlt_false by lra. rewrite andb_false_r. pose proof V as (HB & HS & HZ & HY).
  pose proof (gain_den c (c_yint c) x V ltac:(lra) H) as D.
  assert (E : c_B c * c_S c * x + c_S c ^ 2 * x + c_yint c = c_yint c * (c_S c / c_yint c * x * rate c (c_yint c) + 1)) by (rewrite rate_full by assumption; field; lra).
  rewrite E. rewrite rdiv_ok. 2:{ apply Rgt_not_eq. apply Rmult_lt_0_compat; lra. }
  cbn [rbind].
  assert (E2 : c_yint c * (- c_B c ^ 2 * x - c_B c * c_S c * x + c_yint c) / (c_yint c * (c_S c / c_yint c * x * rate c (c_yint c) + 1)) = c_yint c - gain c (c_yint c) x).
  { unfold gain. rewrite rate_full in * by assumption. set (d := c_S c / c_yint c * x * (c_B c + c_S c) + 1) in *.
    replace (- c_B c ^ 2 * x - c_B c * c_S c * x + c_yint c) with (c_yint c * d - x * (c_B c + c_S c) ^ 2) by (unfold d; field; lra).
    clearbody d. field. lra. }
  rewrite E2. replace (cb && rlt (c_yint c - gain c (c_yint c) x) 0) with false; [reflexivity|]. symmetry.
  destruct cb; [|reflexivity]. cbn. apply rlt_false. specialize (Hc eq_refl).
  (* gain is monotone: gain x <= gain (cost yint) = yint *)
  assert (G : gain c (c_yint c) x <= c_yint c); [|lra].
  rewrite <- (gain_cost c (c_yint c) (c_yint c) V ltac:(lra)) at 2.
  assert (Hx2 : 0 <= cost c (c_yint c) (c_yint c)) by lra. pose proof (gain_den c (c_yint c) _ V ltac:(lra) Hx2) as D2. 
  unfold gain. set (t := cost c (c_yint c) (c_yint c)) in *. set (k := c_S c / c_yint c) in *. set (r := rate c (c_yint c)) in *.
  assert (Hk : 0 <= k) by (unfold k; apply Rmult_le_pos; [assumption|left; apply Rinv_0_lt_compat; assumption]). assert (Hr : 0 < r) by (apply rate_pos; [assumption|lra]).
  clearbody t k r. apply (Rmult_le_reg_r ((k * x * r + 1) * (k * t * r + 1))); [apply Rmult_lt_0_compat; assumption|].
  replace (x * r ^ 2 / (k * x * r + 1) * ((k * x * r + 1) * (k * t * r + 1))) with (x * r ^ 2 * (k * t * r + 1)) by (field; lra).
  replace (t * r ^ 2 / (k * t * r + 1) * ((k * x * r + 1) * (k * t * r + 1))) with (t * r ^ 2 * (k * x * r + 1)) by (field; lra).
  assert (0 <= r ^ 2) by (apply pow2_ge_0). pose proof (Rmult_le_compat_r (r ^ 2) _ _ H0 Hc). lra.
Qed.
Lemma gain_mono c y a b : valid c -> 0 <= y -> 0 <= a -> a < b -> gain c y a < gain c y b.
Proof.
  intros V Hy Ha Hab. pose proof V as (HB & HS & HZ & _). pose proof (gain_den c y a V Hy Ha) as D1. pose proof (gain_den c y b V Hy ltac:(lra)) as D2. pose proof (rate_pos c y V Hy) as Hr.
  unfold gain. set (k := c_S c / c_yint c) in *. set (r := rate c y) in *. clearbody k r.
  apply (Rmult_lt_reg_r ((k * a * r + 1) * (k * b * r + 1))); [apply Rmult_lt_0_compat; assumption|].
  replace (a * r ^ 2 / (k * a * r + 1) * ((k * a * r + 1) * (k * b * r + 1))) with (a * r ^ 2 * (k * b * r + 1)) by (field; lra).
  replace (b * r ^ 2 / (k * b * r + 1) * ((k * a * r + 1) * (k * b * r + 1))) with (b * r ^ 2 * (k * a * r + 1)) by (field; lra).
  assert (0 < r ^ 2) by (apply pow_lt; assumption). pose proof (Rmult_lt_compat_r (r ^ 2) _ _ H Hab). lra.
Qed.
