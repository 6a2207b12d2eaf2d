From Coq Require Import Reals Bool Lra Lia.
From Verif Require Import CurveModel CurveSpec CurveProofs.
Local Open Scope R_scope.

(** ** C36 *)
Lemma inverse_dy c dy re re' : valid c -> 0 <= dy <= c_y c ->
  exists dx, dxfromdy_f c dy true re = Ret (Some dx) /\ 0 <= dx /\ dyfromdx_f c dx true re' = Ret (Some dy).
Proof.
  intros V H. exists (cost c (c_y c) dy). pose proof (cost_nonneg c (c_y c) dy V H). split; [apply dx_value; [assumption|lra|lra]|]. split; [assumption|].
  rewrite dy_value by assumption. rewrite gain_cost by assumption. reflexivity.
Qed.
Lemma inverse_dx c dx dy re re' : valid c -> 0 <= dx -> dyfromdx_f c dx true re = Ret (Some dy) -> dy <= c_y c ->
  0 <= dy /\ dxfromdy_f c dy true re' = Ret (Some dx).
Proof.
  intros V H E L. rewrite dy_value in E by assumption. injection E as <-. pose proof V as (_ & _ & _ & HY).
  assert (G : 0 <= gain c (c_y c) dx).
  { destruct H as [H|<-]; [|unfold gain; lra]. left. replace 0 with (gain c (c_y c) 0) by (unfold gain; lra). apply gain_mono; [assumption|lra|lra|assumption]. }
  split; [assumption|]. rewrite dx_value by assumption. rewrite cost_gain by (try assumption; lra). reflexivity.
Qed.
Lemma valid_with_y c y : valid c -> 0 <= y <= c_yint c -> valid (with_y c y).
Proof. intros (H1 & H2 & H3 & _) H. repeat split; cbn; lra. Qed.
Lemma path_independent c d1 d2 re : valid c -> 0 <= d1 -> 0 <= d2 -> d1 + d2 <= c_y c ->
  exists x1 x2, dxfromdy_f c d1 true re = Ret (Some x1) /\ dxfromdy_f (with_y c (c_y c - d1)) d2 true re = Ret (Some x2) /\
    dxfromdy_f c (d1 + d2) true re = Ret (Some (x1 + x2)).
Proof.
  intros V H1 H2 H3. pose proof V as (_ & _ & _ & HY). exists (cost c (c_y c) d1), (cost c (c_y c - d1) d2).
  split; [apply dx_value; [assumption|lra|lra]|]. split.
  - rewrite dx_value; [reflexivity|apply valid_with_y; [assumption|lra]|assumption|cbn; lra].
  - rewrite dx_value; [|assumption|lra|assumption]. rewrite cost_split by (try assumption; lra). reflexivity.
Qed.
Lemma x_then_y c y re re' : valid c -> 0 <= y <= c_yint c -> exists x, xfromy_f c y true re = Ret (Some x) /\ 0 <= x /\ yfromx_f c x true re' = Ret (Some y).
Proof.
  intros V H. pose proof V as (_ & _ & _ & HY). exists (cost c (c_yint c) (c_yint c - y)). split; [apply x_value; assumption|].
  split; [apply cost_nonneg; [assumption|lra]|]. rewrite y_value.
  - rewrite gain_cost by (try assumption; lra). f_equal. f_equal. ring.
  - assumption.
  - apply cost_nonneg; [assumption|lra].
  - intros _. pose proof (cost_split c (c_yint c) (c_yint c - y) y V ltac:(lra) ltac:(lra) ltac:(lra)) as E.
    replace (c_yint c - y + y) with (c_yint c) in E by ring. rewrite E. replace (c_yint c - (c_yint c - y)) with y by ring.
    pose proof (cost_nonneg c y y V ltac:(lra)). lra.
Qed.
Lemma xint_value c : valid c -> xint c = Ret (cost c (c_yint c) (c_yint c)).
Proof.
  intros V. pose proof V as (HB & HS & HZ & HY). unfold xint. 
  assert (D : c_B c ^ 2 + c_B c * c_S c = c_B c * (c_B c + c_S c)) by ring. rewrite D.
  rewrite rdiv_ok by (apply Rgt_not_eq; apply Rmult_lt_0_compat; lra). f_equal. unfold cost. rewrite rate_full by assumption.
  replace (c_yint c - c_yint c) with 0 by ring. unfold rate. field. repeat split; lra.
Qed.
Lemma y_then_x c x xi re re' : valid c -> xint c = Ret xi -> 0 <= x <= xi -> exists y, yfromx_f c x true re = Ret (Some y) /\ 0 <= y <= c_yint c /\ xfromy_f c y true re' = Ret (Some x).
Proof.
  intros V E H. rewrite xint_value in E by assumption. injection E as <-. pose proof V as (_ & _ & HZ & HY).
  exists (c_yint c - gain c (c_yint c) x). split; [apply y_value; [assumption|lra|intros _; lra]|].
  assert (G1 : 0 <= gain c (c_yint c) x).
  { destruct (proj1 H) as [K|<-]; [|unfold gain; lra]. left. replace 0 with (gain c (c_yint c) 0) by (unfold gain; lra). apply gain_mono; [assumption|lra|lra|assumption]. }
  assert (G2 : gain c (c_yint c) x <= c_yint c).
  { rewrite <- (gain_cost c (c_yint c) (c_yint c) V ltac:(lra)) at 2. destruct (proj2 H) as [K| ->]; [|right; reflexivity]. left. apply gain_mono; [assumption|lra|lra|assumption]. }
  split; [lra|]. rewrite x_value by (try assumption; lra). replace (c_yint c - (c_yint c - gain c (c_yint c) x)) with (gain c (c_yint c) x) by ring.
  rewrite cost_gain by (try assumption; lra). reflexivity.
Qed.
Lemma x_difference c dy re : valid c -> 0 <= dy <= c_y c ->
  exists x1 x2, xfromy_f c (c_y c) true re = Ret (Some x1) /\ xfromy_f c (c_y c - dy) true re = Ret (Some x2) /\ dxfromdy_f c dy true re = Ret (Some (x2 - x1)).
Proof.
  intros V H. pose proof V as (_ & _ & HZ & HY). exists (cost c (c_yint c) (c_yint c - c_y c)), (cost c (c_yint c) (c_yint c - (c_y c - dy))).
  split; [apply x_value; [assumption|lra]|]. split; [apply x_value; [assumption|lra]|]. rewrite dx_value; [|assumption|lra|lra]. f_equal. f_equal.
  replace (c_yint c - (c_y c - dy)) with ((c_yint c - c_y c) + dy) by ring. rewrite (cost_split c (c_yint c) (c_yint c - c_y c) dy) by (try assumption; lra).
  replace (c_yint c - (c_yint c - c_y c)) with (c_y c) by ring. ring.
Qed.
(** the marginal price is the derivative of what has to be paid: for the amount dx(t) paid
    for t tokens, dx'(t) = 1 / raw price at y - t *)
Lemma cost_derivative c y t : valid c -> 0 <= t -> t <= y -> derivable_pt_lim (fun d => cost c y d) t (/ raw_price c (y - t)).
Proof.
  intros V H0 H1. pose proof V as (HB & HS & HZ & _). pose proof (rate_pos c y V ltac:(lra)) as R1. pose proof (rate_pos c (y - t) V ltac:(lra)) as R2.
  rewrite raw_rate. rewrite rate_sub in * by lra.
  set (k := c_S c / c_yint c) in *. set (r := rate c y) in *.
  assert (F : forall d, cost c y d = d / (r * (r - k * d))) by (intros d; unfold cost; rewrite rate_sub by lra; reflexivity).
  apply (derivable_pt_lim_ext (fun d => d / (r * (r - k * d)))); [intros; symmetry; apply F|]. clear F.
  replace (/ (r - k * t) ^ 2) with ((1 * (r * (r - k * t)) - (r * (0 - k * 1)) * t) / Rsqr (r * (r - k * t))).
  2:{ unfold Rsqr. field. lra. }
  apply (derivable_pt_lim_div (fun d => d) (fun d => r * (r - k * d)) t 1 (r * (0 - k * 1))).
  - apply derivable_pt_lim_id.
  - apply (derivable_pt_lim_scal (fun d => r - k * d)). apply (derivable_pt_lim_minus (fun _ => r) (fun d => k * d)).
    + apply derivable_pt_lim_const.
    + apply (derivable_pt_lim_scal (fun d => d)). apply derivable_pt_lim_id.
  - apply Rgt_not_eq. apply Rmult_lt_0_compat; assumption.
Qed.

(** ** C37 *)
Lemma price_full c : valid c -> pa c = Ret (price_at c (c_yint c)).
Proof.
  intros V. pose proof V as (HB & HS & HZ & _). unfold pa. rewrite (enabled c V). unfold price_at, in_quote, raw_price, pa_raw.
  replace (c_B c + c_S c * (c_yint c / c_yint c)) with (c_S c + c_B c) by (field; lra).
  destruct (c_base c); [|reflexivity]. rewrite rdiv_ok by (apply Rgt_not_eq; apply pow_lt; lra). unfold Rdiv. rewrite Rmult_1_l. reflexivity.
Qed.
Lemma price_empty c : valid c -> pb c = Ret (price_at c 0).
Proof.
  intros V. pose proof V as (HB & HS & HZ & _). unfold pb. rewrite (enabled c V). unfold price_at, in_quote, raw_price, pb_raw.
  replace ((c_B c + c_S c * (0 / c_yint c)) ^ 2) with (c_B c * c_B c) by (field; lra).
  destruct (c_base c); [|reflexivity]. rewrite rdiv_ok by (apply Rgt_not_eq; apply Rmult_lt_0_compat; lra). unfold Rdiv. rewrite Rmult_1_l. reflexivity.
Qed.
Lemma rate_mono c a b : valid c -> 0 < c_S c -> a < b -> rate c a < rate c b.
Proof.
  intros (HB & _ & HZ & _) HS H. unfold rate. apply Rplus_lt_compat_l. apply Rmult_lt_compat_l; [assumption|]. apply Rmult_lt_compat_r; [apply Rinv_0_lt_compat; assumption|assumption].
Qed.
Lemma sq_lt a b : 0 < a -> a < b -> a ^ 2 < b ^ 2.
Proof. intros. cbn. rewrite !Rmult_1_r. apply Rmult_gt_0_lt_compat; lra. Qed.
Lemma raw_mono c a b : valid c -> 0 < c_S c -> 0 <= a -> a < b -> raw_price c a < raw_price c b.
Proof. intros V HS Ha Hab. rewrite !raw_rate. apply sq_lt; [apply rate_pos; assumption|]. apply rate_mono; assumption. Qed.
Lemma in_quote_moves c p q : 0 < p -> 0 < q -> (moves c (in_quote c q) (in_quote c p) <-> p < q).
Proof.
  intros Hp Hq. unfold moves, in_quote. destruct (c_base c); [|reflexivity]. split; intros H.
  - rewrite <- (Rinv_inv p), <- (Rinv_inv q). apply Rinv_lt_contravar; [apply Rmult_lt_0_compat; apply Rinv_0_lt_compat; assumption|assumption].
  - apply Rinv_lt_contravar; [apply Rmult_lt_0_compat; assumption|assumption].
Qed.
(** selling more moves the price further *)
Lemma price_moves c a b : valid c -> 0 < c_S c -> 0 <= a -> a < b -> moves c (price_at c b) (price_at c a).
Proof.
  intros V HS Ha Hab. unfold price_at. apply in_quote_moves; [apply raw_pos; [assumption|lra]|apply raw_pos; [assumption|lra]|]. apply raw_mono; assumption.
Qed.
Lemma marg_between c dy p re : valid c -> 0 < c_S c -> 0 < dy <= c_y c -> p_eff_f c dy false true re = Ret (Some p) ->
  moves c (price_at c (c_y c)) p /\ moves c p (price_at c (c_y c - dy)).
Proof.
  intros V HS H E. pose proof V as (HB & _ & HZ & HY). unfold p_eff_f in E. rewrite (enabled c V) in E.
  rewrite (rlt_false dy) in E by lra. rewrite andb_false_r in E. rewrite (rlt_false (c_y c - dy)) in E by lra. rewrite andb_false_r in E.
  rewrite req_false in E by lra. rewrite req_false in E by lra. rewrite (x_value c (c_y c - dy)) in E by (try assumption; lra). cbn [rbind] in E.
  rewrite (x_value c (c_y c)) in E by (try assumption; lra). cbn [rbind opt_sub] in E.
  assert (D : cost c (c_yint c) (c_yint c - (c_y c - dy)) - cost c (c_yint c) (c_yint c - c_y c) = cost c (c_y c) dy).
  { replace (c_yint c - (c_y c - dy)) with ((c_yint c - c_y c) + dy) by ring. rewrite (cost_split c (c_yint c) (c_yint c - c_y c) dy) by (try assumption; lra).
    replace (c_yint c - (c_yint c - c_y c)) with (c_y c) by ring. ring. }
  rewrite D in E. pose proof (rate_pos c (c_y c) V ltac:(lra)) as R1. pose proof (rate_pos c (c_y c - dy) V ltac:(lra)) as R2.
  assert (R12 : 0 < rate c (c_y c) * rate c (c_y c - dy)) by (apply Rmult_lt_0_compat; assumption).
  assert (C0 : cost c (c_y c) dy <> 0). { unfold cost. apply Rgt_not_eq. apply Rmult_lt_0_compat; [lra|]. apply Rinv_0_lt_compat. assumption. }
  rewrite rdiv_ok in E by assumption. cbn [rbind] in E.
  assert (D2 : dy / cost c (c_y c) dy = rate c (c_y c) * rate c (c_y c - dy)) by (unfold cost; field; lra).
  rewrite D2, quoted_ok in E by assumption. cbn [rbind] in E. injection E as <-.
  pose proof (rate_mono c (c_y c - dy) (c_y c) V HS ltac:(lra)) as M.
  unfold price_at. split; apply in_quote_moves; rewrite ?raw_rate; try assumption; try (apply pow_lt; assumption).
  - cbn. rewrite Rmult_1_r. apply Rmult_lt_compat_l; assumption.
  - cbn. rewrite Rmult_1_r. apply Rmult_lt_compat_r; assumption.
Qed.
Lemma eff_total c dy re : valid c -> 0 <= dy <= c_y c -> exists p, p_eff_f c dy false true re = Ret (Some p).
Proof.
  intros V H. pose proof V as (HB & _ & HZ & HY). unfold p_eff_f. rewrite (enabled c V).
  rewrite (rlt_false dy) by lra. rewrite andb_false_r. rewrite (rlt_false (c_y c - dy)) by lra. rewrite andb_false_r.
  rewrite (req_false (c_yint c)) by lra. destruct (Req_EM_T dy 0) as [->|N].
  - rewrite (req_true 0 0) by reflexivity. rewrite p_marg_full_value by (try assumption; lra). eauto.
  - rewrite req_false by assumption. rewrite (x_value c (c_y c - dy)) by (try assumption; lra). cbn [rbind].
    rewrite (x_value c (c_y c)) by (try assumption; lra). cbn [rbind opt_sub].
    assert (D : cost c (c_yint c) (c_yint c - (c_y c - dy)) - cost c (c_yint c) (c_yint c - c_y c) = cost c (c_y c) dy).
    { replace (c_yint c - (c_y c - dy)) with ((c_yint c - c_y c) + dy) by ring. rewrite (cost_split c (c_yint c) (c_yint c - c_y c) dy) by (try assumption; lra).
      replace (c_yint c - (c_yint c - c_y c)) with (c_y c) by ring. ring. }
    rewrite D. pose proof (rate_pos c (c_y c) V ltac:(lra)) as R1. pose proof (rate_pos c (c_y c - dy) V ltac:(lra)) as R2.
    assert (C0 : 0 < cost c (c_y c) dy). { unfold cost. apply Rmult_lt_0_compat; [lra|]. apply Rinv_0_lt_compat. apply Rmult_lt_0_compat; assumption. }
    rewrite rdiv_ok by lra. cbn [rbind]. rewrite quoted_ok; [cbn; eauto|]. apply Rmult_lt_0_compat; [lra|]. apply Rinv_0_lt_compat. assumption.
Qed.
