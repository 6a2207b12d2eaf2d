From Coq Require Import ZArith QArith Qabs Qround List Bool Lia Lqa Permutation Setoid.
From Verif Require Import TradeModel PairModel PairProofs SimModel MatchModel SimSpec SimProofs SimProofs7 SimProofs8 FastModel FastSpec.
Import ListNotations.
Local Open Scope Q_scope.

Lemma qmul_pos a b : 0 < a -> 0 < b -> 0 < a * b.
Proof. intros. apply Qmult_lt_0_compat; assumption. Qed.
Lemma qmul_nonneg a b : 0 <= a -> 0 <= b -> 0 <= a * b.
Proof. intros. apply Qmult_le_0_compat; assumption. Qed.
Lemma pos_nz a : 0 < a -> ~ a == 0.
Proof. intros H E. rewrite E in H. apply Qlt_irrefl in H. assumption. Qed.
Lemma qdiv_pos_pos a b : 0 < a -> 0 < b -> 0 < a / b.
Proof. intros Ha Hb. apply Qlt_shift_div_l; [assumption|]. rewrite Qmult_0_l. assumption. Qed.
Lemma qdiv_some a b : ~ b == 0 -> qdiv a b = Some (a / b).
Proof. intros H. unfold qdiv. destruct (Qeq_bool b 0) eqn:E; [apply Qeq_bool_iff in E; contradiction|reflexivity]. Qed.
Lemma qdiv_inv a b c : qdiv a b = Some c -> c = a / b /\ ~ b == 0.
Proof. unfold qdiv. destruct (Qeq_bool b 0) eqn:E; [discriminate|]. intros H. injection H as <-. split; [reflexivity|]. intros F. apply Qeq_bool_iff in F. congruence. Qed.
Lemma qmin_l a b : qmin a b <= a.
Proof. unfold qmin. destruct (Qlt_le_dec a b); [apply Qle_refl|assumption]. Qed.
Lemma qmin_r a b : qmin a b <= b.
Proof. unfold qmin. destruct (Qlt_le_dec a b); [apply Qlt_le_weak; assumption|apply Qle_refl]. Qed.
Lemma qmin_cases a b : (qmin a b = a /\ a < b) \/ (qmin a b = b /\ b <= a).
Proof. unfold qmin. destruct (Qlt_le_dec a b); auto. Qed.
Lemma pymin_qmin a b : pymin a b == qmin a b.
Proof.
  unfold pymin. destruct (Qlt_bool b a) eqn:E.
  - apply Qlt_bool_iff in E. destruct (qmin_cases a b) as [[-> H]|[-> H]]; lra.
  - apply Qlt_bool_false in E. destruct (qmin_cases a b) as [[-> H]|[-> H]]; lra.
Qed.

(** ** The curve *)
Lemma rate_at_pos o y : good_order o -> 0 <= y -> 0 < rate_at o y.
Proof.
  intros (_ & Hz & HA & HB) Hy. unfold rate_at. pose proof (qmul_nonneg _ _ HA Hy). pose proof (qmul_pos _ _ HB Hz). lra.
Qed.
Lemma src_value o dx : good_order o -> dx <= fo_y o -> exists v, amt_by_src false o dx = Some v /\ v == curve_cost o dx.
Proof.
  intros G H. unfold amt_by_src, mul_div_c, fast_one. cbv zeta.
  assert (T : 0 < rate_at o (fo_y o)) by (apply rate_at_pos; [assumption|apply G]).
  assert (U : 0 < rate_at o (fo_y o - dx)) by (apply rate_at_pos; [assumption|lra]).
  unfold rate_at in T, U. unfold curve_cost, rate_at.
  destruct o as [y z A B]; cbn [fo_y fo_z fo_A fo_B] in *.
  rewrite qdiv_some.
  2:{ apply pos_nz. apply qmul_pos; [|]; [setoid_replace (y * A + z * B) with (A * y + B * z) by ring; assumption|].
      setoid_replace (y * A + z * B - dx * A) with (A * (y - dx) + B * z) by ring. assumption. }
  eexists. split; [reflexivity|]. pose proof (pos_nz _ T). pose proof (pos_nz _ U). field.
  repeat split; try assumption; try (intros E; apply H0; rewrite <- E; ring); try (intros E; apply H1; rewrite <- E; ring).
Qed.
Lemma gain_den o dx : good_order o -> 0 <= dx -> 0 < fo_A o * dx * rate_at o (fo_y o) + fo_z o * fo_z o.
Proof.
  intros G H. pose proof G as (Hy & Hz & HA & HB). pose proof (rate_at_pos o (fo_y o) G Hy) as T.
  pose proof (qmul_nonneg _ _ (qmul_nonneg _ _ HA H) (Qlt_le_weak _ _ T)). pose proof (qmul_pos _ _ Hz Hz). lra.
Qed.
Lemma target_value o dx : good_order o -> 0 <= dx -> exists v, amt_by_target false o dx = Some v /\ v == curve_gain o dx.
Proof.
  intros G H. unfold amt_by_target, mul_div_f, fast_one. rewrite (qdiv_some _ 1) by discriminate. cbv beta iota delta [bind].
  pose proof (gain_den o dx G H) as D. unfold rate_at in D. unfold curve_gain, rate_at.
  destruct o as [y z A B]; cbn [fo_y fo_z fo_A fo_B] in *.
  rewrite qdiv_some.
  2:{ apply pos_nz. setoid_replace ((y * A + z * B) * dx / 1 * A + z * z * 1) with (A * dx * (A * y + B * z) + z * z) by field. assumption. }
  eexists. split; [reflexivity|]. pose proof (pos_nz _ D). field. intros E; apply H0; rewrite <- E; ring.
Qed.
Lemma cost_gain o dx : good_order o -> 0 <= dx -> curve_cost o (curve_gain o dx) == dx.
Proof.
  intros G H. pose proof (gain_den o dx G H) as D. assert (T : 0 < rate_at o (fo_y o)) by (apply rate_at_pos; [assumption|apply G]).
  assert (Z2 : 0 < fo_z o) by apply G.
  assert (E : rate_at o (fo_y o - curve_gain o dx) == rate_at o (fo_y o) * (fo_z o * fo_z o) / (fo_A o * dx * rate_at o (fo_y o) + fo_z o * fo_z o)).
  { unfold curve_gain. set (T0 := rate_at o (fo_y o)) in *. 
    assert (X : forall d, rate_at o (fo_y o - d) == T0 - fo_A o * d) by (intros d; unfold T0, rate_at; ring).
    rewrite X. field. apply pos_nz. assumption. }
  unfold curve_cost. rewrite E. unfold curve_gain. set (T0 := rate_at o (fo_y o)) in *. clearbody T0. field.
  repeat split; apply pos_nz; assumption.
Qed.
Lemma gain_cost o dy : good_order o -> 0 <= dy -> dy <= fo_y o -> curve_gain o (curve_cost o dy) == dy.
Proof.
  intros G H H'. assert (T : 0 < rate_at o (fo_y o)) by (apply rate_at_pos; [assumption|apply G]).
  assert (U : 0 < rate_at o (fo_y o - dy)) by (apply rate_at_pos; [assumption|lra]). assert (Z2 : 0 < fo_z o) by apply G.
  unfold curve_gain, curve_cost. assert (X : rate_at o (fo_y o - dy) == rate_at o (fo_y o) - fo_A o * dy) by (unfold rate_at; ring).
  rewrite X in U. rewrite X. set (T0 := rate_at o (fo_y o)) in *. clearbody T0.
  assert (D : fo_A o * (dy * (fo_z o * fo_z o) / (T0 * (T0 - fo_A o * dy))) * T0 + fo_z o * fo_z o == (fo_z o * fo_z o) * T0 / (T0 - fo_A o * dy)).
  { field. split; apply pos_nz; assumption. }
  rewrite D. field. repeat split; apply pos_nz; assumption.
Qed.
(** strict monotonicity *)
Lemma gain_lt o a b : good_order o -> 0 <= a -> a < b -> curve_gain o a < curve_gain o b.
Proof.
  intros G Ha Hab. pose proof (gain_den o a G Ha) as Da. pose proof (gain_den o b G ltac:(lra)) as Db.
  assert (T : 0 < rate_at o (fo_y o)) by (apply rate_at_pos; [assumption|apply G]). assert (Z2 : 0 < fo_z o) by apply G.
  unfold curve_gain. set (T0 := rate_at o (fo_y o)) in *. clearbody T0.
  apply Qlt_shift_div_l; [assumption|].
  setoid_replace (a * (T0 * T0) / (fo_A o * a * T0 + fo_z o * fo_z o) * (fo_A o * b * T0 + fo_z o * fo_z o))
    with ((a * (T0 * T0) * (fo_A o * b * T0 + fo_z o * fo_z o)) / (fo_A o * a * T0 + fo_z o * fo_z o)) by (field; apply pos_nz; assumption).
  apply Qlt_shift_div_r; [assumption|].
  assert (P : 0 < (b - a) * (T0 * T0 * (fo_z o * fo_z o))) by (repeat apply qmul_pos; lra).
  lra.
Qed.
Lemma gain_0 o : curve_gain o 0 == 0.
Proof. unfold curve_gain. rewrite Qmult_0_l. unfold Qdiv. apply Qmult_0_l. Qed.
Lemma cost_0 o : curve_cost o 0 == 0.
Proof. unfold curve_cost. rewrite Qmult_0_l. unfold Qdiv. apply Qmult_0_l. Qed.
Lemma gain_pos o a : good_order o -> 0 < a -> 0 < curve_gain o a.
Proof. intros G H. rewrite <- (gain_0 o). apply gain_lt; [assumption|apply Qle_refl|assumption]. Qed.
Lemma cost_pos o a : good_order o -> 0 < a -> a <= fo_y o -> 0 < curve_cost o a.
Proof.
  intros G H H'. unfold curve_cost. apply qdiv_pos_pos.
  - apply qmul_pos; [assumption|]. apply qmul_pos; apply G.
  - apply qmul_pos; apply rate_at_pos; try assumption; [apply G|lra].
Qed.
Lemma cost_nonneg o a : good_order o -> 0 <= a -> a <= fo_y o -> 0 <= curve_cost o a.
Proof.
  intros G H H'. destruct (Qlt_le_dec 0 a) as [L|L]; [apply Qlt_le_weak, cost_pos; assumption|].
  assert (Z0 : a == 0) by lra.
  assert (E : curve_cost o a == 0). { unfold curve_cost. rewrite Z0 at 1. rewrite Qmult_0_l. unfold Qdiv. apply Qmult_0_l. }
  rewrite E. apply Qle_refl.
Qed.
#[export] Instance curve_gain_proper o : Proper (Qeq ==> Qeq) (curve_gain o).
Proof. intros a b H. unfold curve_gain. rewrite H. reflexivity. Qed.
#[export] Instance curve_cost_proper o : Proper (Qeq ==> Qeq) (curve_cost o).
Proof. intros a b H. unfold curve_cost, rate_at. rewrite H. reflexivity. Qed.
#[export] Instance qmin_proper : Proper (Qeq ==> Qeq ==> Qeq) qmin.
Proof. intros a a' Ha b b' Hb. destruct (qmin_cases a b) as [[-> H]|[-> H]], (qmin_cases a' b') as [[-> H']|[-> H']]; lra. Qed.

(** ** Quotes *)
Lemma quote_target_value o x : good_order o -> 0 <= x -> exists r, quote_by_target false x o = Some r /\
  fr_input r == qmin x (fo_y o) /\ fr_output r == curve_cost o (fr_input r).
Proof.
  intros G H. unfold quote_by_target. cbv zeta. pose proof (pymin_qmin x (fo_y o)) as P.
  destruct (src_value o (pymin x (fo_y o)) G) as (v & -> & Ev); [rewrite P; apply qmin_r|].
  eexists. split; [reflexivity|]. cbn. auto.
Qed.
Lemma quote_source_value o x : good_order o -> 0 <= x -> exists r, quote_by_source false x o = Some r /\
  fr_input r == qmin x (curve_cost o (fo_y o)) /\ fr_output r == curve_gain o (fr_input r) /\ fr_output r <= fo_y o.
Proof.
  intros G H. unfold quote_by_source. destruct (target_value o x G H) as (t & -> & Et). cbv beta iota delta [bind].
  pose proof (pymin_qmin t (fo_y o)) as P. assert (Hy : 0 <= fo_y o) by apply G.
  destruct (src_value o (pymin t (fo_y o)) G) as (v & -> & Ev); [rewrite P; apply qmin_r|].
  eexists. split; [reflexivity|]. cbn [fr_input fr_output]. 
  destruct (qmin_cases t (fo_y o)) as [[E L]|[E L]]; rewrite E in P; rewrite P in Ev |- *.
  - rewrite Et in Ev. rewrite (cost_gain o x G H) in Ev. split; [|split].
    + rewrite Ev. destruct (qmin_cases x (curve_cost o (fo_y o))) as [[-> _]|[-> L']]; [reflexivity|]. exfalso.
      apply (Qlt_not_le _ _ L). rewrite Et. rewrite <- (gain_cost o (fo_y o) G Hy (Qle_refl _)).
      destruct (Qlt_le_dec (curve_cost o (fo_y o)) x) as [L2|L2]; [apply Qlt_le_weak, gain_lt; [assumption|apply cost_nonneg; [assumption|assumption|apply Qle_refl]|assumption]|].
      assert (X : x == curve_cost o (fo_y o)) by lra. rewrite X. apply Qle_refl.
    + rewrite Ev. rewrite Et. reflexivity.
    + apply Qlt_le_weak. assumption.
  - split; [|split].
    + rewrite Ev. destruct (qmin_cases x (curve_cost o (fo_y o))) as [[-> L']|[-> _]]; [|reflexivity]. exfalso.
      apply (Qlt_not_le _ _ (gain_lt o x _ G H L')). rewrite (gain_cost o _ G Hy (Qle_refl _)), <- Et. assumption.
    + rewrite Ev. rewrite (gain_cost o _ G Hy (Qle_refl _)). reflexivity.
    + apply Qle_refl.
Qed.
