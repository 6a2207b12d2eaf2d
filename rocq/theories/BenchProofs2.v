(** Proofs for BenchProps.v (2): accuracy of quotes end to end. *)
From Coq Require Import Reals ZArith QArith Qreals Qround Psatz Lia Lra List Bool.
From Verif Require Import CurveModel CurveProofs TradeModel TradeSpec TradeProofs TradeProofs2 TradeProofs3 TradeProofs4 BenchModel BenchSpec BenchProofs.
Import ListNotations.
Local Open Scope R_scope.

Lemma fout_is : curve_out = fout. Proof. reflexivity. Qed.
Lemma gin_is : curve_in = gin. Proof. reflexivity. Qed.

Section order.
Variables (y : Z) (lo hi mg : Q) (o : order).
Hypotheses (Hy : (0 < y)%Z) (Hlo : (0 <= lo)%Q) (Hmg : (lo <= mg)%Q) (Hhi : (mg <= hi)%Q) (HE : encodeOrder (inject_Z y) lo hi mg = Some o).
Let l := sqrt (Q2R lo).
Let m := sqrt (Q2R mg).
Let Y := IZR y.
Let Zr := IZR (o_z o).
Let b := IZR (denoted (o_B o)) / T.
Let m' := b + IZR (denoted (o_A o)) / T * Y / Zr.

Lemma order_curve :
  o_y o = y /\ nonneg_order o /\ 1 <= Y /\ Y <= Zr /\ (0 <= b <= l /\ l <= m /\ b <= m') /\
  m' * T * Zr = IZR (o_y o * denoted (o_A o) + o_z o * denoted (o_B o)) /\
  exists mc, b <= mc <= m /\ m' <= mc * (1 + / Zr) /\ (1 - / IZR (2 ^ 47)) * mc <= m' /\
    (forall e, e <= 1 -> (lo == 0)%Q \/ resolved e lo -> (1 - e) * l <= b) /\
    (forall e, e <= 1 -> resolved e mg -> (1 - e) * m <= mc).
Proof.
  destruct (order_parts y lo hi mg o ltac:(lia) Hlo Hmg Hhi HE) as (L & H & M & EL & EH & EM & ((L0 & LM) & MH) & Oy & OB & OA & OA2 & OZ & YZ & NN).
  pose proof T_pos as TP. assert (IT : 0 < / T) by (apply Rinv_0_lt_compat; lra).
  assert (y1 : 1 <= Y) by (unfold Y; apply IZR_le; lia). assert (yz : Y <= Zr) by (unfold Y, Zr; apply IZR_le; lia).
  pose proof (rate_upper _ _ EL) as UL. pose proof (rate_upper _ _ EM) as UM. fold l in UL. fold m in UM.
  assert (DIV : forall a c, a <= c * T -> a / T <= c).
  { intros a c A. apply Rmult_le_reg_r with T; [lra|]. replace (a / T * T) with a by (field; lra). exact A. }
  assert (DIV2 : forall a c, c * T <= a -> c <= a / T).
  { intros a c A. apply Rmult_le_reg_r with T; [lra|]. replace (a / T * T) with a by (field; lra). exact A. }
  assert (B0 : 0 <= b) by (unfold b; rewrite OB; apply DIV2; rewrite Rmult_0_l; apply IZR_le; assumption).
  assert (BL : b <= l) by (unfold b; rewrite OB; apply DIV; exact UL).
  assert (lm : l <= m) by (unfold l, m; apply sqrt_le_1_alt, Qle_Rle; assumption).
  assert (IZ : 0 < / Zr) by (apply Rinv_0_lt_compat; lra).
  assert (A0 : 0 <= IZR (denoted (o_A o)) / T) by (apply DIV2; rewrite Rmult_0_l; apply IZR_le; lia).
  assert (BM' : b <= m').
  { assert (0 <= IZR (denoted (o_A o)) / T * Y / Zr) by (apply Rmult_le_pos; [apply Rmult_le_pos; lra|lra]). unfold m'. lra. }
  assert (EQ : m' * T * Zr = IZR (o_y o * denoted (o_A o) + o_z o * denoted (o_B o))).
  { rewrite plus_IZR, !mult_IZR, Oy. unfold m', b. fold Y Zr. field. split; lra. }
  split; [exact Oy|]. split; [exact NN|]. split; [exact y1|]. split; [exact yz|]. split; [tauto|]. split; [exact EQ|].
  exists (IZR M / T).
  pose proof (marg_upper y (o_z o) L H M _ Hy (conj L0 LM) MH OA OZ) as MU. pose proof (marg_lower y (o_z o) L H M _ Hy (conj L0 LM) MH OA OA2 YZ OZ) as ML.
  rewrite Oy, OB in EQ. replace (y * denoted (o_A o) + o_z o * L)%Z with (denoted (o_A o) * y + L * o_z o)%Z in EQ by ring.
  apply IZR_le in MU, ML. rewrite <- EQ in MU. rewrite (mult_IZR (2 ^ 47)), <- EQ in ML. rewrite plus_IZR, mult_IZR in MU. rewrite !mult_IZR, minus_IZR in ML. fold Zr in MU, ML.
  set (P := IZR (2 ^ 47)) in *. assert (PP : 0 < P) by (unfold P; apply IZR_lt; reflexivity).
  assert (TZ : 0 < T * Zr) by (apply Rmult_lt_0_compat; lra).
  split; [split|].
  - unfold b. rewrite OB. apply Rmult_le_compat_r; [lra|]. apply IZR_le. exact LM.
  - apply DIV. exact UM.
  - split; [|split; [|split]].
    + apply Rmult_le_reg_r with (T * Zr); [exact TZ|]. replace (IZR M / T * (1 + / Zr) * (T * Zr)) with (IZR M * Zr + IZR M) by (field; split; lra). lra.
    + apply Rmult_le_reg_r with (P * (T * Zr)); [apply Rmult_lt_0_compat; lra|]. replace ((1 - / P) * (IZR M / T) * (P * (T * Zr))) with ((P - 1) * (IZR M * Zr)) by (field; split; lra). lra.
    + intros e e1 [K|[K1 K2]].
      * unfold l. apply Qeq_eqR in K. rewrite K, RMicromega.Q2R_0, sqrt_0. lra.
      * unfold b. rewrite OB. apply DIV2. rewrite Rmult_assoc. apply rate_lower; [exact EL|split; assumption|exact K2].
    + intros e e1 [K1 K2]. apply DIV2. rewrite Rmult_assoc. apply rate_lower; [exact EM|split; assumption|exact K2].
Qed.

Section source.
Variable x : Z.
Hypothesis (Hx : (0 <= x)%Z) (HX : l * m * IZR x <= Y).
Let X := IZR x.
Let F := fout X Y l m.
Let E := Q2R (exact_out (fix48 (denoted (o_A o))) (fix48 (denoted (o_B o))) (inject_Z (o_y o)) (inject_Z (o_z o)) (inject_Z x)).

Lemma E_is : E = fout X Y b m'.
Proof.
  destruct order_curve as (Oy & (N1 & N2 & N3 & N4) & y1 & yz & _). unfold E. rewrite Oy.
  rewrite exact_out_R; [reflexivity| | | | |]; try assumption; try (apply denoted_nonneg; assumption). apply lt_IZR. fold Zr. lra.
Qed.
Lemma F_bound : 0 <= F <= Y.
Proof.
  destruct order_curve as (Oy & _ & y1 & yz & ((B0 & BL) & lm & BM') & _). assert (0 <= X) by (unfold X; apply IZR_le; assumption).
  split; [apply fout_pos; lra|]. apply fout_le_y; try lra. exact HX.
Qed.
Lemma bmx mm : b <= mm <= m -> b * mm * X <= Y.
Proof.
  destruct order_curve as (Oy & _ & y1 & yz & ((B0 & BL) & lm & BM') & _). assert (0 <= X) by (unfold X; apply IZR_le; assumption). intros [H1 H2].
  apply Rle_trans with (l * m * X); [|exact HX]. apply Rmult_le_compat_r; [assumption|]. apply Rmult_le_compat; lra.
Qed.
Lemma fmc mc : b <= mc <= m -> fout X Y b mc <= F.
Proof.
  destruct order_curve as (Oy & _ & y1 & yz & ((B0 & BL) & lm & BM') & _). assert (0 <= X) by (unfold X; apply IZR_le; assumption). intros [H1 H2].
  apply Rle_trans with (fout X Y b m).
  - apply fout_mono_m; try lra. pose proof (bmx m ltac:(lra)). lra.
  - apply fout_mono_l; lra.
Qed.
Lemma sq_bound z : 1 <= z -> (1 + / z) * (1 + / z) <= 1 + 3 * / z.
Proof.
  intros H. assert (0 < / z <= 1) by (split; [apply Rinv_0_lt_compat; lra|rewrite <- Rinv_1; apply Rinv_le_contravar; lra]).
  assert (/ z * / z <= 1 * / z) by (apply Rmult_le_compat_r; lra). lra.
Qed.
Lemma exact_upper : E <= F + 3.
Proof.
  pose proof F_bound as FB. rewrite E_is.
  destruct order_curve as (Oy & _ & y1 & yz & ((B0 & BL) & lm & BM') & EQ & mc & MC & U & _). assert (X0 : 0 <= X) by (unfold X; apply IZR_le; assumption).
  pose proof (fmc mc MC) as FM. destruct (Rle_lt_dec m' mc) as [K|K].
  - apply Rle_trans with (fout X Y b mc); [|lra]. apply fout_mono_m; try lra. pose proof (bmx mc MC). lra.
  - assert (IZ : 0 < / Zr) by (apply Rinv_0_lt_compat; lra). assert (mc0 : 0 < mc).
    { destruct (Rle_lt_or_eq_dec 0 mc ltac:(lra)) as [Q| Q]; [exact Q|]. exfalso. rewrite <- Q in U. lra. }
    apply Rle_trans with (fout X Y b mc * ((m' / mc) * (m' / mc))); [apply fout_up; lra|].
    assert (R1 : 0 <= m' / mc <= 1 + / Zr).
    { split; [apply Rmult_le_pos; [lra|left; apply Rinv_0_lt_compat; lra]|]. apply Rmult_le_reg_r with mc; [lra|]. replace (m' / mc * mc) with m' by (field; lra). lra. }
    assert (R2 : m' / mc * (m' / mc) <= 1 + 3 * / Zr).
    { apply Rle_trans with ((1 + / Zr) * (1 + / Zr)); [apply Rmult_le_compat; lra|apply sq_bound; lra]. }
    pose proof (fout_pos X Y b mc X0 ltac:(lra) ltac:(lra)) as P0.
    apply Rle_trans with (F * (1 + 3 * / Zr)).
    + apply Rmult_le_compat; try lra. apply Rmult_le_pos; lra.
    + assert (F * / Zr <= 1); [|lra]. apply Rmult_le_reg_r with Zr; [lra|]. rewrite Rmult_assoc, Rinv_l by lra. lra.
Qed.

Lemma source_upper : IZR (tradeBySourceAmount x o) <= F + 3.
Proof.
  destruct order_curve as (Oy & NN & _). pose proof (by_source_never_overpays o x NN Hx) as B. apply Qle_Rle in B. rewrite Q2R_inject in B. fold E in B.
  pose proof exact_upper. lra.
Qed.

Variable e : R.
Hypothesis (He : e <= / 8) (RL : (lo == 0)%Q \/ resolved e lo) (RM : resolved e mg).
Lemma e_facts : 0 < / IZR (2 ^ 47) <= e.
Proof. destruct RM as [R1 _]. split; [apply Rinv_0_lt_compat; apply IZR_lt; reflexivity|exact R1]. Qed.
Lemma root_lower : (1 - e) * (1 - e) * m <= m' /\ (1 - e) * (1 - e) * l <= b.
Proof.
  destruct order_curve as (Oy & _ & y1 & yz & ((B0 & BL) & lm & BM') & EQ & mc & MC & U & LO & KL & KM). pose proof e_facts as EF.
  pose proof (KL e ltac:(lra) RL) as A1. pose proof (KM e ltac:(lra) RM) as A2. split.
  - apply Rle_trans with ((1 - / IZR (2 ^ 47)) * mc); [|exact LO]. rewrite Rmult_assoc. apply Rmult_le_compat; try lra. apply Rmult_le_pos; lra.
  - apply Rle_trans with ((1 - e) * l); [|exact A1]. assert (0 <= (1 - e) * l) by (apply Rmult_le_pos; lra).
    assert (0 <= e * ((1 - e) * l)) by (apply Rmult_le_pos; lra). lra.
Qed.
Lemma pow4 : 1 - 4 * e <= (1 - e) * (1 - e) * ((1 - e) * (1 - e)).
Proof.
  pose proof e_facts as EF. assert (A : 1 - 2 * e <= (1 - e) * (1 - e)) by (assert (0 <= e * e) by (apply Rmult_le_pos; lra); lra).
  apply Rle_trans with ((1 - 2 * e) * (1 - 2 * e)); [assert (0 <= e * e) by (apply Rmult_le_pos; lra); lra|apply Rmult_le_compat; lra].
Qed.
Lemma m'xb : b * m' * X <= 2 * Y.
Proof.
  destruct order_curve as (Oy & _ & y1 & yz & ((B0 & BL) & lm & BM') & EQ & mc & MC & U & LO & KL & KM). assert (X0 : 0 <= X) by (unfold X; apply IZR_le; assumption).
  assert (/ Zr <= 1) by (rewrite <- Rinv_1; apply Rinv_le_contravar; lra).
  assert (m' <= 2 * mc) by (apply Rle_trans with (mc * (1 + / Zr)); [exact U|]; rewrite (Rmult_comm 2); apply Rmult_le_compat_l; lra).
  pose proof (bmx mc MC) as K. apply Rle_trans with (b * (2 * mc) * X); [|lra]. apply Rmult_le_compat_r; [lra|]. apply Rmult_le_compat_l; lra.
Qed.
Lemma exact_lower : (1 - 4 * e) * F <= E.
Proof.
  pose proof F_bound as FB. rewrite E_is.
  destruct order_curve as (Oy & _ & y1 & yz & ((B0 & BL) & lm & BM') & _). assert (X0 : 0 <= X) by (unfold X; apply IZR_le; assumption).
  destruct root_lower as [R1 R2]. pose proof pow4 as P4. pose proof e_facts as EF. set (s := (1 - e) * (1 - e)) in *.
  assert (S : 0 <= s <= 1) by (unfold s; split; [apply Rmult_le_pos; lra|apply Rle_trans with (1 * 1); [apply Rmult_le_compat; lra|lra]]).
  assert (sl : 0 <= s * l <= s * m) by (split; [apply Rmult_le_pos; lra|apply Rmult_le_compat_l; lra]).
  apply Rle_trans with (s * s * F); [apply Rmult_le_compat_r; lra|].
  apply Rle_trans with (fout X Y (s * l) (s * m)); [apply fout_scale; lra|].
  apply Rle_trans with (fout X Y (s * l) m').
  - apply fout_mono_m; try lra. pose proof m'xb. apply Rle_trans with (b * m' * X); [|assumption]. apply Rmult_le_compat_r; [lra|]. apply Rmult_le_compat_r; lra.
  - apply fout_mono_l; lra.
Qed.

Hypothesis (HR : source_in_range (denoted (o_A o)) (denoted (o_B o)) (o_y o) (o_z o) x) (H128 : Y + 3 < IZR (2 ^ 128)).
Lemma source_lower : (1 - 7 * e) * F - 4 < IZR (tradeBySourceAmount x o).
Proof.
  pose proof F_bound as FB. pose proof exact_upper as EU. pose proof exact_lower as EL. pose proof m'xb as MX. destruct root_lower as [R1 _]. pose proof e_facts as EF.
  pose proof E_is as EI. destruct order_curve as (Oy & NN & y1 & yz & ((B0 & BL) & lm & BM') & EQ & _). assert (X0 : 0 <= X) by (unfold X; apply IZR_le; assumption).
  assert (E2 : 0 <= E <= 2 * Y) by (rewrite EI; split; [apply fout_pos|apply fout_le_2y]; lra).
  pose proof (by_source_near o x NN Hx HR) as B. cbv zeta in B. set (ex := exact_out _ _ _ _ _) in *. assert (EE : E = Q2R ex) by reflexivity.
  assert (B1 : (ex < inject_Z (2 ^ 128))%Q) by (apply Rlt_Qlt; rewrite Q2R_inject, <- EE; lra). specialize (B B1). apply Qlt_Rlt in B.
  destruct RM as [_ RM2]. fold m T in RM2.
  assert (s2 : 1 / 2 <= (1 - e) * (1 - e) * (1 - 0)) by (rewrite Rminus_0_r, Rmult_1_r; apply Rle_trans with (7 / 8 * (7 / 8)); [lra|apply Rmult_le_compat; lra]).
  pose proof T_pos as TP.
  assert (m0 : 0 < m) by (destruct (Rle_lt_or_eq_dec 0 m ltac:(lra)) as [Q| Q]; [exact Q|]; exfalso; rewrite <- Q in RM2; lra).
  assert (M0 : 0 < m') by (apply Rlt_le_trans with ((1 - e) * (1 - e) * m); [apply Rmult_lt_0_compat; [lra|exact m0]|exact R1]).
  assert (D0 : 0 < m' * T * Zr) by (repeat apply Rmult_lt_0_compat; lra).
  rewrite !Q2R_plus, Q2R_div, Q2R_mult, !Q2R_inject, <- EQ, <- EE in B by (intros K; apply Qeq_eqR in K; rewrite Q2R_inject, <- EQ, RMicromega.Q2R_0 in K; lra).
  replace (Q2R 4) with 4 in B by (unfold Q2R; cbn; field).
  assert (S49 : 49 / 64 <= (1 - e) * (1 - e)) by (apply Rle_trans with (7 / 8 * (7 / 8)); [lra|apply Rmult_le_compat; lra]).
  assert (W : E * E / (m' * T * Zr) <= 3 * e * E).
  { apply Rmult_le_reg_r with (m' * T * Zr); [exact D0|]. replace (E * E / (m' * T * Zr) * (m' * T * Zr)) with (E * E) by (field; repeat split; lra).
    replace (3 * e * E * (m' * T * Zr)) with (E * (3 * (e * (m' * T)) * Zr)) by ring. apply Rmult_le_compat_l; [lra|].
    apply Rle_trans with (2 * Zr); [lra|]. apply Rmult_le_compat_r; [lra|].
    assert (49 / 64 * m <= m') by (apply Rle_trans with ((1 - e) * (1 - e) * m); [apply Rmult_le_compat_r; lra|exact R1]).
    assert (e * (49 / 64 * m * T) <= e * (m' * T)) by (apply Rmult_le_compat_l; [lra|apply Rmult_le_compat_r; lra]). lra. }
  assert (G : (1 - 7 * e) * F <= (1 - 3 * e) * E).
  { apply Rle_trans with ((1 - 3 * e) * ((1 - 4 * e) * F)); [|apply Rmult_le_compat_l; lra]. rewrite <- Rmult_assoc. apply Rmult_le_compat_r; [lra|].
    assert (0 <= e * e) by (apply Rmult_le_pos; lra). lra. }
  lra.
Qed.
End source.

Section target.
Variable x : Z.
Hypothesis (Hx : (0 < x <= y)%Z).
Let X := IZR x.
Let G := gin X Y l m.
Let E := Q2R (exact_in (fix48 (denoted (o_A o))) (fix48 (denoted (o_B o))) (inject_Z (o_y o)) (inject_Z (o_z o)) (inject_Z x)).
Hypothesis (B1 : (0 < denoted (o_B o))%Z).
Lemma b_pos : 0 < b.
Proof. unfold b. pose proof T_pos. apply Rmult_lt_0_compat; [apply IZR_lt; assumption|apply Rinv_0_lt_compat; lra]. Qed.
Lemma EG_is : E = gin X Y b m'.
Proof.
  destruct order_curve as (Oy & (N1 & N2 & N3 & N4) & y1 & yz & _). unfold E. rewrite Oy.
  rewrite exact_in_R; [reflexivity| | | |]; try assumption; try (apply denoted_nonneg; assumption). apply le_IZR. fold Y Zr. lra.
Qed.
Lemma X_bound : 0 < X <= Y.
Proof. unfold X, Y. split; [apply IZR_lt|apply IZR_le]; lia. Qed.
Lemma exact_in_lower : G * Y * Y <= E * (Y + 1) * (Y + 1).
Proof.
  rewrite EG_is. pose proof b_pos as B0. pose proof X_bound as XB.
  destruct order_curve as (Oy & _ & y1 & yz & ((_ & BL) & lm & BM') & EQ & mc & MC & U & _).
  assert (IZ : 0 < / Zr <= / Y) by (split; [apply Rinv_0_lt_compat|apply Rinv_le_contravar]; lra).
  assert (IY : 0 < / Y) by (apply Rinv_0_lt_compat; lra).
  assert (0 <= mc * (/ Y - / Zr)) by (apply Rmult_le_pos; lra). assert (0 <= (m - mc) * (1 + / Y)) by (apply Rmult_le_pos; lra).
  assert (0 < l * / Y) by (apply Rmult_lt_0_compat; lra).
  pose proof (gin_compare X Y l m b m' (1 + / Y) XB ltac:(lra) ltac:(lra) ltac:(lra) ltac:(lra) ltac:(lra)) as K. fold G in K.
  apply Rmult_le_compat_r with (r := Y * Y) in K; [|apply Rmult_le_pos; lra].
  replace ((1 + / Y) * (1 + / Y) * gin X Y b m' * (Y * Y)) with (gin X Y b m' * (Y + 1) * (Y + 1)) in K by (field; lra). lra.
Qed.
Lemma target_lower : tradeByTargetAmount x o <> (2 ^ 128 - 1)%Z -> G * Y * Y <= IZR (tradeByTargetAmount x o) * (Y + 1) * (Y + 1).
Proof.
  intros N. destruct order_curve as (Oy & NN & y1 & _). destruct (by_target_never_undercharges o x NN N) as [_ B]. apply Qle_Rle in B. rewrite Q2R_inject in B. fold E in B.
  apply Rle_trans with (E * (Y + 1) * (Y + 1)); [exact exact_in_lower|]. apply Rmult_le_compat_r; [lra|]. apply Rmult_le_compat_r; [lra|]. exact B.
Qed.
Variable e : R.
Hypothesis (He : e <= / 8) (RL : resolved e lo) (HR : target_in_range (denoted (o_A o)) (denoted (o_B o)) (o_y o) (o_z o)).
Lemma resolved_mg : resolved e mg.
Proof.
  destruct order_curve as (Oy & _ & y1 & yz & ((_ & BL) & lm & BM') & _). destruct RL as [R1 R2]. split; [exact R1|]. pose proof T_pos.
  assert (0 < / IZR (2 ^ 47)) by (apply Rinv_0_lt_compat; apply IZR_lt; reflexivity). fold l T in R2. fold m T.
  assert (e * (l * T) <= e * (m * T)) by (apply Rmult_le_compat_l; [lra|apply Rmult_le_compat_r; lra]). lra.
Qed.
Lemma exact_in_upper : E <= (1 + 8 * e) * G.
Proof.
  rewrite EG_is. pose proof b_pos as B0. pose proof X_bound as XB. destruct (root_lower e He (or_intror RL) resolved_mg) as [R1 R2].
  pose proof (pow4 e He resolved_mg) as P4. pose proof (e_facts e resolved_mg) as EF.
  destruct order_curve as (Oy & _ & y1 & yz & ((_ & BL) & lm & BM') & _).
  set (s := (1 - e) * (1 - e)) in *. assert (s0 : 0 < s) by (unfold s; apply Rmult_lt_0_compat; lra).
  assert (IS : 0 < / s) by (apply Rinv_0_lt_compat; lra).
  pose proof (gin_pos X Y b m' XB ltac:(lra)) as GP. pose proof (gin_pos X Y l m XB ltac:(lra)) as GP2. fold G in GP2.
  assert (DV : forall u v, s * u <= v -> u <= / s * v).
  { intros u v H. apply Rmult_le_reg_l with s; [exact s0|]. rewrite <- Rmult_assoc, Rinv_r by lra. lra. }
  pose proof (gin_compare X Y b m' l m (/ s) XB ltac:(lra) ltac:(lra) IS (DV _ _ R2) (DV _ _ R1)) as K. fold G in K.
  apply Rle_trans with (/ s * / s * G); [exact K|]. apply Rmult_le_compat_r; [lra|].
  apply Rmult_le_reg_r with (s * s); [apply Rmult_lt_0_compat; lra|]. replace (/ s * / s * (s * s)) with 1 by (field; lra).
  apply Rle_trans with ((1 + 8 * e) * (1 - 4 * e)); [|apply Rmult_le_compat_l; lra].
  assert (0 <= e * (/ 8 - e)) by (apply Rmult_le_pos; lra). lra.
Qed.
Lemma target_upper : 2 * G < IZR (2 ^ 128 - 4) -> IZR (tradeByTargetAmount x o) < (1 + 8 * e) * G + 4.
Proof.
  intros H. pose proof exact_in_upper as EU. pose proof X_bound as XB. pose proof (e_facts e resolved_mg) as EF.
  destruct order_curve as (Oy & NN & y1 & yz & ((_ & BL) & lm & BM') & _). pose proof b_pos as B0.
  pose proof (gin_pos X Y l m XB ltac:(lra)) as GP. fold G in GP.
  assert (E2 : E < IZR (2 ^ 128 - 4)) by (assert (0 <= (/ 8 - e) * G) by (apply Rmult_le_pos; lra); lra).
  assert (DL : deliverable (denoted (o_A o)) (denoted (o_B o)) (o_y o) (o_z o) x).
  { destruct NN as (N1 & N2 & N3 & N4). pose proof (denoted_nonneg _ N3) as A0. unfold deliverable. rewrite Oy.
    assert (0 < o_z o)%Z by (apply lt_IZR; fold Zr; lra). assert (0 < o_z o * denoted (o_B o))%Z by (apply Z.mul_pos_pos; assumption).
    destruct (Z.eq_dec (denoted (o_A o)) 0) as [Q| Q]; [left; split; assumption|right]. split; [lia|].
    assert (denoted (o_A o) * x <= denoted (o_A o) * y)%Z by (apply Z.mul_le_mono_nonneg_l; lia). lia. }
  pose proof (by_target_near o x NN ltac:(lia) HR DL) as B. cbv zeta in B. set (ex := exact_in _ _ _ _ _) in *. assert (EE : E = Q2R ex) by reflexivity.
  assert (B2 : (ex < inject_Z (2 ^ 128 - 4))%Q) by (apply Rlt_Qlt; rewrite Q2R_inject, <- EE; exact E2). specialize (B B2). apply Qlt_Rlt in B.
  rewrite Q2R_plus, Q2R_inject, <- EE in B. replace (Q2R 4) with 4 in B by (unfold Q2R; cbn; field). lra.
Qed.
End target.
End order.
