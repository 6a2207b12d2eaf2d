(** Lemmas for FpDecProps.v: the quotes with rounding. *)
From Coq Require Import ZArith QArith Qreals Reals Lia Lra.
From Flocq Require Import Core.
From Verif Require Import CurveModel FpModel FpSpec FpProofs FpOrderModel FpOrderProofs FpOrderProofs2 FpDecModel FpDecProofs.
Local Open Scope R_scope.
Notation k := (1 + v).

Lemma dmin_R : forall a b, dmin a b = Rmin a b.
Proof. intros a b. unfold dmin, rlt. destruct (Rlt_dec b a); [rewrite Rmin_right by lra | rewrite Rmin_left by lra]; reflexivity. Qed.

Section Dec.
Variables B A y z K : R.
Hypothesis B0 : 0 < B.
Hypothesis A0 : 0 <= A.
Hypothesis y0 : 0 <= y.
Hypothesis yz : y <= z.
Hypothesis z0 : 0 < z.
Hypothesis HK : B + A <= K * B.
Hypothesis K200 : K <= bpow radix2 200.
Notation L := (lin B (B + A) z).
Notation o := (mkDorder y z A B).
Let w := bpow radix2 (-390).
Let s := bpow radix2 (-190).
Lemma w_pos : 0 < w. Proof. apply bpow_gt_0. Qed.
Lemma s_pos : 0 < s. Proof. apply bpow_gt_0. Qed.
Lemma s_small : s <= / 1024.
Proof. change (/ 1024) with (bpow radix2 (-10)). apply bpow_le. lia. Qed.
Lemma ws : w <= s. Proof. apply bpow_le. lia. Qed.
Lemma L_ge : forall t, 0 <= t -> 0 < L t.
Proof. intros. apply lin_pos; lra. Qed.
(** the price does not fall by more than a factor of K *)
Lemma L_ratio : forall d, 0 <= d <= y -> w * L y <= s * L (y - d).
Proof.
  intros d Hd. assert (L1 : L y <= (B + A) * z). { unfold lin. assert (0 <= A * (z - y)) by (apply Rmult_le_pos; lra). lra. }
  assert (L2 : B * z <= L (y - d)). { unfold lin. assert (0 <= A * (y - d)) by (apply Rmult_le_pos; lra). lra. }
  assert (Bz : 0 < B * z) by (apply Rmult_lt_0_compat; assumption).
  assert (L3 : L y <= bpow radix2 200 * (B * z)).
  { apply Rle_trans with (1 := L1). apply Rle_trans with (K * B * z); [apply Rmult_le_compat_r; lra |]. rewrite Rmult_assoc. apply Rmult_le_compat_r; lra. }
  apply Rle_trans with (w * (bpow radix2 200 * (B * z))); [apply Rmult_le_compat_l; [apply Rlt_le, w_pos | exact L3] |].
  rewrite <- Rmult_assoc. unfold w. rewrite <- bpow_plus. change (bpow radix2 (-390 + 200)) with s. apply Rmult_le_compat_l; [apply Rlt_le, s_pos | exact L2].
Qed.
Let T := dadd (dmul y A) (dmul z B).
Lemma T_ok : gn (k ^ 2) (L y) T.
Proof.
  replace (L y) with (y * A + z * B) by (unfold lin; ring). apply kn_add; apply (kn_mul 0 0); apply kn_0; lra.
Qed.
Lemma T3_ok : forall d, 0 <= d <= y -> gn ((1 + 4 * s) * k) (L (y - d)) (dsub T (dmul d A)).
Proof.
  intros d Hd. pose proof w_pos. pose proof s_pos. pose proof s_small. pose proof (L_ge (y - d) ltac:(lra)) as P. pose proof (L_ge y y0) as P'.
  assert (dA : d * A <= L y). { unfold lin. assert (0 <= (y - d) * A) by (apply Rmult_le_pos; lra). assert (0 < B * z) by (apply Rmult_lt_0_compat; assumption). lra. }
  assert (dA0 : 0 <= d * A) by (apply Rmult_le_pos; lra).
  assert (E1 : Rabs (T - L y) <= w * L y).
  { apply Rle_trans with (1 := abs_gn _ _ _ (kn1 2) T_ok). apply Rmult_le_compat_r; [lra |]. pose proof (kn_small 2 ltac:(lia)). unfold w. lra. }
  assert (E2 : Rabs (dmul d A - d * A) <= w * L y).
  { apply Rle_trans with ((k ^ 1 - 1) * (d * A)).
    - apply abs_gn; [apply kn1 |]. apply (kn_mul 0 0); apply kn_0; lra.
    - pose proof (kn_small 1 ltac:(lia)). pose proof (kn1 1). apply Rmult_le_compat; try lra; unfold w; lra. }
  assert (E : gn (1 + 4 * s) (L (y - d)) (T - dmul d A)).
  { replace (1 + 4 * s) with (1 + 2 * (2 * s)) by ring. apply gn_abs; [lra | lra |].
    pose proof (L_ratio d Hd) as R'. assert (X : L (y - d) = L y - d * A) by (unfold lin; ring).
    apply Rabs_le_inv in E1. apply Rabs_le_inv in E2. apply Rabs_le. split; lra. }
  apply gn_trans with (T - dmul d A); [lra | apply k1 | exact E |]. apply rd_gn. apply (gn_pos (1 + 4 * s) (L (y - d))); [lra | exact E].
Qed.
Lemma src_ok : forall d, 0 <= d <= y -> exists q, d_amt_by_src o d = Ret q /\ gn (1 + 8 * s) (cost B (B + A) z y d) q.
Proof.
  intros d Hd. pose proof w_pos. pose proof s_pos. pose proof s_small. pose proof ws. pose proof (L_ge (y - d) ltac:(lra)) as P. pose proof (L_ge y y0) as P'.
  unfold d_amt_by_src. cbn [d_y d_z d_A d_B]. fold T.
  assert (Z1 : gn (k ^ 1) z (dmul z 1)). { replace z with (z * 1) at 1 by ring. apply (kn_mul 0 0); apply kn_0; lra. }
  assert (N : gn (k ^ 4) (d * z * z) (dmul (dmul d (dmul z 1)) (dmul z 1))).
  { apply (kn_mul 2 1); [| exact Z1]. apply (kn_mul 0 1); [apply kn_0; lra | exact Z1]. }
  assert (q1 : 1 <= 1 + 4 * s) by lra. pose proof k1.
  assert (D : gn ((1 + 4 * s) * k ^ 4) (L y * L (y - d)) (dmul T (dsub T (dmul d A)))).
  { replace ((1 + 4 * s) * k ^ 4) with (k ^ 2 * ((1 + 4 * s) * k) * k) by (simpl; ring).
    assert (q2 : 1 <= (1 + 4 * s) * k) by nra. pose proof (kn1 2) as q3.
    assert (M : gn (k ^ 2 * ((1 + 4 * s) * k)) (L y * L (y - d)) (T * dsub T (dmul d A))) by (apply gn_mul; [exact q3 | exact q2 | apply T_ok | apply T3_ok, Hd]).
    assert (q4 : 1 <= k ^ 2 * ((1 + 4 * s) * k)) by nra.
    apply gn_trans with (T * dsub T (dmul d A)); [exact q4 | apply k1 | exact M |]. apply rd_gn. apply (gn_pos _ _ _ q4 M). }
  assert (PD : 0 < L y * L (y - d)) by (apply Rmult_lt_0_compat; assumption).
  assert (qD : 1 <= (1 + 4 * s) * k ^ 4) by (pose proof (kn1 4); nra).
  pose proof (gn_gt _ _ _ qD D PD) as PD'.
  unfold ddiv, req. destruct (Req_EM_T _ 0) as [E0 | E0]; [rewrite E0 in PD'; lra |]. eexists. split; [reflexivity |].
  assert (M : gn (k ^ 4 * ((1 + 4 * s) * k ^ 4)) (cost B (B + A) z y d) (dmul (dmul d (dmul z 1)) (dmul z 1) / dmul T (dsub T (dmul d A)))).
  { unfold cost, Rdiv. apply gn_mul; [apply kn1 | exact qD | exact N |]. apply gn_inv; [exact qD | exact PD | exact D]. }
  assert (qM : 1 <= k ^ 4 * ((1 + 4 * s) * k ^ 4)) by (pose proof (kn1 4); nra).
  apply gn_weaken with (k ^ 4 * ((1 + 4 * s) * k ^ 4) * k).
  - nra.
  - replace (k ^ 4 * ((1 + 4 * s) * k ^ 4) * k) with ((1 + 4 * s) * k ^ 9) by (simpl; ring).
    pose proof (kn_small 9 ltac:(lia)) as S9. fold w in S9. apply Rle_trans with ((1 + 4 * s) * (1 + s)); [apply Rmult_le_compat_l; lra | nra].
  - apply gn_trans with (dmul (dmul d (dmul z 1)) (dmul z 1) / dmul T (dsub T (dmul d A))); [exact qM | apply k1 | exact M |]. apply rd_gn. apply (gn_pos _ _ _ qM M).
Qed.
Lemma tgt_ok : forall x, 0 <= x -> exists q, d_amt_by_target o x = Ret q /\ gn (k ^ 14) (gain B (B + A) z y x) q.
Proof.
  intros x Hx. pose proof (L_ge y y0) as P. unfold d_amt_by_target. cbn [d_y d_z d_A d_B]. fold T.
  assert (N1 : gn (k ^ 3) (L y * x) (dmul T x)) by (apply (kn_mul 2 0); [apply T_ok | apply kn_0; lra]).
  destruct (kn_div 3 0 (L y * x) (dmul T x) 1 1 N1 (kn_0 1 ltac:(lra)) ltac:(lra)) as (t2 & E2 & G2). rewrite E2. cbn [rbind].
  replace (L y * x / 1) with (L y * x) in G2 by field.
  assert (N3 : gn (k ^ 6) (L y * x * A + z * z) (dadd (dmul t2 A) (dmul (dmul z z) 1))).
  { apply kn_add; [apply (kn_mul 4 0); [exact G2 | apply kn_0; lra] |]. apply kn_weaken with 2%nat; [lia |].
    replace (z * z) with (z * z * 1) by ring. apply (kn_mul 1 0); [apply (kn_mul 0 0); apply kn_0; lra | apply kn_0; lra]. }
  assert (N4 : gn (k ^ 7) (L y * (L y * x)) (dmul T t2)) by (apply (kn_mul 2 4); [apply T_ok | exact G2]).
  assert (PD : 0 < L y * x * A + z * z).
  { assert (0 <= L y * x * A) by (apply Rmult_le_pos; [apply Rmult_le_pos; lra | lra]). assert (0 < z * z) by (apply Rmult_lt_0_compat; assumption). lra. }
  destruct (kn_div 7 6 _ _ _ _ N4 N3 PD) as (q & E & G). exists q. split; [exact E |].
  replace (gain B (B + A) z y x) with (L y * (L y * x) / (L y * x * A + z * z)); [exact G |].
  unfold gain, Rdiv. f_equal; [ring |]. f_equal. ring.
Qed.
(** a slightly different amount costs slightly more or less *)
Lemma cost_shift : forall d d', 0 <= d <= y -> 0 <= d' <= y -> gn (k ^ 14) d d' -> gn (1 + 8 * s) (cost B (B + A) z y d) (cost B (B + A) z y d').
Proof.
  intros d d' Hd Hd' G. pose proof w_pos. pose proof s_pos. pose proof s_small. pose proof ws. pose proof (L_ge (y - d) ltac:(lra)) as P. pose proof (L_ge (y - d') ltac:(lra)) as P1. pose proof (L_ge y y0) as P'.
  pose proof (kn_small 14 ltac:(lia)) as S14. fold w in S14. pose proof (kn1 14) as q1.
  assert (E : Rabs (d' - d) <= w * d). { apply Rle_trans with (1 := abs_gn _ _ _ q1 G). apply Rmult_le_compat_r; lra. }
  assert (dA : d * A <= L y). { unfold lin. assert (0 <= (y - d) * A) by (apply Rmult_le_pos; lra). assert (0 < B * z) by (apply Rmult_lt_0_compat; assumption). lra. }
  assert (G' : gn (1 + 4 * s) (L (y - d)) (L (y - d'))).
  { replace (1 + 4 * s) with (1 + 2 * (2 * s)) by ring. apply gn_abs; [lra | lra |].
    replace (L (y - d') - L (y - d)) with (- (A * (d' - d))) by (unfold lin; ring). rewrite Rabs_Ropp, Rabs_mult, (Rabs_pos_eq A A0).
    apply Rle_trans with (A * (w * d)); [apply Rmult_le_compat_l; assumption |]. replace (A * (w * d)) with (w * (d * A)) by ring.
    apply Rle_trans with (w * L y); [apply Rmult_le_compat_l; lra |]. apply Rle_trans with (1 := L_ratio d Hd). apply Rmult_le_compat_r; lra. }
  assert (q2 : 1 <= 1 + 4 * s) by lra.
  apply gn_weaken with (k ^ 14 * (1 + 4 * s)); [nra | |].
  - apply Rle_trans with ((1 + s) * (1 + 4 * s)); [apply Rmult_le_compat_r; lra | nra].
  - unfold cost, Rdiv. apply gn_mul; [exact q1 | exact q2 | |].
    + replace (d * z * z) with (z * z * d) by ring. replace (d' * z * z) with (z * z * d') by ring. apply gn_scale; [apply Rmult_le_pos; lra | exact G].
    + apply gn_inv; [exact q2 | apply Rmult_lt_0_compat; assumption |]. apply gn_scale; [lra | exact G'].
Qed.
(** the quotes *)
Lemma d_quotes : forall x, 0 <= x ->
  (exists out, d_quote_by_target x o = Ret (Rmin x y, out) /\ gn (1 + 8 * s) (cost B (B + A) z y (Rmin x y)) out) /\
  (exists inp out, d_quote_by_source x o = Ret (inp, out) /\ gn (k ^ 14) (Rmin (gain B (B + A) z y x) y) out /\
     gn ((1 + 8 * s) * (1 + 8 * s)) (Rmin x (cost B (B + A) z y y)) inp).
Proof.
  intros x Hx. pose proof s_pos. assert (HM : forall t, 0 <= t -> 0 <= Rmin t y <= y) by (intros; split; [apply Rmin_glb; assumption | apply Rmin_r]). split.
  - unfold d_quote_by_target. cbn [d_y]. rewrite dmin_R. destruct (src_ok (Rmin x y) (HM x Hx)) as (q & E & G). rewrite E. exists q. split; [reflexivity | exact G].
  - unfold d_quote_by_source. destruct (tgt_ok x Hx) as (g & Eg & Gg). rewrite Eg. cbn [rbind d_y]. rewrite dmin_R.
    pose proof (gn_pos _ _ _ (kn1 14) Gg) as g0. destruct (src_ok (Rmin g y) (HM g g0)) as (q & E & G). rewrite E. exists q, (Rmin g y). split; [reflexivity |].
    assert (Go : gn (k ^ 14) (Rmin (gain B (B + A) z y x) y) (Rmin g y)) by (apply gn_min; [apply kn1 | exact Gg | apply gn_refl; [apply kn1 | exact y0]]).
    split; [exact Go |]. rewrite <- (cost_gain B (B + A) z y x B0 ltac:(lra) z0 y0 Hx).
    apply gn_trans with (cost B (B + A) z y (Rmin g y)); [lra | lra | | exact G].
    apply cost_shift; [| apply HM, g0 | exact Go]. apply HM. apply gain_pos; lra.
Qed.
End Dec.

(** ** an order made from two prices *)
Section Order.
Variables lo hi : Q.
Variables y z : R.
Hypothesis Lo : 0 < Q2R lo.
Hypothesis LH : Q2R lo <= Q2R hi.
Hypothesis Fl : fits 190 (Q2R lo).
Hypothesis Fh : fits 190 (Q2R hi).
Hypothesis y0 : 0 <= y.
Hypothesis yz : y <= z.
Hypothesis z0 : 0 < z.
Notation b := (sqrt (Q2R lo)).
Notation h := (sqrt (Q2R hi)).
Lemma fine : (1 + 8 * bpow radix2 (-190)) * (1 + 8 * bpow radix2 (-190)) <= c.
Proof.
  pose proof c_ge. assert (E : bpow radix2 (-190) <= u / 64) by (replace (u / 64) with (bpow radix2 (-59)) by (unfold u; replace (-59)%Z with (-53 + -6)%Z by reflexivity; rewrite bpow_plus; change (bpow radix2 (-6)) with (/ 64); reflexivity); apply bpow_le; lia).
  pose proof (bpow_gt_0 radix2 (-190)). pose proof u_small. pose proof u_pos. nra.
Qed.
Lemma dec_quotes : exists B S, order_params hi lo = Ret (lo, hi, B, S) /\ let o := mkDorder y z (val S) (val B) in
  forall x, 0 <= x ->
  (exists out, d_quote_by_target x o = Ret (Rmin x y, out) /\ rn 7 (cost b h z y (Rmin x y)) out) /\
  (exists inp out, d_quote_by_source x o = Ret (inp, out) /\ rn 7 (Rmin (gain b h z y x) y) out /\ rn 7 (Rmin x (cost b h z y y)) inp).
Proof.
  destruct (params_ok lo hi ltac:(lra) LH Fl Fh) as (B & S & E & FB & FS & PS & RB & RH).
  assert (b0 : 0 < b) by (apply sqrt_lt_R0; exact Lo). assert (bh : b <= h) by (apply sqrt_le_1_alt; exact LH).
  pose proof (rn_gt _ _ _ RB b0) as B0. apply (rn_weaken 2 3) in RB; [| lia].
  exists B, S. split; [exact E |]. intros o x Hx.
  assert (HK : val B + val S <= bpow radix2 200 * val B).
  { destruct RB as (_ & RB1 & _). destruct RH as (_ & _ & RH2). pose proof (cn_2 3 (few_small 3 ltac:(lia))) as C2. pose proof (cn_1 3) as C1.
    assert (Bb : bpow radix2 (-95) <= b).
    { apply Rle_trans with (sqrt (bpow radix2 (-95) * bpow radix2 (-95))); [rewrite sqrt_square by apply bpow_ge_0; lra |]. apply sqrt_le_1_alt. rewrite <- bpow_plus. destruct Fl as [F | [F _]]; [lra | exact F]. }
    assert (Hh : h <= bpow radix2 95).
    { apply Rle_trans with (sqrt (bpow radix2 95 * bpow radix2 95)); [| rewrite sqrt_square by apply bpow_ge_0; lra]. apply sqrt_le_1_alt. rewrite <- bpow_plus. destruct Fh as [F | [_ F]]; [lra | exact F]. }
    pose proof (bpow_gt_0 radix2 (-95)) as p1. pose proof (bpow_gt_0 radix2 95) as p2.
    apply Rle_trans with (bpow radix2 95 * 2); [apply Rle_trans with (1 := RH2); apply Rmult_le_compat; lra |].
    apply Rle_trans with (bpow radix2 200 * (bpow radix2 (-95) / 2)).
    - unfold Rdiv. rewrite <- Rmult_assoc, <- bpow_plus. change (/ 2) with (bpow radix2 (-1)). rewrite <- bpow_plus. change 2 with (bpow radix2 1). rewrite <- bpow_plus. apply bpow_le. lia.
    - apply Rmult_le_compat_l; [apply bpow_ge_0 |]. assert (b <= val B * 2) by (apply Rle_trans with (1 := RB1); apply Rmult_le_compat_l; lra). lra. }
  destruct (d_quotes (val B) (val S) y z (bpow radix2 200) B0 PS y0 yz z0 HK (Rle_refl _) x Hx) as ((out & E1 & G1) & (inp & out' & E2 & G2 & G3)).
  pose proof fine as FI. set (e := 1 + 8 * bpow radix2 (-190)) in *. assert (e1 : 1 <= e) by (unfold e; pose proof (bpow_gt_0 radix2 (-190)); lra).
  assert (ec : e <= c) by nra.
  assert (kc : (1 + v) ^ 14 <= c).
  { apply Rle_trans with (1 := kn_small 14 ltac:(lia)). apply Rle_trans with e; [| exact ec]. unfold e.
    assert (bpow radix2 (-390) <= bpow radix2 (-190)) by (apply bpow_le; lia). pose proof (bpow_gt_0 radix2 (-190)). lra. }
  assert (W : forall f x1 x2 x3, 1 <= f -> f <= c -> rn 6 x1 x2 -> gn f x2 x3 -> rn 7 x1 x3).
  { intros f x1 x2 x3 f1 fc R1 G. apply (rn_trans 6 1 _ x2); [exact R1 |]. apply gn_rn. rewrite pow_1. apply gn_weaken with f; assumption. }
  assert (HM : 0 <= Rmin x y <= y) by (split; [apply Rmin_glb; assumption | apply Rmin_r]).
  split.
  - exists out. split; [exact E1 |]. apply (W e _ _ _ e1 ec) with (2 := G1). apply (cost_rn 3); try assumption.
  - exists inp, out'. split; [exact E2 |]. split.
    + apply (W ((1 + v) ^ 14) _ _ _ (kn1 14) kc) with (2 := G2). apply (gain_rn 3); try assumption. lra.
    + apply (W (e * e)) with (4 := G3); [nra | exact FI |]. apply rn_min; [apply rn_refl; assumption |]. apply (cost_rn 3); try assumption. lra.
Qed.
End Order.
