(** Lemmas for FpRateProps.v. *)
From Coq Require Import ZArith QArith Qreals Qround Reals Lia Lra.
From Flocq Require Import Core Relative.
From Verif Require Import TradeModel FpProofs FpSdkProofs FpDecModel FpDecProofs FpRateModel.
Local Open Scope R_scope.

(** ** integers *)
Lemma four_divides : forall n a P, (a * a = 4 ^ Z.of_nat n * P)%Z -> exists b, (a = 2 ^ Z.of_nat n * b)%Z.
Proof.
  induction n as [| n IH]; intros a P H.
  - exists a. change (Z.of_nat 0) with 0%Z. rewrite Z.pow_0_r. lia.
  - rewrite Nat2Z.inj_succ, !Z.pow_succ_r in * by lia.
    assert (E : Z.even a = true).
    { destruct (Z.even a) eqn:O; [reflexivity |]. assert (K : Z.even (a * a) = false) by (rewrite Z.even_mul, O; reflexivity).
      rewrite H, Z.even_mul, Z.even_mul in K. discriminate. }
    apply Z.even_spec in E. destruct E as (t & ->).
    destruct (IH t P) as (b & ->); [apply Z.mul_reg_l with 4%Z; lia |]. exists b. ring.
Qed.

(** ** the rounded product *)
Definition pt (d : nat) : R := IZR (10 ^ Z.of_nat d).
Lemma pt_pos : forall d, 0 < pt d.
Proof. intros. unfold pt. apply IZR_lt. apply Z.pow_pos_nonneg; lia. Qed.
Lemma one_R : IZR ONE = bpow radix2 48.
Proof. change ONE with (radix2 ^ 48)%Z. rewrite IZR_Zpower by lia. reflexivity. Qed.
Lemma ONE_pos : 0 < IZR ONE. Proof. apply IZR_lt. reflexivity. Qed.
Definition e99 : R := / IZR (10 ^ 99).
Lemma e99_pos : 0 < e99. Proof. apply Rinv_0_lt_compat, IZR_lt. reflexivity. Qed.
Lemma e99_small : e99 <= / 1000000. Proof. unfold e99. apply Rinv_le_contravar; [lra |]. apply IZR_le. vm_compute. discriminate. Qed.
Lemma rd100 : forall ch x, 0 <= x -> gn (1 + e99) x (round ten (FLX_exp 100) (Znearest ch) x).
Proof.
  intros ch x Hx. pose proof (relative_error_N_FLX ten 100 (eq_refl _) ch x) as H. rewrite (Rabs_pos_eq x Hx) in H.
  assert (E : bpow ten (-100 + 1) = e99).
  { change (-100 + 1)%Z with (- (99))%Z. rewrite bpow_opp, <- IZR_Zpower by lia. reflexivity. }
  change (- (100) + 1)%Z with (-100 + 1)%Z in H. rewrite E in H. pose proof e99_pos. pose proof e99_small. replace (1 + e99) with (1 + 2 * (/ 2 * e99)) by field. apply gn_abs; [lra | exact Hx | exact H].
Qed.
Definition ff : R := (1 + e99) * (1 + e99).
Lemma product : forall v, 0 <= v -> gn ff (sqrt v * IZR ONE) (rd_mul (rd_sqrt v) (IZR ONE)).
Proof.
  intros v Hv. pose proof e99_pos. pose proof ONE_pos. assert (q : 1 <= 1 + e99) by lra.
  assert (G : gn (1 + e99) (sqrt v * IZR ONE) (rd_sqrt v * IZR ONE)).
  { rewrite !(Rmult_comm _ (IZR ONE)). apply gn_scale; [lra |]. apply rd100, sqrt_pos. }
  apply gn_trans with (rd_sqrt v * IZR ONE); [exact q | exact q | exact G |]. apply rd100. apply (gn_pos _ _ _ q G).
Qed.
Lemma ff_1 : 1 <= ff. Proof. unfold ff. pose proof e99_pos. nra. Qed.
Lemma ff_sq : forall p, (0 <= p < 10 ^ 69)%Z -> IZR (p * (ONE * ONE)) * (ff * ff - 1) < 1.
Proof.
  intros p (p0 & p1). pose proof e99_pos. pose proof e99_small.
  assert (F : ff * ff - 1 <= 5 * e99).
  { unfold ff. set (e := e99) in *. assert (e * e <= / 1000000 * e) by (apply Rmult_le_compat_r; lra). assert (0 <= e * e) by (apply Rmult_le_pos; lra).
    assert (e * e * e <= / 1000000 * (e * e)) by (rewrite (Rmult_assoc e e e); apply Rmult_le_compat_r; lra). assert (e * e * (e * e) <= / 1000000 * (e * e)) by (apply Rmult_le_compat_r; [lra |]; lra).
    replace ((1 + e) * (1 + e) * ((1 + e) * (1 + e)) - 1) with (4 * e + 6 * (e * e) + 4 * (e * e * e) + e * e * (e * e)) by ring. lra. }
  assert (B : IZR (p * (ONE * ONE)) <= IZR (10 ^ 69 * (ONE * ONE))) by (apply IZR_le; apply Z.mul_le_mono_nonneg_r; [discriminate | lia]).
  assert (P0 : 0 <= IZR (p * (ONE * ONE))) by (apply IZR_le; apply Z.mul_nonneg_nonneg; [lia | discriminate]).
  apply Rle_lt_trans with (IZR (10 ^ 69 * (ONE * ONE)) * (5 * e99)).
  - pose proof ff_1. assert (1 <= ff * ff) by nra. apply Rmult_le_compat; try assumption; lra.
  - unfold e99. apply Rmult_lt_reg_r with (IZR (10 ^ 99)); [apply IZR_lt; reflexivity |].
    replace (IZR (10 ^ 69 * (ONE * ONE)) * (5 * / IZR (10 ^ 99)) * IZR (10 ^ 99)) with (IZR (10 ^ 69 * (ONE * ONE)) * 5) by (field; apply IZR_neq; discriminate).
    rewrite <- mult_IZR, Rmult_1_l. apply IZR_lt. vm_compute. reflexivity.
Qed.
(** numbers with few digits are not rounded *)
Lemma few_digits : forall ch t j, (0 <= t < 10 ^ 100)%Z -> round ten (FLX_exp 100) (Znearest ch) (IZR t * bpow ten j) = IZR t * bpow ten j.
Proof.
  intros ch t j (H0 & H1). apply round_generic; [auto with typeclass_instances |].
  apply (generic_format_FLX ten 100). exists (Float ten t j); [reflexivity |]. cbn [Fnum]. change (Z.pow ten 100) with (10 ^ 100)%Z. rewrite Z.abs_eq by exact H0. exact H1.
Qed.

Section Rate.
Variable p : Z.
Variable d : nat.
Hypothesis Hp : (0 <= p < 10 ^ 69)%Z.
Let v := IZR p / pt d.
Let X := sqrt v * IZR ONE.
Let X' := rd_mul (rd_sqrt v) (IZR ONE).
Lemma v_pos' : 0 <= v.
Proof. unfold v, Rdiv. apply Rmult_le_pos; [apply IZR_le; lia | apply Rlt_le, Rinv_0_lt_compat, pt_pos]. Qed.
Lemma X_pos : 0 <= X. Proof. apply Rmult_le_pos; [apply sqrt_pos | apply Rlt_le, ONE_pos]. Qed.
Lemma X_sq : X * X * pt d = IZR (p * (ONE * ONE)).
Proof.
  unfold X. replace (sqrt v * IZR ONE * (sqrt v * IZR ONE) * pt d) with (sqrt v * sqrt v * (IZR ONE * IZR ONE) * pt d) by ring.
  rewrite sqrt_sqrt by apply v_pos'. unfold v. rewrite !mult_IZR. pose proof (pt_pos d). field. lra.
Qed.
(** if the product is an integer it is computed exactly *)
Lemma exact_case : forall n, X = IZR n -> X' = X.
Proof.
  intros n E. pose proof X_sq as S. rewrite E in S. unfold pt in S. rewrite <- !mult_IZR in S. apply eq_IZR in S.
  assert (n0 : (0 <= n)%Z) by (apply le_IZR; rewrite <- E; apply X_pos).
  (* one more digit if d is odd *)
  set (j := (Nat.div2 (d + 1))%nat). set (i := (2 * j - d)%nat).
  assert (Dj : (2 * j = d + i)%nat) by (unfold i, j; pose proof (Nat.div2_odd (d + 1)); destruct (Nat.odd (d + 1)); simpl in *; lia).
  assert (i1 : (i <= 1)%nat) by (unfold i, j in *; pose proof (Nat.div2_odd (d + 1)); destruct (Nat.odd (d + 1)); simpl in *; lia).
  set (ten_j := (10 ^ Z.of_nat j)%Z). assert (tj : (0 < ten_j)%Z) by (apply Z.pow_pos_nonneg; lia).
  assert (TT : (ten_j * ten_j = 10 ^ Z.of_nat d * 10 ^ Z.of_nat i)%Z) by (unfold ten_j; rewrite <- !Z.pow_add_r by lia; f_equal; lia).
  destruct (four_divides 48 (n * ten_j) (p * 10 ^ Z.of_nat i)) as (t & Ht).
  { replace (n * ten_j * (n * ten_j))%Z with (n * n * (ten_j * ten_j))%Z by ring. rewrite TT.
    replace (n * n * (10 ^ Z.of_nat d * 10 ^ Z.of_nat i))%Z with (n * n * 10 ^ Z.of_nat d * 10 ^ Z.of_nat i)%Z by ring. rewrite S.
    change (4 ^ Z.of_nat 48)%Z with (ONE * ONE)%Z. ring. }
  change (2 ^ Z.of_nat 48)%Z with ONE in Ht.
  assert (tt : (t * t = p * 10 ^ Z.of_nat i)%Z).
  { apply Z.mul_reg_l with (ONE * ONE)%Z; [discriminate |]. replace (ONE * ONE * (t * t))%Z with (ONE * t * (ONE * t))%Z by ring. rewrite <- Ht.
    replace (n * ten_j * (n * ten_j))%Z with (n * n * (ten_j * ten_j))%Z by ring. rewrite TT.
    replace (n * n * (10 ^ Z.of_nat d * 10 ^ Z.of_nat i))%Z with (n * n * 10 ^ Z.of_nat d * 10 ^ Z.of_nat i)%Z by ring. rewrite S. ring. }
  assert (t0 : (0 <= t)%Z).
  { assert (0 <= ONE * t)%Z by (rewrite <- Ht; apply Z.mul_nonneg_nonneg; lia). change ONE with 281474976710656%Z in *. lia. }
  assert (i10 : (10 ^ Z.of_nat i <= 10)%Z) by (destruct i as [| [|]]; [discriminate | discriminate | lia]).
  assert (T70 : (t * t < 10 ^ 70)%Z).
  { rewrite tt. change (10 ^ 70)%Z with (10 ^ 69 * 10)%Z. apply Z.le_lt_trans with (p * 10)%Z; [apply Z.mul_le_mono_nonneg_l; lia | lia]. }
  assert (t100 : (t < 10 ^ 100)%Z).
  { destruct (Z.lt_ge_cases t (10 ^ 100)) as [K | K]; [exact K |]. exfalso. assert (10 ^ 100 * 10 ^ 100 <= t * t)%Z by (apply Z.mul_le_mono_nonneg; lia).
    assert (10 ^ 70 < 10 ^ 100 * 10 ^ 100)%Z by (vm_compute; reflexivity). lia. }
  assert (SV : sqrt v = IZR t * bpow ten (- Z.of_nat j)).
  { apply Rmult_eq_reg_r with (IZR ONE); [| apply Rgt_not_eq, ONE_pos]. fold X. rewrite E.
    rewrite bpow_opp, <- IZR_Zpower by lia. change (Z.pow ten (Z.of_nat j)) with ten_j.
    apply Rmult_eq_reg_r with (IZR ten_j); [| apply IZR_neq; lia].
    replace (IZR t * / IZR ten_j * IZR ONE * IZR ten_j) with (IZR ONE * IZR t) by (field; apply IZR_neq; lia). rewrite <- !mult_IZR, Ht. reflexivity. }
  assert (R1 : rd_sqrt v = sqrt v) by (unfold rd_sqrt; rewrite SV; apply few_digits; lia).
  unfold X', rd_mul. rewrite R1. fold X. rewrite E. replace (IZR n) with (IZR n * bpow ten 0) by (simpl; ring). rewrite few_digits; [simpl; ring |].
  split; [exact n0 |]. destruct (Z.lt_ge_cases n (10 ^ 100)) as [K | K]; [exact K |]. exfalso.
  assert (10 ^ 100 * 10 ^ 100 <= n * n)%Z by (apply Z.mul_le_mono_nonneg; lia).
  assert (U : (p * (ONE * ONE) < 10 ^ 100 * 10 ^ 100)%Z) by (apply Z.lt_trans with (10 ^ 69 * (ONE * ONE))%Z; [apply Z.mul_lt_mono_pos_r; [reflexivity | lia] | vm_compute; reflexivity]).
  assert (1 <= 10 ^ Z.of_nat d)%Z by (assert (0 < 10 ^ Z.of_nat d)%Z by (apply Z.pow_pos_nonneg; lia); lia). nia.
Qed.
Lemma same_floor : Zfloor X' = Zfloor X.
Proof.
  pose proof (product v v_pos') as (_ & G1 & G2). fold X X' in G1, G2. pose proof X_pos as X0. pose proof ff_1 as F1. pose proof (ff_sq p Hp) as FS.
  pose proof (pt_pos d) as PD. pose proof X_sq as S. assert (X0' : 0 <= X') by nra.
  pose proof (Zfloor_lb X) as L. pose proof (Zfloor_ub X) as U. pose proof (Zfloor_lub 0 X X0) as N0. set (n := Zfloor X) in *.
  assert (NR : 0 <= IZR n) by (apply IZR_le; exact N0).
  assert (IR : forall m, IZR (m * m * 10 ^ Z.of_nat d) = IZR m * IZR m * pt d) by (intros; unfold pt; rewrite !mult_IZR; ring).
  apply Zfloor_imp. split.
  - destruct (Rle_lt_dec (IZR n) X') as [K | K]; [exact K |]. exfalso.
    destruct (Req_dec X (IZR n)) as [E | E]; [rewrite (exact_case n E), E in K; lra |].
    assert (I1 : (n * n * 10 ^ Z.of_nat d < p * (ONE * ONE))%Z).
    { apply lt_IZR. rewrite IR, <- S. apply Rmult_lt_compat_r; [exact PD |]. apply Rmult_le_0_lt_compat; lra. }
    assert (I2 : IZR (p * (ONE * ONE)) < IZR (n * n * 10 ^ Z.of_nat d) + 1).
    { assert (X <= IZR n * ff) by (apply Rle_trans with (1 := G1); apply Rmult_le_compat_r; lra).
      assert (Q : IZR (p * (ONE * ONE)) <= IZR (n * n * 10 ^ Z.of_nat d) * (ff * ff)).
      { rewrite IR, <- S. replace (IZR n * IZR n * pt d * (ff * ff)) with (IZR n * ff * (IZR n * ff) * pt d) by ring. apply Rmult_le_compat_r; [lra |]. apply Rmult_le_compat; assumption. }
      apply IZR_lt in I1. assert (0 <= ff * ff - 1) by nra.
      assert (IZR (n * n * 10 ^ Z.of_nat d) * (ff * ff - 1) <= IZR (p * (ONE * ONE)) * (ff * ff - 1)) by (apply Rmult_le_compat_r; lra). lra. }
    rewrite <- plus_IZR in I2. apply lt_IZR in I2. lia.
  - destruct (Rlt_le_dec X' (IZR (n + 1))) as [K | K]; [exact K |]. exfalso.
    assert (NS : 0 <= IZR (n + 1)) by (apply IZR_le; lia). rewrite <- plus_IZR in U.
    assert (I1 : (p * (ONE * ONE) < (n + 1) * (n + 1) * 10 ^ Z.of_nat d)%Z).
    { apply lt_IZR. rewrite IR, <- S. apply Rmult_lt_compat_r; [exact PD |]. apply Rmult_le_0_lt_compat; lra. }
    assert (I2 : IZR ((n + 1) * (n + 1) * 10 ^ Z.of_nat d) < IZR (p * (ONE * ONE)) + 1).
    { assert (IZR (n + 1) <= X * ff) by lra.
      assert (Q : IZR ((n + 1) * (n + 1) * 10 ^ Z.of_nat d) <= IZR (p * (ONE * ONE)) * (ff * ff)).
      { rewrite IR, <- S. replace (X * X * pt d * (ff * ff)) with (X * ff * (X * ff) * pt d) by ring. apply Rmult_le_compat_r; [lra |]. apply Rmult_le_compat; assumption. }
      lra. }
    rewrite <- plus_IZR in I2. apply lt_IZR in I2. lia.
Qed.
Lemma digits_R : Q2R (digits p d) = v.
Proof.
  unfold digits. assert (P : (0 < 10 ^ Z.of_nat d)%Z) by (apply Z.pow_pos_nonneg; lia).
  assert (I : forall m, Q2R (inject_Z m) = IZR m) by (intros; unfold Q2R, inject_Z; cbn [Qnum Qden]; field).
  rewrite Q2R_div; [rewrite !I; reflexivity |]. intro K. apply Qeq_eqR in K. rewrite I, RMicromega.Q2R_0 in K. apply eq_IZR in K. lia.
Qed.
Lemma rate_exact : d_encodeRate (Q2R (digits p d)) = encodeRate (digits p d).
Proof.
  unfold d_encodeRate, encodeRate. rewrite digits_R. destruct (Rlt_dec v 0) as [K | _]; [pose proof v_pos'; lra |].
  assert (Q : Qle_bool 0 (digits p d) = true) by (apply Qle_bool_iff, Rle_Qle; rewrite digits_R, RMicromega.Q2R_0; apply v_pos').
  rewrite Q. rewrite Qfloor_Zfloor, Q2R_mult, digits_R.
  assert (I : Q2R (inject_Z (ONE * ONE)) = IZR ONE * IZR ONE) by (rewrite <- mult_IZR; unfold Q2R, inject_Z; cbn [Qnum Qden]; field). rewrite I.
  replace (v * (IZR ONE * IZR ONE)) with (X * X) by (unfold X; rewrite <- (sqrt_sqrt v v_pos') at 3; ring).
  rewrite (sqrt_floor X X_pos). fold X'.
  assert (T : Ztrunc X' = Zfloor X').
  { apply Ztrunc_floor. pose proof (product v v_pos') as G. fold X X' in G. apply (gn_pos _ _ _ ff_1 G). }
  rewrite T, same_floor. reflexivity.
Qed.
End Rate.
Lemma rate_negative : forall x, x < 0 -> d_encodeRate x = None.
Proof. intros x H. unfold d_encodeRate. destruct (Rlt_dec x 0); [reflexivity | lra]. Qed.
Lemma order_exact : forall y p d p' d' p'' d'', (0 <= y)%Q -> (0 <= p < 10 ^ 69)%Z -> (0 <= p' < 10 ^ 69)%Z -> (0 <= p'' < 10 ^ 69)%Z ->
  d_encodeOrder (Q2R y) (Q2R (digits p d)) (Q2R (digits p' d')) (Q2R (digits p'' d'')) = encodeOrder y (digits p d) (digits p' d') (digits p'' d'').
Proof.
  intros. unfold d_encodeOrder, encodeOrder. rewrite !rate_exact by assumption. rewrite Ztrunc_floor, <- Qfloor_Zfloor; [reflexivity |].
  rewrite <- RMicromega.Q2R_0. apply Qle_Rle. assumption.
Qed.
(** ** a rate with too many digits *)
Definition near_one : Q := digits (10 ^ 210 - 1) 210.
Lemma near_one_R : Q2R near_one = 1 - / IZR (10 ^ 210).
Proof.
  unfold near_one, digits. change (Z.of_nat 210) with 210%Z.
  assert (I : forall m, Q2R (inject_Z m) = IZR m) by (intros; unfold Q2R, inject_Z; cbn [Qnum Qden]; field).
  rewrite Q2R_div; [| intro K; apply Qeq_eqR in K; rewrite I, RMicromega.Q2R_0 in K; apply eq_IZR in K; discriminate].
  rewrite !I, minus_IZR. field. apply IZR_neq. discriminate.
Qed.
Lemma near_one_up : d_encodeRate (Q2R near_one) = Some ONE.
Proof.
  rewrite near_one_R. set (e := / IZR (10 ^ 210)).
  assert (e0 : 0 < e) by (apply Rinv_0_lt_compat, IZR_lt; reflexivity).
  assert (e1 : e < / 4 * bpow ten (-100)).
  { change (-100)%Z with (- (100))%Z. rewrite bpow_opp, <- IZR_Zpower by lia. change (Z.pow ten 100) with (10 ^ 100)%Z. rewrite <- Rinv_mult. apply Rinv_lt_contravar.
    - apply Rmult_lt_0_compat; [apply Rmult_lt_0_compat; [lra | apply IZR_lt; reflexivity] | apply IZR_lt; reflexivity].
    - rewrite <- mult_IZR. apply IZR_lt. vm_compute. reflexivity. }
  assert (b100 : bpow ten (-100) <= / 10).
  { change (/ 10) with (bpow ten (-1)). apply bpow_le. lia. }
  set (s := sqrt (1 - e)).
  assert (s1 : s < 1) by (unfold s; rewrite <- sqrt_1 at 2; apply sqrt_lt_1; lra).
  assert (s0 : 1 - e <= s).
  { unfold s. rewrite <- (sqrt_square (1 - e)) at 1 by lra. apply sqrt_le_1; [apply Rmult_le_pos; lra | lra |]. rewrite <- (Rmult_1_r (1 - e)) at 3. apply Rmult_le_compat_l; lra. }
  assert (RS : rd_sqrt (1 - e) = 1).
  { unfold rd_sqrt. fold s. unfold round, scaled_mantissa, cexp.
    assert (M : mag ten s = 0%Z :> Z).
    { apply mag_unique. rewrite Rabs_pos_eq by lra. split; [change (bpow ten (0 - 1)) with (/ 10); lra | exact s1]. }
    rewrite M. change (FLX_exp 100 0) with (-100)%Z. change (- -100)%Z with 100%Z. unfold F2R. cbn [Fnum Fexp].
    assert (BB : bpow ten 100 * bpow ten (-100) = 1) by (rewrite <- bpow_plus; reflexivity).
    assert (Z1 : ZnearestE (s * bpow ten 100) = (10 ^ 100)%Z).
    { apply Znearest_imp. change (10 ^ 100)%Z with (Z.pow ten 100). rewrite IZR_Zpower by lia. pose proof (bpow_gt_0 ten 100) as B0.
      replace (s * bpow ten 100 - bpow ten 100) with (- ((1 - s) * bpow ten 100)) by ring. rewrite Rabs_Ropp, Rabs_pos_eq by (apply Rmult_le_pos; lra).
      apply Rle_lt_trans with (/ 4 * bpow ten (-100) * bpow ten 100); [apply Rmult_le_compat_r; lra |]. rewrite Rmult_assoc, (Rmult_comm (bpow ten (-100))), BB. lra. }
    rewrite Z1. change (10 ^ 100)%Z with (Z.pow ten 100). rewrite IZR_Zpower by lia. exact BB. }
  unfold d_encodeRate. destruct (Rlt_dec (1 - e) 0); [lra |]. rewrite RS. unfold rd_mul. rewrite Rmult_1_l.
  replace (IZR ONE) with (IZR ONE * bpow ten 0) by (simpl; ring). rewrite few_digits by (split; [discriminate | reflexivity]).
  simpl bpow. rewrite Rmult_1_r, Ztrunc_IZR. vm_compute. reflexivity.
Qed.
Lemma near_one_exact : encodeRate near_one = Some (ONE - 1)%Z.
Proof. vm_compute. reflexivity. Qed.
(** ** the encoded rate in closed form *)
Lemma rate_value : forall p d, (0 <= p < 10 ^ 69)%Z ->
  let data := Z.sqrt (p * 2 ^ 96 / 10 ^ Z.of_nat d) in
  let length := if (data <? 2 ^ 48)%Z then 0%Z else (Z.log2 data - 47)%Z in
  d_encodeRate (IZR p / IZR (10 ^ Z.of_nat d)) = Some (data / 2 ^ length * 2 ^ length)%Z.
Proof.
  intros p d Hp data length. change (IZR p / IZR (10 ^ Z.of_nat d)) with (IZR p / pt d). rewrite <- digits_R. rewrite (rate_exact p d Hp).
  assert (T : (0 < 10 ^ Z.of_nat d)%Z) by (apply Z.pow_pos_nonneg; lia).
  unfold encodeRate. assert (Q : Qle_bool 0 (digits p d) = true) by (apply Qle_bool_iff, Rle_Qle; rewrite digits_R, RMicromega.Q2R_0; apply (v_pos' p d Hp)).
  rewrite Q.
  assert (FL : Qfloor (digits p d * inject_Z (ONE * ONE)) = (p * 2 ^ 96 / 10 ^ Z.of_nat d)%Z).
  { rewrite Qfloor_Zfloor, Q2R_mult, digits_R. replace (Q2R (inject_Z (ONE * ONE))) with (IZR (2 ^ 96)) by (unfold Q2R, inject_Z; cbn [Qnum Qden]; change (ONE * ONE)%Z with (2 ^ 96)%Z; field).
    replace (IZR p / pt d * IZR (2 ^ 96)) with (IZR (p * 2 ^ 96) / IZR (10 ^ Z.of_nat d)) by (rewrite mult_IZR; unfold pt; field; apply IZR_neq; lia).
    apply Zfloor_div. lia. }
  rewrite FL. fold data. f_equal.
  assert (d0 : (0 <= data)%Z) by apply Z.sqrt_nonneg.
  assert (LE : bitLength (data / ONE) = length).
  { unfold bitLength, length. change ONE with (2 ^ 48)%Z. destruct (data <? 2 ^ 48)%Z eqn:E.
    - apply Z.ltb_lt in E. rewrite Z.div_small by lia. reflexivity.
    - apply Z.ltb_ge in E. assert (K : (1 <= data / 2 ^ 48)%Z) by (apply Z.div_le_lower_bound; lia). rewrite (proj2 (Z.ltb_lt _ _)) by lia.
      rewrite <- Z.shiftr_div_pow2 by lia. rewrite Z.log2_shiftr by lia.
      assert (48 <= Z.log2 data)%Z by (apply Z.log2_le_pow2; lia). lia. }
  assert (l0 : (0 <= length)%Z) by (rewrite <- LE; unfold bitLength; destruct (0 <? data / ONE)%Z; [pose proof (Z.log2_nonneg (data / ONE)); lia | lia]).
  rewrite LE. rewrite Z.shiftl_mul_pow2, Z.shiftr_div_pow2 by exact l0. reflexivity.
Qed.
