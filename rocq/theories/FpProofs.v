(** Error bounds of the operations on doubles. *)
From Coq Require Import ZArith Reals Bool Lia Lra.
From Flocq Require Import Core Relative IEEE754.BinarySingleNaN IEEE754.Binary IEEE754.Bits.
From Verif Require Import CurveModel FpModel FpSpec.
Local Open Scope R_scope.

Definition u : R := bpow radix2 (-53).
Definition c : R := / (1 - u).
Lemma u_pos : 0 < u. Proof. apply bpow_gt_0. Qed.
Lemma u_small : u <= / 1024.
Proof. unfold u. change (/ 1024) with (bpow radix2 (-10)). apply bpow_le. lia. Qed.
Lemma c_ge : 1 + u <= c.
Proof.
  pose proof u_pos. pose proof u_small. unfold c.
  apply Rmult_le_reg_r with (1 - u); [lra |]. rewrite Rinv_l by lra. nra.
Qed.
Lemma c_pos : 0 < c. Proof. pose proof c_ge. pose proof u_pos. lra. Qed.
Lemma c_1 : 1 <= c. Proof. pose proof c_ge. pose proof u_pos. lra. Qed.
Lemma c_inv : c * (1 - u) = 1.
Proof. unfold c. pose proof u_small. apply Rinv_l. lra. Qed.
Lemma cn_1 : forall n, 1 <= c ^ n. Proof. intros. apply pow_R1_Rle, c_1. Qed.
Lemma cn_pos : forall n, 0 < c ^ n. Proof. intros. apply pow_lt, c_pos. Qed.
Lemma cn_le : forall n m, (n <= m)%nat -> c ^ n <= c ^ m. Proof. intros. apply Rle_pow; [apply c_1 | assumption]. Qed.
Lemma cn_low : forall n, 1 + INR n * u <= c ^ n.
Proof.
  pose proof u_pos. pose proof c_ge. induction n as [| n IH]; [simpl; lra |].
  rewrite S_INR. cbn [pow].
  apply Rle_trans with ((1 + u) * (1 + INR n * u)); [pose proof (pos_INR n); nra |].
  apply Rmult_le_compat; try lra. pose proof (pos_INR n). nra.
Qed.
Lemma bernoulli : forall n, 1 - INR n * u <= (1 - u) ^ n.
Proof.
  pose proof u_pos. pose proof u_small. induction n as [| n IH]; [simpl; lra |].
  rewrite S_INR. cbn [pow].
  apply Rle_trans with ((1 - u) * (1 - INR n * u)); [pose proof (pos_INR n); nra |].
  apply Rmult_le_compat_l; lra.
Qed.
Lemma cn_high : forall n, INR n * u < 1 -> c ^ n <= / (1 - INR n * u).
Proof.
  intros n H. pose proof (bernoulli n) as B. unfold c. rewrite pow_inv by (pose proof u_small; lra).
  apply Rinv_le; lra.
Qed.
(** small exponents *)
Definition few (n : nat) : Prop := INR n * u <= / 2.
Lemma cn_2 : forall n, few n -> c ^ n <= 2.
Proof.
  intros n H. unfold few in H. apply Rle_trans with (/ (1 - INR n * u)); [apply cn_high; lra |].
  replace 2 with (/ / 2) by field. apply Rinv_le; lra.
Qed.
Lemma few_le : forall n m, (n <= m)%nat -> few m -> few n.
Proof. intros n m H F. unfold few in *. apply le_INR in H. pose proof u_pos. nra. Qed.
Lemma few_small : forall n, (n <= 100)%nat -> few n.
Proof.
  intros n H. unfold few. apply le_INR in H. simpl in H. pose proof u_pos. pose proof u_small.
  replace (INR 100) with 100 in H by (simpl; lra). nra.
Qed.

(** one rounding *)
Lemma rnd_near : forall a, 0 <= a -> fits 1010 a ->
  let r := round radix2 (SpecFloat.fexp 53 1024) (round_mode mode_NE) a in
  a <= r * c /\ r <= a * c /\ Rlt_bool (Rabs r) (bpow radix2 1024) = true.
Proof.
  intros a Ha F r. pose proof u_pos. pose proof u_small. pose proof c_ge. pose proof c_inv. pose proof c_pos.
  destruct F as [F | [F1 F2]].
  - subst a. assert (r = 0) as -> by (apply round_0; auto with typeclass_instances).
    rewrite Rabs_R0. repeat split; try lra. apply Rlt_bool_true. apply bpow_gt_0.
  - assert (Hpos : 0 < a) by (pose proof (bpow_gt_0 radix2 (- (1010))); lra).
    assert (E : Rabs (r - a) <= u * a).
    { unfold r. change (SpecFloat.fexp 53 1024) with (FLT_exp (-1074) 53). cbn [round_mode].
      apply Rle_trans with (/ 2 * bpow radix2 (- (53) + 1) * Rabs a).
      - apply relative_error_N_FLT; [lia |].
        rewrite Rabs_pos_eq by lra. apply Rle_trans with (2 := F1). apply bpow_le. lia.
      - rewrite (Rabs_pos_eq a) by lra. apply Rmult_le_compat_r; [lra |].
        unfold u. replace (bpow radix2 (-53)) with (bpow radix2 (-1) * bpow radix2 (-52)) by (rewrite <- bpow_plus; reflexivity).
        change (- (53) + 1)%Z with (-52)%Z. right. reflexivity. }
    apply Rabs_le_inv in E. repeat split.
    + apply Rmult_le_reg_r with (1 - u); [lra |]. rewrite Rmult_assoc, c_inv. nra.
    + nra.
    + apply Rlt_bool_true. rewrite Rabs_pos_eq by nra.
      apply Rle_lt_trans with (2 * bpow radix2 1010); [nra |].
      change 2 with (bpow radix2 1). rewrite <- bpow_plus. apply bpow_lt. lia.
Qed.

Definition near (n : nat) (x : R) (f : fl) : Prop := finite f /\ 0 <= x /\ x <= val f * c ^ n /\ val f <= x * c ^ n.
Lemma near_pos : forall n x f, near n x f -> 0 <= val f.
Proof.
  intros n x f (_ & H0 & H1 & _). pose proof (cn_pos n).
  destruct (Rle_lt_dec 0 (val f)) as [H' | H']; [assumption |]. nra.
Qed.
Lemma near_zero : forall n x f, near n x f -> (val f = 0 <-> x = 0).
Proof.
  intros n x f N. pose proof (near_pos _ _ _ N). destruct N as (_ & H0 & H1 & H2). split; intros E; rewrite E in *; lra.
Qed.
Lemma near_weaken : forall n m x f, (n <= m)%nat -> near n x f -> near m x f.
Proof.
  intros n m x f L N. pose proof (near_pos _ _ _ N). destruct N as (Hf & H0 & H1 & H2).
  pose proof (cn_le _ _ L). repeat split; try assumption; nra.
Qed.
Lemma near_0 : forall f, finite f -> 0 <= val f -> near 0 (val f) f.
Proof. intros. repeat split; try assumption; simpl; lra. Qed.

(** an exact result [a] near the wanted one [x], rounded *)
Lemma fits_near : forall n x a, few n -> 0 <= x -> x <= a * c ^ n -> a <= x * c ^ n -> fits 1000 x -> fits 1010 a.
Proof.
  intros n x a Hn H0 H1 H2 [F | [F1 F2]].
  - left. subst x. pose proof (cn_pos n). assert (0 <= a) by nra. lra.
  - right. pose proof (cn_2 _ Hn). pose proof (cn_1 n). pose proof (bpow_gt_0 radix2 (- (1000))).
    assert (0 <= a) by nra. split.
    + apply Rle_trans with (x / 2); [| nra].
      apply Rle_trans with (bpow radix2 (- (1000)) / 2); [| lra].
      replace (bpow radix2 (- (1000)) / 2) with (bpow radix2 (- (1000) + -1)) by (rewrite bpow_plus; reflexivity).
      apply bpow_le. lia.
    + apply Rle_trans with (x * 2); [nra |].
      apply Rle_trans with (bpow radix2 1000 * bpow radix2 1); [change (bpow radix2 1) with 2; lra |].
      rewrite <- bpow_plus. apply bpow_le. lia.
Qed.
Lemma rounded : forall n x a f, few n -> 0 <= x -> x <= a * c ^ n -> a <= x * c ^ n -> fits 1000 x -> finite f ->
  val f = round radix2 (SpecFloat.fexp 53 1024) (round_mode mode_NE) a -> near (S n) x f.
Proof.
  intros n x a f Hn H0 H1 H2 F Ff E. pose proof (fits_near _ _ _ Hn H0 H1 H2 F) as F'.
  pose proof (cn_pos n). pose proof c_pos.
  assert (Ha : 0 <= a) by nra.
  destruct (rnd_near a Ha F') as (R1 & R2 & _). rewrite <- E in R1, R2.
  repeat split; try assumption; cbn [pow].
  - apply Rle_trans with (1 := H1). rewrite (Rmult_comm c), (Rmult_comm (c ^ n)), <- Rmult_assoc. apply Rmult_le_compat_r; lra.
  - apply Rle_trans with (1 := R2). rewrite (Rmult_comm c), <- Rmult_assoc. apply Rmult_le_compat_r; lra.
Qed.
Lemma no_over : forall n x a, few n -> 0 <= x -> x <= a * c ^ n -> a <= x * c ^ n -> fits 1000 x ->
  Rlt_bool (Rabs (round radix2 (SpecFloat.fexp 53 1024) (round_mode mode_NE) a)) (bpow radix2 1024) = true.
Proof.
  intros n x a Hn H0 H1 H2 F. pose proof (fits_near _ _ _ Hn H0 H1 H2 F) as F'.
  pose proof (cn_pos n). assert (Ha : 0 <= a) by nra.
  destruct (rnd_near a Ha F') as (_ & _ & R3). exact R3.
Qed.

Lemma mul_bound : forall n m x y f g, near n x f -> near m y g ->
  0 <= x * y /\ x * y <= val f * val g * c ^ (n + m) /\ val f * val g <= x * y * c ^ (n + m).
Proof.
  intros n m x y f g N M. pose proof (near_pos _ _ _ N). pose proof (near_pos _ _ _ M).
  destruct N as (_ & N0 & N1 & N2). destruct M as (_ & M0 & M1 & M2).
  pose proof (cn_pos n). pose proof (cn_pos m). rewrite pow_add. repeat split; [nra | |].
  - apply Rle_trans with ((val f * c ^ n) * (val g * c ^ m)); [apply Rmult_le_compat; assumption | right; ring].
  - apply Rle_trans with ((x * c ^ n) * (y * c ^ m)); [apply Rmult_le_compat; assumption | right; ring].
Qed.
Lemma near_mul : forall n m x y f g, near n x f -> near m y g -> few (n + m) -> fits 1000 (x * y) ->
  near (S (n + m)) (x * y) (fmul f g).
Proof.
  intros n m x y f g N M Hf F. destruct (mul_bound _ _ _ _ _ _ N M) as (P0 & P1 & P2).
  pose proof (no_over _ _ _ Hf P0 P1 P2 F) as NO.
  pose proof (Bmult_correct 53 1024 (eq_refl _) (eq_refl _) binop_nan_pl64 mode_NE f g) as C.
  unfold val in NO. rewrite NO in C. destruct C as (C1 & C2 & _).
  apply rounded with (val f * val g); try assumption.
  unfold finite, fmul, b64_mult. 
  destruct N as (N & _). destruct M as (M & _). unfold finite in N, M. rewrite N, M in C2. exact C2.
Qed.
Lemma near_add : forall n x y f g, near n x f -> near n y g -> few n -> fits 1000 (x + y) -> near (S n) (x + y) (fadd f g).
Proof.
  intros n x y f g N M Hf F.
  assert (P : 0 <= x + y /\ x + y <= (val f + val g) * c ^ n /\ val f + val g <= (x + y) * c ^ n).
  { destruct N as (_ & N0 & N1 & N2). destruct M as (_ & M0 & M1 & M2). lra. }
  destruct P as (P0 & P1 & P2).
  pose proof (no_over _ _ _ Hf P0 P1 P2 F) as NO.
  destruct N as (N & _). destruct M as (M & _).
  pose proof (Bplus_correct 53 1024 (eq_refl _) (eq_refl _) binop_nan_pl64 mode_NE f g N M) as C.
  unfold val in NO. rewrite NO in C. destruct C as (C1 & C2 & _).
  apply rounded with (val f + val g); try assumption.
Qed.
Lemma near_bdiv : forall n m x y f g, near n x f -> near m y g -> few (n + m) -> 0 < y -> fits 1000 (x / y) ->
  near (S (n + m)) (x / y) (b64_div mode_NE f g).
Proof.
  intros n m x y f g N M Hf Hy F.
  assert (Hg : 0 < val g).
  { pose proof (near_pos _ _ _ M). destruct (Req_dec (val g) 0) as [E | E]; [| lra].
    apply (near_zero _ _ _ M) in E. lra. }
  assert (P : 0 <= x / y /\ x / y <= (val f / val g) * c ^ (n + m) /\ val f / val g <= (x / y) * c ^ (n + m)).
  { pose proof (near_pos _ _ _ N). destruct N as (_ & N0 & N1 & N2). destruct M as (_ & M0 & M1 & M2).
    pose proof (cn_pos n). pose proof (cn_pos m). rewrite pow_add. repeat split.
    - apply Rmult_le_pos; [assumption |]. left. apply Rinv_0_lt_compat. assumption.
    - apply Rmult_le_reg_r with (y * val g); [nra |].
      replace (x / y * (y * val g)) with (x * val g) by (field; lra).
      replace (val f / val g * (c ^ n * c ^ m) * (y * val g)) with ((val f * c ^ n) * (y * c ^ m)) by (field; lra).
      apply Rmult_le_compat; lra.
    - apply Rmult_le_reg_r with (y * val g); [nra |].
      replace (val f / val g * (y * val g)) with (val f * y) by (field; lra).
      replace (x / y * (c ^ n * c ^ m) * (y * val g)) with ((x * c ^ n) * (val g * c ^ m)) by (field; lra).
      apply Rmult_le_compat; lra. }
  destruct P as (P0 & P1 & P2).
  pose proof (no_over _ _ _ Hf P0 P1 P2 F) as NO.
  destruct N as (N & _). destruct M as (M & _).
  assert (Hg' : B2R 53 1024 g <> 0) by (unfold val in Hg; lra).
  pose proof (Bdiv_correct 53 1024 (eq_refl _) (eq_refl _) binop_nan_pl64 mode_NE f g Hg') as C.
  unfold val in NO. rewrite NO in C. destruct C as (C1 & C2 & _). unfold finite in N. rewrite N in C2.
  apply rounded with (val f / val g); try assumption.
Qed.
Lemma near_pw : forall pw n x f, accurate pw -> near n x f -> fits 440 x -> few (n + n + 3) -> near (n + n + 3) (x ^ 2) (pw f).
Proof.
  intros pw n x f A N F Hf. pose proof (near_pos _ _ _ N) as Pf.
  assert (F' : fits 450 (val f)).
  { destruct N as (_ & N0 & N1 & N2). assert (Hn : few n) by (apply few_le with (2 := Hf); lia).
    pose proof (cn_2 _ Hn). pose proof (cn_1 n). destruct F as [F | [F1 F2]].
    - left. subst x. lra.
    - right. pose proof (bpow_gt_0 radix2 (- (440))). split.
      + apply Rle_trans with (bpow radix2 (- (440) + -1)); [apply bpow_le; lia |]. rewrite bpow_plus. change (bpow radix2 (-1)) with (/ 2). 
        apply Rle_trans with (x / 2); [lra | nra].
      + apply Rle_trans with (bpow radix2 (440 + 1)); [| apply bpow_le; lia]. rewrite bpow_plus. change (bpow radix2 1) with 2. nra. }
  destruct (A f (proj1 N) F') as (A1 & A2).
  pose proof u_pos. pose proof u_small. pose proof c_ge. pose proof c_inv. pose proof c_pos.
  assert (Eu : bpow radix2 (-52) = 2 * u).
  { unfold u. change 2 with (bpow radix2 1). rewrite <- bpow_plus. reflexivity. }
  rewrite Eu in A2. apply Rabs_le_inv in A2.
  assert (Q : 0 <= val f ^ 2) by apply pow2_ge_0.
  assert (C3 : 1 + 2 * u <= c ^ 3) by (pose proof (cn_low 3) as L; simpl in L |- *; lra).
  assert (B1 : val f ^ 2 <= val (pw f) * c ^ 3).
  { apply Rle_trans with (val f ^ 2 * (1 - 2 * u) * c ^ 3).
    - assert (1 <= (1 - 2 * u) * c ^ 3).
      { apply Rmult_le_reg_r with ((1 - u) ^ 3); [apply pow_lt; lra |].
        rewrite Rmult_assoc, <- Rpow_mult_distr, c_inv, pow1. simpl. nra. }
      rewrite Rmult_assoc. nra.
    - apply Rmult_le_compat_r; [left; apply cn_pos | lra]. }
  assert (B2 : val (pw f) <= val f ^ 2 * c ^ 3) by nra.
  destruct N as (N & N0 & N1 & N2). pose proof (cn_pos n). pose proof (cn_pos 3).
  assert (D1 : x ^ 2 <= val f ^ 2 * (c ^ n * c ^ n)).
  { replace (val f ^ 2 * (c ^ n * c ^ n)) with ((val f * c ^ n) ^ 2) by ring. apply pow_incr. lra. }
  assert (D2 : val f ^ 2 <= x ^ 2 * (c ^ n * c ^ n)).
  { replace (x ^ 2 * (c ^ n * c ^ n)) with ((x * c ^ n) ^ 2) by ring. apply pow_incr. lra. }
  rewrite <- pow_add in D1, D2. pose proof (cn_pos (n + n)).
  split; [exact A1 |]. split; [apply pow2_ge_0 |]. rewrite (pow_add c (n + n) 3). split.
  - apply Rle_trans with (1 := D1). rewrite (Rmult_comm (c ^ (n + n))), <- Rmult_assoc. apply Rmult_le_compat_r; lra.
  - apply Rle_trans with (1 := B2). rewrite <- Rmult_assoc. apply Rmult_le_compat_r; lra.
Qed.

(** the bound at the end *)
Lemma near_close_gen : forall n x f eps, near n x f -> INR n * u < 1 -> INR n * u / (1 - INR n * u) <= eps -> close eps f x.
Proof.
  intros n x f eps (N & N0 & N1 & N2) Hn He. pose proof (cn_high _ Hn) as CH. pose proof (cn_pos n) as CP. pose proof (cn_1 n).
  pose proof (pos_INR n). pose proof u_pos.
  assert (D : c ^ n - 1 <= eps).
  { apply Rle_trans with (2 := He). replace (INR n * u / (1 - INR n * u)) with (/ (1 - INR n * u) - 1) by (field; lra). lra. }
  split; [exact N |]. rewrite (Rabs_pos_eq x) by assumption. apply Rabs_le. split.
  - assert (x - val f <= val f * (c ^ n - 1)) by lra.
    assert (x - x * (c ^ n - 1) <= val f); [| nra].
    apply Rmult_le_reg_r with (c ^ n); [assumption |]. apply Rle_trans with (2 := N1).
    assert ((2 - c ^ n) * c ^ n <= 1) by (pose proof (pow2_ge_0 (c ^ n - 1)); lra).
    replace ((x - x * (c ^ n - 1)) * c ^ n) with (x * ((2 - c ^ n) * c ^ n)) by ring. nra.
  - nra.
Qed.
Lemma near_close : forall n x f, near n x f -> (n <= 15)%nat -> close (bpow radix2 (-49)) f x.
Proof.
  intros n x f N L. pose proof u_pos. pose proof u_small. apply le_INR in L. replace (INR 15) with 15 in L by (simpl; lra).
  assert (INR n * u <= 15 * u) by nra.
  apply near_close_gen with n; [assumption | lra |].
  replace (bpow radix2 (-49)) with (16 * u) by (unfold u; change 16 with (bpow radix2 4); rewrite <- bpow_plus; reflexivity).
  apply Rmult_le_reg_r with (1 - INR n * u); [lra |].
  replace (INR n * u / (1 - INR n * u) * (1 - INR n * u)) with (INR n * u) by (field; lra). nra.
Qed.

(** ranges *)
Lemma fits_le : forall e e' x, (e <= e')%Z -> fits e x -> fits e' x.
Proof.
  intros e e' x L [H | [H1 H2]]; [left; assumption | right]. split.
  - apply Rle_trans with (2 := H1). apply bpow_le. lia.
  - apply Rle_trans with (1 := H2). apply bpow_le. lia.
Qed.
Lemma fits_pos : forall e x, fits e x -> 0 <= x.
Proof. intros e x [H | [H _]]; [lra |]. pose proof (bpow_gt_0 radix2 (- e)). lra. Qed.
Lemma fits_mul : forall d e x y, fits d x -> fits e y -> fits (d + e) (x * y).
Proof.
  intros d e x y [H | [H1 H2]]; [left; subst; ring |]. intros [K | [K1 K2]]; [left; subst; ring |]. right.
  pose proof (bpow_gt_0 radix2 (- d)). pose proof (bpow_gt_0 radix2 (- e)).
  replace (- (d + e))%Z with (- d + - e)%Z by lia. rewrite !bpow_plus. split; apply Rmult_le_compat; lra.
Qed.
Lemma fits_sqr : forall d x, fits d x -> fits (d + d) (x ^ 2).
Proof. intros d x H. replace (x ^ 2) with (x * x) by ring. apply fits_mul; assumption. Qed.
Lemma fits_add : forall d x y, (0 <= d)%Z -> fits d x -> fits d y -> fits (d + 1) (x + y).
Proof.
  intros d x y Hd Hx Hy. pose proof (fits_pos _ _ Hx). pose proof (fits_pos _ _ Hy).
  destruct Hx as [H1 | [H1 H2]]; destruct Hy as [K1 | [K1 K2]].
  - left. lra.
  - right. subst x. rewrite Rplus_0_l. split; [apply Rle_trans with (2 := K1) | apply Rle_trans with (1 := K2)]; apply bpow_le; lia.
  - right. subst y. rewrite Rplus_0_r. split; [apply Rle_trans with (2 := H1) | apply Rle_trans with (1 := H2)]; apply bpow_le; lia.
  - right. split.
    + apply Rle_trans with (bpow radix2 (- d)); [apply bpow_le; lia | lra].
    + rewrite bpow_plus. change (bpow radix2 1) with 2. lra.
Qed.
Lemma fits_inv : forall d x, 0 < x -> fits d x -> fits d (/ x).
Proof.
  intros d x Hx [H | [H1 H2]]; [lra |]. right. split.
  - rewrite bpow_opp. apply Rinv_le; assumption.
  - replace d with (- - d)%Z by lia. rewrite bpow_opp. apply Rinv_le; [apply bpow_gt_0 | assumption].
Qed.
Lemma fits_div : forall d e x y, 0 < y -> fits d x -> fits e y -> fits (d + e) (x / y).
Proof. intros. apply fits_mul; [assumption | apply fits_inv; assumption]. Qed.
