(** Lemmas for FpDecProps.v. *)
From Coq Require Import ZArith Reals Lia Lra.
From Flocq Require Import Core Relative.
From Verif Require Import CurveModel FpSpec FpProofs FpOrderProofs FpOrderProofs2 FpDecModel.
Local Open Scope R_scope.

(** ** equal up to a factor *)
Definition gn (e x y : R) : Prop := 0 <= x /\ x <= y * e /\ y <= x * e.
Lemma gn_rn : forall n x y, rn n x y <-> gn (c ^ n) x y.
Proof. intros. split; intros H; exact H. Qed.
Lemma gn_pos : forall e x y, 1 <= e -> gn e x y -> 0 <= y.
Proof. intros e x y He (A0 & A1 & A2). nra. Qed.
Lemma gn_gt : forall e x y, 1 <= e -> gn e x y -> 0 < x -> 0 < y.
Proof. intros e x y He (A0 & A1 & A2) Hx. nra. Qed.
Lemma gn_refl : forall e x, 1 <= e -> 0 <= x -> gn e x x.
Proof. intros. repeat split; nra. Qed.
Lemma gn_sym : forall e x y, 1 <= e -> gn e x y -> gn e y x.
Proof. intros e x y He H. pose proof (gn_pos _ _ _ He H). destruct H as (A0 & A1 & A2). repeat split; assumption. Qed.
Lemma gn_weaken : forall e f x y, 1 <= e -> e <= f -> gn e x y -> gn f x y.
Proof. intros e f x y He L H. pose proof (gn_pos _ _ _ He H). destruct H as (A0 & A1 & A2). repeat split; nra. Qed.
Lemma gn_trans : forall e f x y z, 1 <= e -> 1 <= f -> gn e x y -> gn f y z -> gn (e * f) x z.
Proof.
  intros e f x y z He Hf H K. pose proof (gn_pos _ _ _ He H). pose proof (gn_pos _ _ _ Hf K). destruct H as (A0 & A1 & A2). destruct K as (B0 & B1 & B2).
  split; [assumption |]. split.
  - apply Rle_trans with (1 := A1). replace (z * (e * f)) with (z * f * e) by ring. apply Rmult_le_compat_r; lra.
  - apply Rle_trans with (1 := B2). rewrite <- Rmult_assoc. apply Rmult_le_compat_r; lra.
Qed.
Lemma gn_add : forall e x y x' y', gn e x y -> gn e x' y' -> gn e (x + x') (y + y').
Proof. intros e x y x' y' (A0 & A1 & A2) (B0 & B1 & B2). repeat split; lra. Qed.
Lemma gn_scale : forall e k x y, 0 <= k -> gn e x y -> gn e (k * x) (k * y).
Proof. intros e k x y Hk (A0 & A1 & A2). repeat split; [apply Rmult_le_pos; assumption | |]; rewrite Rmult_assoc; apply Rmult_le_compat_l; assumption. Qed.
Lemma gn_mul : forall e f x y x' y', 1 <= e -> 1 <= f -> gn e x y -> gn f x' y' -> gn (e * f) (x * x') (y * y').
Proof.
  intros e f x y x' y' He Hf H K. pose proof (gn_pos _ _ _ He H). pose proof (gn_pos _ _ _ Hf K).
  apply gn_trans with (y * x'); try assumption. { rewrite (Rmult_comm x), (Rmult_comm y). apply gn_scale; [apply K | exact H]. } apply gn_scale; assumption.
Qed.
Lemma gn_inv : forall e x y, 1 <= e -> 0 < x -> gn e x y -> gn e (/ x) (/ y).
Proof.
  intros e x y He Hx H. pose proof (gn_gt _ _ _ He H Hx) as Hy. destruct H as (A0 & A1 & A2).
  pose proof (Rinv_0_lt_compat _ Hx). pose proof (Rinv_0_lt_compat _ Hy). split; [lra |]. split.
  - apply Rmult_le_reg_l with (x * y); [apply Rmult_lt_0_compat; assumption |]. replace (x * y * / x) with y by (field; lra). replace (x * y * (/ y * e)) with (x * e) by (field; lra). exact A2.
  - apply Rmult_le_reg_l with (x * y); [apply Rmult_lt_0_compat; assumption |]. replace (x * y * / y) with x by (field; lra). replace (x * y * (/ x * e)) with (y * e) by (field; lra). exact A1.
Qed.
Lemma gn_min : forall e x y x' y', 1 <= e -> gn e x x' -> gn e y y' -> gn e (Rmin x y) (Rmin x' y').
Proof.
  intros e x y x' y' He H K. pose proof (gn_pos _ _ _ He H). pose proof (gn_pos _ _ _ He K). destruct H as (A0 & A1 & A2). destruct K as (D0 & D1 & D2).
  unfold Rmin. destruct (Rle_dec x y), (Rle_dec x' y'); repeat split; try assumption; nra.
Qed.
Lemma gn_abs : forall t x y, 0 <= t <= / 2 -> 0 <= x -> Rabs (y - x) <= t * x -> gn (1 + 2 * t) x y.
Proof.
  intros t x y Ht Hx H. apply Rabs_le_inv in H. destruct H as (H1 & H2). split; [exact Hx |].
  assert (T : 0 <= t * x) by (apply Rmult_le_pos; lra). split; [| lra].
  assert (L : x * (1 - t) <= y) by lra. apply Rle_trans with (x * (1 - t) * (1 + 2 * t)).
  - assert (0 <= x * (t * (1 - 2 * t))) by (apply Rmult_le_pos; [lra | apply Rmult_le_pos; lra]). lra.
  - apply Rmult_le_compat_r; lra.
Qed.
Lemma abs_gn : forall e x y, 1 <= e -> gn e x y -> Rabs (y - x) <= (e - 1) * x.
Proof.
  intros e x y He H. pose proof (gn_pos _ _ _ He H). destruct H as (A0 & A1 & A2). apply Rabs_le. split; [| lra].
  assert (x <= y * e) by exact A1. destruct (Rle_dec x y) as [L | L]; [assert (0 <= (e - 1) * x) by (apply Rmult_le_pos; lra); lra |].
  assert (y * (e - 1) <= x * (e - 1)) by (apply Rmult_le_compat_r; lra). lra.
Qed.

(** ** one rounding: a factor of at most 1 + v *)
Definition v : R := bpow radix2 (-400).
Lemma v_pos : 0 < v. Proof. apply bpow_gt_0. Qed.
Lemma rd_gn : forall x, 0 <= x -> gn (1 + v) x (rd x).
Proof.
  intros x Hx. pose proof (relative_error_N_FLX ten 128 (eq_refl _) (fun n => negb (Z.even n)) x) as H. fold ZnearestE in H. fold (rd x) in H. rewrite (Rabs_pos_eq x Hx) in H.
  assert (E : / 2 * bpow ten (-128 + 1) <= v / 2).
  { unfold v. change (-128 + 1)%Z with (- (127))%Z. change (-400)%Z with (- (400))%Z. rewrite !bpow_opp. unfold Rdiv. rewrite (Rmult_comm (/ bpow radix2 400)). apply Rmult_le_compat_l; [lra |].
    apply Rinv_le_contravar; [apply bpow_gt_0 |]. rewrite <- !IZR_Zpower by lia. apply IZR_le. vm_compute. discriminate. }
  assert (V : v <= / 2) by (unfold v; change (/ 2) with (bpow radix2 (-1)); apply bpow_le; lia). pose proof v_pos.
  replace (1 + v) with (1 + 2 * (v / 2)) by field. apply gn_abs; [lra | exact Hx |]. apply Rle_trans with (1 := H). apply Rmult_le_compat_r; assumption.
Qed.
Notation k := (1 + v).
Lemma k1 : 1 <= k. Proof. pose proof v_pos. lra. Qed.
Lemma kn1 : forall n, 1 <= k ^ n. Proof. intros. apply pow_R1_Rle, k1. Qed.
Lemma rd_step : forall n x y, gn (k ^ n) x y -> gn (k ^ S n) x (rd y).
Proof.
  intros n x y H. replace (k ^ S n) with (k ^ n * k) by (simpl; ring).
  apply gn_trans with y; [apply kn1 | apply k1 | exact H |]. apply rd_gn. apply (gn_pos _ _ _ (kn1 n) H).
Qed.
Lemma kn_mul : forall n m x y x' y', gn (k ^ n) x y -> gn (k ^ m) x' y' -> gn (k ^ S (n + m)) (x * x') (dmul y y').
Proof. intros. apply rd_step. rewrite pow_add. apply gn_mul; try apply kn1; assumption. Qed.
Lemma kn_le : forall n m, (n <= m)%nat -> k ^ n <= k ^ m. Proof. intros. apply Rle_pow; [apply k1 | assumption]. Qed.
Lemma kn_weaken : forall n m x y, (n <= m)%nat -> gn (k ^ n) x y -> gn (k ^ m) x y.
Proof. intros n m x y L H. apply gn_weaken with (k ^ n); [apply kn1 | apply kn_le; exact L | exact H]. Qed.
Lemma kn_add : forall n x y x' y', gn (k ^ n) x y -> gn (k ^ n) x' y' -> gn (k ^ S n) (x + x') (dadd y y').
Proof. intros. apply rd_step. apply gn_add; assumption. Qed.
Lemma kn_0 : forall x, 0 <= x -> gn (k ^ 0) x x.
Proof. intros. apply gn_refl; [apply kn1 | assumption]. Qed.
Lemma kn_div : forall n m x y x' y', gn (k ^ n) x y -> gn (k ^ m) x' y' -> 0 < x' -> exists q, ddiv y y' = Ret q /\ gn (k ^ S (n + m)) (x / x') q.
Proof.
  intros n m x y x' y' H K P. pose proof (gn_gt _ _ _ (kn1 m) K P) as P'. unfold ddiv, req. destruct (Req_EM_T y' 0); [lra |].
  eexists. split; [reflexivity |]. apply rd_step. unfold Rdiv. rewrite pow_add. apply gn_mul; try apply kn1; [exact H |]. apply gn_inv; [apply kn1 | exact P | exact K].
Qed.
(** all these factors are small *)
Lemma kn_small : forall n, (n <= 64)%nat -> k ^ n <= 1 + bpow radix2 (-390).
Proof.
  intros n Hn. apply Rle_trans with (1 := kn_le _ _ Hn). pose proof v_pos.
  assert (V : v <= / 1000000) by (apply Rle_trans with (bpow radix2 (-20)); [apply bpow_le; lia | change (bpow radix2 (-20)) with (/ IZR 1048576); apply Rinv_le_contravar; lra]).
  assert (E : bpow radix2 (-390) = 1024 * v) by (unfold v; change 1024 with (bpow radix2 10); rewrite <- bpow_plus; reflexivity). rewrite E.
  assert (D : forall t a, 0 <= t <= / 1000 -> 0 <= a -> a <= 1 + t -> a * a <= 1 + 3 * t).
  { intros t a Ht Ha L. apply Rle_trans with ((1 + t) * (1 + t)); [apply Rmult_le_compat; lra |]. nra. }
  replace (k ^ 64) with (((((k ^ 2) ^ 2) ^ 2) ^ 2) ^ 2 * ((((k ^ 2) ^ 2) ^ 2) ^ 2) ^ 2) by (simpl; ring).
  assert (S2 : forall a : R, a ^ 2 = a * a) by (intros; simpl; ring). rewrite !S2.
  set (a1 := k * k). set (a2 := a1 * a1). set (a3 := a2 * a2). set (a4 := a3 * a3). set (a5 := a4 * a4).
  assert (P1 : 0 <= a1) by (apply Rmult_le_pos; lra). assert (P2 : 0 <= a2) by (apply Rmult_le_pos; assumption). assert (P3 : 0 <= a3) by (apply Rmult_le_pos; assumption).
  assert (P4 : 0 <= a4) by (apply Rmult_le_pos; assumption). assert (P5 : 0 <= a5) by (apply Rmult_le_pos; assumption).
  assert (L1 : a1 <= 1 + 3 * v) by (apply D; lra). assert (L2 : a2 <= 1 + 3 * (3 * v)) by (apply D; lra). assert (L3 : a3 <= 1 + 3 * (3 * (3 * v))) by (apply D; lra).
  assert (L4 : a4 <= 1 + 3 * (3 * (3 * (3 * v)))) by (apply D; lra). assert (L5 : a5 <= 1 + 3 * (3 * (3 * (3 * (3 * v))))) by (apply D; lra).
  assert (L6 : a5 * a5 <= 1 + 3 * (3 * (3 * (3 * (3 * (3 * v)))))) by (apply D; lra). lra.
Qed.
