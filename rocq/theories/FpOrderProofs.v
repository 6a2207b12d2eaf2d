(** Lemmas for FpOrderProps.v. *)
From Coq Require Import ZArith QArith Qreals Reals Bool Lia Lra.
From Flocq Require Import Core IEEE754.BinarySingleNaN IEEE754.Binary IEEE754.Bits.
From Verif Require Import TradeModel PairModel SimModel CurveModel FastModel FpModel FpSpec FpProofs FpProofs2 FpProofs3 FpSdkProofs FpOrderModel.
Local Open Scope R_scope.

Notation rnd := (round radix2 (SpecFloat.fexp 53 1024) (round_mode mode_NE)).
Lemma fquot_val : forall (s : bool) (n d : positive), let x := (if s then - IZR (Zpos n) else IZR (Zpos n)) / IZR (Zpos d) in
  Rlt_bool (Rabs (rnd x)) (bpow radix2 1024) = true -> finite (fquot s n d) /\ val (fquot s n d) = rnd x.
Proof.
  intros s n d x H. unfold finite, val, fquot. rewrite is_finite_BSN2B, B2R_BSN2B, is_finite_SF2B, B2R_SF2B.
  pose proof (Bdiv_correct_aux 53 1024 (eq_refl _) (eq_refl _) mode_NE s n 0 false d 0) as C.
  cbv zeta in C. destruct C as (_ & C). unfold F2R in C. cbn [Fnum Fexp] in C. change (bpow radix2 0) with 1 in C. change (cond_Zopp false (Z.pos d)) with (Z.pos d) in C.
  replace (IZR (cond_Zopp s (Z.pos n)) * 1 / (IZR (Z.pos d) * 1)) with x in C.
  2:{ unfold x. rewrite !Rmult_1_r. destruct s; cbn [cond_Zopp]; [rewrite <- opp_IZR |]; reflexivity. }
  rewrite H in C. destruct C as (C1 & C2 & _). split; assumption.
Qed.
Lemma Q2R_pos_num : forall q, Qnum q = Z0 -> Q2R q = 0.
Proof. intros q H. unfold Q2R. rewrite H. ring. Qed.
Lemma fdec_near : forall q, 0 <= Q2R q -> fits 1000 (Q2R q) -> near 1 (Q2R q) (fdec q) /\ val (fdec q) = rnd (Q2R q).
Proof.
  intros q Hq F. unfold fdec. destruct (Qnum q) as [| n | n] eqn:E.
  - rewrite (Q2R_pos_num q E). split; [apply near_weaken with 0%nat; [lia |]; apply near_0; [reflexivity | rewrite val_zero; lra] |].
    rewrite val_zero. symmetry. apply round_0. auto with typeclass_instances.
  - assert (V : Q2R q = IZR (Z.pos n) / IZR (Z.pos (Qden q))) by (unfold Q2R; rewrite E; reflexivity).
    pose proof (rnd_near (Q2R q) Hq (fits_le 1000 1010 _ ltac:(lia) F)) as (R1 & R2 & R3).
    pose proof (fquot_val false n (Qden q)) as C. cbv zeta in C. cbn iota in C. rewrite <- V in C. destruct (C R3) as (C1 & C2).
    split; [| exact C2]. split; [exact C1 |]. split; [exact Hq |]. rewrite C2, pow_1. split; assumption.
  - exfalso. unfold Q2R in Hq. rewrite E in Hq. pose proof (IZR_lt 0 (Z.pos (Qden q)) ltac:(lia)) as D.
    assert (N : IZR (Z.neg n) < 0) by (apply IZR_lt; lia). pose proof (Rinv_0_lt_compat _ D). nra.
Qed.
Lemma todec_val : forall f, Q2R (todec f) = val f.
Proof. exact toQ_val. Qed.

(** closeness of real numbers *)
Definition rn (n : nat) (x y : R) : Prop := 0 <= x /\ x <= y * c ^ n /\ y <= x * c ^ n.
Lemma rn_of : forall n x f, near n x f -> rn n x (val f).
Proof. intros n x f (_ & H). exact H. Qed.
Lemma rn_pos : forall n x y, rn n x y -> 0 <= y.
Proof. intros n x y (A0 & A1 & A2). pose proof (cn_pos n). nra. Qed.
Lemma rn_gt : forall n x y, rn n x y -> 0 < x -> 0 < y.
Proof. intros n x y (A0 & A1 & A2) Hx. pose proof (cn_pos n). nra. Qed.
Lemma rn_sym : forall n x y, rn n x y -> rn n y x.
Proof. intros n x y H. pose proof (rn_pos _ _ _ H). destruct H as (A0 & A1 & A2). repeat split; assumption. Qed.
Lemma rn_refl : forall x, 0 <= x -> forall n, rn n x x.
Proof. intros x Hx n. pose proof (cn_1 n). repeat split; nra. Qed.
Lemma rn_weaken : forall n m x y, (n <= m)%nat -> rn n x y -> rn m x y.
Proof. intros n m x y L H. pose proof (rn_pos _ _ _ H). destruct H as (A0 & A1 & A2). pose proof (cn_le _ _ L). repeat split; nra. Qed.
Lemma rn_trans : forall n m x y z, rn n x y -> rn m y z -> rn (n + m) x z.
Proof.
  intros n m x y z H H'. pose proof (rn_pos _ _ _ H). pose proof (rn_pos _ _ _ H'). destruct H as (A0 & A1 & A2). destruct H' as (B0 & B1 & B2).
  pose proof (cn_pos n). pose proof (cn_pos m). split; [assumption |]. rewrite pow_add. split.
  - apply Rle_trans with (1 := A1). replace (z * (c ^ n * c ^ m)) with (z * c ^ m * c ^ n) by ring. apply Rmult_le_compat_r; lra.
  - apply Rle_trans with (1 := B2). rewrite <- Rmult_assoc. apply Rmult_le_compat_r; lra.
Qed.
Lemma rn_add : forall n x y x' y', rn n x y -> rn n x' y' -> rn n (x + x') (y + y').
Proof. intros n x y x' y' (A0 & A1 & A2) (B0 & B1 & B2). repeat split; lra. Qed.
Lemma rn_scale : forall n k x y, 0 <= k -> rn n x y -> rn n (k * x) (k * y).
Proof. intros n k x y Hk (A0 & A1 & A2). repeat split; [apply Rmult_le_pos; assumption | |]; rewrite Rmult_assoc; apply Rmult_le_compat_l; assumption. Qed.
Lemma rn_mul : forall n m x y x' y', rn n x y -> rn m x' y' -> rn (n + m) (x * x') (y * y').
Proof.
  intros n m x y x' y' H K. pose proof (rn_pos _ _ _ H). pose proof (rn_pos _ _ _ K).
  apply rn_trans with (y * x'). { rewrite (Rmult_comm x), (Rmult_comm y). apply rn_scale; [apply K | exact H]. } apply rn_scale; assumption.
Qed.
Lemma rn_inv : forall n x y, 0 < x -> rn n x y -> rn n (/ x) (/ y).
Proof.
  intros n x y Hx H. pose proof (rn_gt _ _ _ H Hx) as Hy. destruct H as (A0 & A1 & A2). pose proof (cn_pos n).
  pose proof (Rinv_0_lt_compat _ Hx). pose proof (Rinv_0_lt_compat _ Hy). split; [lra |]. split.
  - apply Rmult_le_reg_l with (x * y); [apply Rmult_lt_0_compat; assumption |]. replace (x * y * / x) with y by (field; lra). replace (x * y * (/ y * c ^ n)) with (x * c ^ n) by (field; lra). exact A2.
  - apply Rmult_le_reg_l with (x * y); [apply Rmult_lt_0_compat; assumption |]. replace (x * y * / y) with x by (field; lra). replace (x * y * (/ x * c ^ n)) with (y * c ^ n) by (field; lra). exact A1.
Qed.
Lemma rn_close : forall n x y, rn n x y -> (n <= 14)%nat -> Rabs (y - x) <= bpow radix2 (-49) * x.
Proof.
  intros n x y H Hn. apply (rn_weaken _ 14 _ _ Hn) in H. destruct H as (A0 & A1 & A2). pose proof u_pos. pose proof u_small.
  assert (N : INR 14 = 14) by (simpl; lra).
  pose proof (cn_high 14 ltac:(rewrite N; lra)) as Ch. rewrite N in Ch.
  assert (E : bpow radix2 (-49) = 16 * u) by (unfold u; change 16 with (bpow radix2 4); rewrite <- bpow_plus; reflexivity). rewrite E.
  assert (C2 : c ^ 14 <= 1 + 16 * u).
  { apply Rle_trans with (1 := Ch). apply Rmult_le_reg_l with (1 - 14 * u); [lra |]. rewrite Rinv_r by lra.
    assert (u < / 1000000) by (unfold u; change (bpow radix2 (-53)) with (/ IZR (2 ^ 53)); apply Rinv_lt_contravar; [apply Rmult_lt_0_compat; apply IZR_lt; reflexivity | apply IZR_lt; reflexivity]). nra. }
  pose proof (cn_1 14) as C1.
  assert (L : x <= y * (1 + 16 * u)).
  { apply Rle_trans with (1 := A1). apply Rmult_le_compat_l; [| exact C2]. nra. }
  assert (L2 : y <= x * (1 + 16 * u)) by (apply Rle_trans with (1 := A2); apply Rmult_le_compat_l; assumption).
  apply Rabs_le. split; [| lra].
  assert (x * (1 - 16 * u) <= y) by nra. lra.
Qed.

(** ** the parameters *)
Section Params.
Variables lo hi : Q.
Hypothesis Lo : 0 <= Q2R lo.
Hypothesis LH : Q2R lo <= Q2R hi.
Hypothesis Fl : fits 190 (Q2R lo).
Hypothesis Fh : fits 190 (Q2R hi).
Lemma params_ok : exists B S, order_params hi lo = Ret (lo, hi, B, S) /\ finite B /\ finite S /\ 0 <= val S /\
  rn 2 (sqrt (Q2R lo)) (val B) /\ rn 3 (sqrt (Q2R hi)) (val B + val S).
Proof.
  destruct (fdec_near lo Lo (fits_le 190 1000 _ ltac:(lia) Fl)) as (Nl & Vl).
  destruct (fdec_near hi ltac:(lra) (fits_le 190 1000 _ ltac:(lia) Fh)) as (Nh & Vh).
  assert (f1 : few 1) by (apply few_small; lia). assert (f2 : few 2) by (apply few_small; lia).
  destruct (near_sqrt 1 _ _ Nl f1 (fits_le 190 1000 _ ltac:(lia) Fl)) as (sl & El & Nsl & Vsl).
  destruct (near_sqrt 1 _ _ Nh f1 (fits_le 190 1000 _ ltac:(lia) Fh)) as (sh & Eh & Nsh & Vsh).
  assert (Gl : fits 95 (sqrt (Q2R lo))) by (apply sqrt_fits; [lia | exact Fl]).
  assert (Gh : fits 95 (sqrt (Q2R hi))) by (apply sqrt_fits; [lia | exact Fh]).
  assert (Fsl : fits 100 (val sl)) by (apply fits_le with 96%Z; [lia |]; apply (fits_of_near 2 95 (sqrt (Q2R lo))); [assumption | assumption | assumption | lia]).
  assert (Fsh : fits 100 (val sh)) by (apply fits_le with 96%Z; [lia |]; apply (fits_of_near 2 95 (sqrt (Q2R hi))); [assumption | assumption | assumption | lia]).
  assert (VE : Valid_exp (SpecFloat.fexp 53 1024)) by (change (Valid_exp (FLT_exp (-1074) 53)); apply FLT_exp_valid; reflexivity).
  assert (Hle : val sl <= val sh).
  { rewrite Vsl, Vsh. apply round_le; auto with typeclass_instances. apply sqrt_le_1_alt. rewrite Vl, Vh. apply round_le; auto with typeclass_instances. }
  destruct (sub_grid sh sl (proj1 Nsh) (proj1 Nsl) Fsh Fsl) as (G & _). destruct (G ltac:(lra)) as (Nd & _).
  exists sl, (fsub sh sl). split.
  { unfold order_params. assert (E : Qlt_bool hi lo = false) by (unfold Qlt_bool; apply negb_false_iff, Qle_bool_iff, Rle_Qle; exact LH).
    rewrite E, El. cbn [rbind]. rewrite Eh. reflexivity. }
  split; [apply Nsl |]. split; [apply Nd |]. split; [apply (near_pos _ _ _ Nd) |]. split; [apply rn_of; exact Nsl |].
  apply (rn_trans 2 1 _ (val sh)); [apply rn_of; exact Nsh |].
  replace (val sh) with (val sl + (val sh - val sl)) by ring. apply rn_add; [apply rn_refl, (fits_pos _ _ Fsl) | apply rn_of; exact Nd].
Qed.
End Params.
Lemma params_swap : forall lo hi, Q2R lo < Q2R hi -> order_params lo hi = order_params hi lo.
Proof.
  intros lo hi H. unfold order_params.
  assert (E : Qlt_bool lo hi = true) by (unfold Qlt_bool; apply negb_true_iff; destruct (Qle_bool hi lo) eqn:E; [| reflexivity]; apply Qle_bool_iff, Qle_Rle in E; lra).
  assert (E' : Qlt_bool hi lo = false) by (unfold Qlt_bool; apply negb_false_iff, Qle_bool_iff, Rle_Qle; lra).
  rewrite E, E'. reflexivity.
Qed.
