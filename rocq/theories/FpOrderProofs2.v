(** Lemmas for FpOrderProps.v: the amounts quoted by the fast router. *)
From Coq Require Import ZArith QArith Qreals Reals Bool Lia Lra.
From Flocq Require Import Core IEEE754.BinarySingleNaN.
From Verif Require Import TradeModel PairModel SimModel CurveModel FastModel FpModel FpSpec FpProofs FpProofs2 FpOrderModel FpOrderProofs.
Local Open Scope R_scope.

Lemma qdiv_R : forall a b, 0 < Q2R b -> exists q, qdiv a b = Some q /\ Q2R q = Q2R a / Q2R b.
Proof.
  intros a b H. unfold qdiv. destruct (Qeq_bool b 0) eqn:E.
  - exfalso. apply Qeq_bool_eq, Qeq_eqR in E. rewrite RMicromega.Q2R_0 in E. lra.
  - eexists. split; [reflexivity |]. apply Q2R_div. intro K. apply Qeq_eqR in K. rewrite RMicromega.Q2R_0 in K. lra.
Qed.
Lemma pymin_R : forall a b, Q2R (pymin a b) = Rmin (Q2R a) (Q2R b).
Proof.
  intros a b. unfold pymin, Qlt_bool. destruct (Qle_bool a b) eqn:E; cbn [negb].
  - apply Qle_bool_iff, Qle_Rle in E. symmetry. apply Rmin_left, E.
  - assert (~ Q2R a <= Q2R b) by (intro K; apply Rle_Qle, Qle_bool_iff in K; congruence). symmetry. apply Rmin_right. lra.
Qed.

(** the linear function whose square is the price, times the capacity *)
Definition lin (b h z w : R) : R := b * z + (h - b) * w.
Definition cost (b h z y d : R) : R := d * z * z / (lin b h z y * lin b h z (y - d)).
Definition gain (b h z y x : R) : R := x * (lin b h z y * lin b h z y) / ((h - b) * x * lin b h z y + z * z).

Lemma lin_pos : forall b h z w, 0 < b -> b <= h -> 0 < z -> 0 <= w -> 0 < lin b h z w.
Proof. intros. unfold lin. assert (0 < b * z) by (apply Rmult_lt_0_compat; assumption). assert (0 <= (h - b) * w) by (apply Rmult_le_pos; lra). lra. Qed.
Lemma lin_rn : forall n b h B H z w, rn n b B -> rn n h H -> 0 <= w <= z -> rn n (lin b h z w) (lin B H z w).
Proof.
  intros n b h B H z w Hb Hh Hw. unfold lin.
  replace (b * z + (h - b) * w) with ((z - w) * b + w * h) by ring. replace (B * z + (H - B) * w) with ((z - w) * B + w * H) by ring.
  apply rn_add; apply rn_scale; try assumption; lra.
Qed.
Lemma lin_mono : forall b h z v w, b <= h -> v <= w -> lin b h z v <= lin b h z w.
Proof. intros. unfold lin. assert (0 <= (h - b) * (w - v)) by (apply Rmult_le_pos; lra). lra. Qed.

Section Cost.
Variables (n : nat) (b h B H z y : R).
Hypothesis (b0 : 0 < b) (bh : b <= h) (B0 : 0 < B) (BH : B <= H) (z0 : 0 < z) (y0 : 0 <= y) (yz : y <= z).
Hypothesis (Rb : rn n b B) (Rh : rn n h H).
Lemma cost_rn : forall d, 0 <= d <= y -> rn (n + n) (cost b h z y d) (cost B H z y d).
Proof.
  intros d Hd. unfold cost, Rdiv. apply rn_scale; [apply Rmult_le_pos; [apply Rmult_le_pos; lra | lra] |].
  apply rn_inv; [apply Rmult_lt_0_compat; apply lin_pos; lra |]. apply rn_mul; apply lin_rn; try assumption; lra.
Qed.
(** the amount bought with x, characterised by its cost *)
Lemma gain_eq : forall b h x, 0 < b -> b <= h -> 0 <= x -> gain b h z y x * (z * z) = x * lin b h z y * lin b h z (y - gain b h z y x).
Proof.
  intros b' h' x Hb Hh Hx. pose proof (lin_pos b' h' z y Hb Hh z0 y0) as P. unfold gain.
  assert (D : 0 < (h' - b') * x * lin b' h' z y + z * z).
  { assert (0 <= (h' - b') * x * lin b' h' z y) by (apply Rmult_le_pos; [apply Rmult_le_pos; lra | lra]). assert (0 < z * z) by (apply Rmult_lt_0_compat; assumption). lra. }
  assert (L : forall t, lin b' h' z (y - t) = lin b' h' z y - (h' - b') * t) by (intros; unfold lin; ring). rewrite L. field. lra.
Qed.
Lemma gain_pos : forall b h x, 0 < b -> b <= h -> 0 <= x -> 0 <= gain b h z y x.
Proof.
  intros b' h' x Hb Hh Hx. pose proof (lin_pos b' h' z y Hb Hh z0 y0) as P. unfold gain, Rdiv. apply Rmult_le_pos.
  - apply Rmult_le_pos; [assumption |]. apply Rmult_le_pos; lra.
  - apply Rlt_le, Rinv_0_lt_compat. assert (0 <= (h' - b') * x * lin b' h' z y) by (apply Rmult_le_pos; [apply Rmult_le_pos; lra | lra]). assert (0 < z * z) by (apply Rmult_lt_0_compat; assumption). lra.
Qed.
End Cost.
Lemma gain_half : forall n b h B H z y, 0 < b -> b <= h -> 0 < B -> B <= H -> 0 < z -> 0 <= y -> y <= z -> rn n b B -> rn n h H ->
  forall x, 0 <= x -> Rmin (gain b h z y x) y <= Rmin (gain B H z y x) y * c ^ (n + n).
Proof.
  intros n b h B H z y b0 bh B0 BH z0 y0 yz Rb Rh x Hx.
  pose proof (gain_eq z y z0 y0 b h x b0 bh Hx) as E. pose proof (gain_eq z y z0 y0 B H x B0 BH Hx) as E'.
  pose proof (gain_pos z y z0 y0 b h x b0 bh Hx) as G. pose proof (gain_pos z y z0 y0 B H x B0 BH Hx) as G'.
  set (D := gain b h z y x) in *. set (D' := gain B H z y x) in *. set (d := Rmin D y). set (d' := Rmin D' y).
  assert (C1 := cn_1 (n + n)). assert (dD : d <= D) by apply Rmin_l. assert (dy : d <= y) by apply Rmin_r. assert (d0 : 0 <= d) by (apply Rmin_glb; assumption).
  assert (d0' : 0 <= d') by (apply Rmin_glb; assumption).
  destruct (Rle_dec d d') as [L | L]; [nra |].
  assert (K : d' = D') by (apply Rmin_left; destruct (Rle_dec D' y); [assumption |]; exfalso; apply L; unfold d'; rewrite Rmin_right by lra; exact dy).
  rewrite K in *. apply Rle_trans with D; [exact dD |].
  pose proof (lin_pos b h z y b0 bh z0 y0) as P. pose proof (lin_pos B H z y B0 BH z0 y0) as P'.
  pose proof (lin_rn n b h B H z y Rb Rh (conj y0 yz)) as (_ & N1 & _).
  pose proof (lin_rn n b h B H z (y - d) Rb Rh ltac:(lra)) as (_ & N2 & _).
  pose proof (lin_pos b h z (y - d) b0 bh z0 ltac:(lra)) as Q.
  pose proof (lin_pos B H z (y - d) B0 BH z0 ltac:(lra)) as Q'.
  pose proof (lin_mono b h z (y - D) (y - d) bh ltac:(lra)) as M. pose proof (lin_mono B H z (y - d) (y - D') BH ltac:(lra)) as M'.
  pose proof (cn_pos n) as Cn.
  assert (S1 : D * (z * z) <= x * (lin b h z y * lin b h z (y - d))).
  { rewrite E, Rmult_assoc. apply Rmult_le_compat_l; [exact Hx |]. apply Rmult_le_compat_l; lra. }
  assert (S2 : lin b h z y * lin b h z (y - d) <= (lin B H z y * c ^ n) * (lin B H z (y - d) * c ^ n)) by (apply Rmult_le_compat; lra).
  assert (S3 : lin B H z y * lin B H z (y - d) <= lin B H z y * lin B H z (y - D')) by (apply Rmult_le_compat_l; lra).
  assert (zz : 0 < z * z) by (apply Rmult_lt_0_compat; assumption).
  apply Rmult_le_reg_r with (z * z); [exact zz |]. apply Rle_trans with (1 := S1).
  apply Rle_trans with (x * ((lin B H z y * c ^ n) * (lin B H z (y - d) * c ^ n))); [apply Rmult_le_compat_l; assumption |].
  replace (D' * c ^ (n + n) * (z * z)) with (D' * (z * z) * (c ^ n * c ^ n)) by (rewrite pow_add; ring). rewrite E'.
  replace (x * (lin B H z y * c ^ n * (lin B H z (y - d) * c ^ n))) with (x * (lin B H z y * lin B H z (y - d)) * (c ^ n * c ^ n)) by ring.
  apply Rmult_le_compat_r; [apply Rmult_le_pos; lra |]. rewrite Rmult_assoc. apply Rmult_le_compat_l; assumption.
Qed.
Lemma gain_rn : forall n b h B H z y, 0 < b -> b <= h -> 0 < B -> B <= H -> 0 < z -> 0 <= y -> y <= z -> rn n b B -> rn n h H ->
  forall x, 0 <= x -> rn (n + n) (Rmin (gain b h z y x) y) (Rmin (gain B H z y x) y).
Proof.
  intros n b h B H z y b0 bh B0 BH z0 y0 yz Rb Rh x Hx. split; [apply Rmin_glb; [apply gain_pos; assumption | assumption] |].
  split; [apply gain_half; assumption |]. apply gain_half; try assumption; apply rn_sym; assumption.
Qed.
(** what is paid for the amount bought *)
Lemma cost_gain : forall b h z y x, 0 < b -> b <= h -> 0 < z -> 0 <= y -> 0 <= x ->
  cost b h z y (Rmin (gain b h z y x) y) = Rmin x (cost b h z y y).
Proof.
  intros b h z y x b0 bh z0 y0 Hx. pose proof (gain_eq z y z0 y0 b h x b0 bh Hx) as E.
  pose proof (gain_pos z y z0 y0 b h x b0 bh Hx) as G. set (D := gain b h z y x) in *.
  pose proof (lin_pos b h z y b0 bh z0 y0) as P. pose proof (lin_pos b h z 0 b0 bh z0 ltac:(lra)) as P0.
  assert (zz : 0 < z * z) by (apply Rmult_lt_0_compat; assumption).
  assert (M : forall d, 0 <= d <= y -> 0 < lin b h z y * lin b h z (y - d)) by (intros; apply Rmult_lt_0_compat; [exact P | apply lin_pos; lra]).
  destruct (Rle_dec D y) as [L | L].
  - rewrite (Rmin_left D y L).
    assert (X : cost b h z y D = x). { unfold cost. rewrite Rmult_assoc, E. pose proof (lin_pos b h z (y - D) b0 bh z0 ltac:(lra)). field. split; lra. }
    rewrite X. symmetry. apply Rmin_left. rewrite <- X. unfold cost.
    apply Rle_trans with (y * z * z / (lin b h z y * lin b h z (y - D))).
    + apply Rmult_le_compat_r; [apply Rlt_le, Rinv_0_lt_compat, M; lra |]. rewrite !Rmult_assoc. apply Rmult_le_compat_r; lra.
    + unfold Rdiv. apply Rmult_le_compat_l; [rewrite Rmult_assoc; apply Rmult_le_pos; lra |]. apply Rinv_le_contravar; [apply M; lra |]. apply Rmult_le_compat_l; [lra |]. apply lin_mono; lra.
  - rewrite (Rmin_right D y) by lra. symmetry. apply Rmin_right. unfold cost.
    assert (Q : lin b h z (y - D) <= lin b h z (y - y)) by (apply lin_mono; lra).
    apply Rmult_le_reg_r with (lin b h z y * lin b h z (y - y)); [apply M; lra |].
    unfold Rdiv. rewrite Rmult_assoc, Rinv_l by (apply Rgt_not_eq, M; lra). rewrite Rmult_1_r.
    apply Rle_trans with (D * (z * z)); [rewrite Rmult_assoc; apply Rmult_le_compat_r; lra |]. rewrite E, Rmult_assoc. apply Rmult_le_compat_l; [exact Hx |]. apply Rmult_le_compat_l; lra.
Qed.
Lemma rn_min : forall n x y x' y', rn n x x' -> rn n y y' -> rn n (Rmin x y) (Rmin x' y').
Proof.
  intros n x y x' y' H K. pose proof (rn_pos _ _ _ H). pose proof (rn_pos _ _ _ K). destruct H as (A0 & A1 & A2). destruct K as (D0 & D1 & D2).
  pose proof (cn_pos n). unfold Rmin. destruct (Rle_dec x y), (Rle_dec x' y'); repeat split; try assumption; nra.
Qed.

(** the amounts of the model *)
Lemma src_R : forall o d, let A := Q2R (fo_A o) in let B := Q2R (fo_B o) in
  0 <= A -> 0 < B -> 0 < Q2R (fo_z o) -> 0 <= Q2R d <= Q2R (fo_y o) ->
  exists q, amt_by_src false o d = Some q /\ Q2R q = cost B (B + A) (Q2R (fo_z o)) (Q2R (fo_y o)) (Q2R d).
Proof.
  intros o d A B HA HB Hz Hd. unfold amt_by_src, mul_div_c, fast_one.
  set (y := Q2R (fo_y o)) in *. set (z := Q2R (fo_z o)) in *. set (t := Q2R d) in *.
  match goal with |- exists q, qdiv ?a ?b = _ /\ _ => assert (Ea : Q2R a = t * z * z); [| assert (Eb : Q2R b = lin B (B + A) z y * lin B (B + A) z (y - t))] end.
  - rewrite !Q2R_mult, RMicromega.Q2R_1. fold t z. ring.
  - rewrite Q2R_mult, Q2R_minus, Q2R_plus, !Q2R_mult. fold A B y z t. unfold lin. ring.
  - match goal with |- exists q, qdiv ?a ?b = _ /\ _ => destruct (qdiv_R a b) as (q & E & V) end; [rewrite Eb; apply Rmult_lt_0_compat; apply lin_pos; lra |]. exists q. split; [exact E |]. rewrite V, Ea, Eb. reflexivity.
Qed.
Lemma tgt_R : forall o x, let A := Q2R (fo_A o) in let B := Q2R (fo_B o) in
  0 <= A -> 0 < B -> 0 < Q2R (fo_z o) -> 0 <= Q2R (fo_y o) -> 0 <= Q2R x ->
  exists q, amt_by_target false o x = Some q /\ Q2R q = gain B (B + A) (Q2R (fo_z o)) (Q2R (fo_y o)) (Q2R x).
Proof.
  intros o x A B HA HB Hz Hy Hx. unfold amt_by_target, mul_div_f, fast_one.
  set (y := Q2R (fo_y o)) in *. set (z := Q2R (fo_z o)) in *. set (t := Q2R x) in *.
  pose proof (lin_pos B (B + A) z y HB ltac:(lra) Hz Hy) as P.
  destruct (qdiv_R ((fo_y o * fo_A o + fo_z o * fo_B o) * x) 1 ltac:(rewrite RMicromega.Q2R_1; lra)) as (q & E & V). rewrite E. cbn [bind].
  rewrite RMicromega.Q2R_1, Q2R_mult, Q2R_plus, !Q2R_mult in V. fold A B y z t in V.
  match goal with |- exists q, qdiv ?a ?b = _ /\ _ => assert (Ea : Q2R a = t * (lin B (B + A) z y * lin B (B + A) z y)); [| assert (Eb : Q2R b = (B + A - B) * t * lin B (B + A) z y + z * z)] end.
  - rewrite Q2R_mult, V, Q2R_plus, !Q2R_mult. fold A B y z t. unfold lin. field.
  - rewrite Q2R_plus, !Q2R_mult, V, RMicromega.Q2R_1. fold A B y z t. unfold lin. field.
  - match goal with |- exists q, qdiv ?a ?b = _ /\ _ => destruct (qdiv_R a b) as (r & E' & V') end.
    { rewrite Eb. assert (0 <= (B + A - B) * t * lin B (B + A) z y) by (apply Rmult_le_pos; [apply Rmult_le_pos; lra | lra]). assert (0 < z * z) by (apply Rmult_lt_0_compat; assumption). lra. }
    exists r. split; [exact E' |]. rewrite V', Ea, Eb. reflexivity.
Qed.

(** ** the quotes of the fast router for an order made from two prices *)
Section Quotes.
Variables lo hi y z : Q.
Hypothesis Lo : 0 < Q2R lo.
Hypothesis LH : Q2R lo <= Q2R hi.
Hypothesis Fl : fits 190 (Q2R lo).
Hypothesis Fh : fits 190 (Q2R hi).
Hypothesis y0 : 0 <= Q2R y.
Hypothesis yz : Q2R y <= Q2R z.
Hypothesis z0 : 0 < Q2R z.
Notation b := (sqrt (Q2R lo)).
Notation h := (sqrt (Q2R hi)).
Lemma quotes_ok : exists B S, order_params hi lo = Ret (lo, hi, B, S) /\
  (forall x, 0 <= Q2R x -> exists r, quote_by_target false x (read_order y z B S) = Some r /\ Q2R (fr_input r) = Rmin (Q2R x) (Q2R y) /\
     rn 6 (cost b h (Q2R z) (Q2R y) (Rmin (Q2R x) (Q2R y))) (Q2R (fr_output r))) /\
  (forall x, 0 <= Q2R x -> exists r, quote_by_source false x (read_order y z B S) = Some r /\
     rn 6 (Rmin (gain b h (Q2R z) (Q2R y) (Q2R x)) (Q2R y)) (Q2R (fr_output r)) /\
     rn 6 (Rmin (Q2R x) (cost b h (Q2R z) (Q2R y) (Q2R y))) (Q2R (fr_input r))).
Proof.
  destruct (params_ok lo hi ltac:(lra) LH Fl Fh) as (B & S & E & FB & FS & PS & RB & RH).
  assert (b0 : 0 < b) by (apply sqrt_lt_R0; exact Lo). assert (bh : b <= h) by (apply sqrt_le_1_alt; exact LH).
  pose proof (rn_gt _ _ _ RB b0) as B0. apply (rn_weaken 2 3) in RB; [| lia].
  exists B, S. split; [exact E |].
  assert (VA : Q2R (fo_A (read_order y z B S)) = val S) by apply todec_val.
  assert (VB : Q2R (fo_B (read_order y z B S)) = val B) by apply todec_val.
  assert (HM : forall x, 0 <= Q2R x -> 0 <= Rmin (Q2R x) (Q2R y) <= Q2R y) by (intros; split; [apply Rmin_glb; assumption | apply Rmin_r]).
  split; intros x Hx.
  - destruct (src_R (read_order y z B S) (pymin x y)) as (q & Eq & Vq); try (rewrite ?VA, ?VB; assumption).
    { rewrite pymin_R. apply HM, Hx. }
    exists (mkFrate (pymin x y) q). unfold quote_by_target. change (fo_y (read_order y z B S)) with y. rewrite Eq. split; [reflexivity |].
    cbn [fr_input fr_output]. rewrite pymin_R. split; [reflexivity |]. rewrite Vq, VA, VB, pymin_R. apply (cost_rn 3); try assumption. apply HM, Hx.
  - destruct (tgt_R (read_order y z B S) x) as (g & Eg & Vg); try (rewrite ?VA, ?VB; assumption).
    change (Q2R (fo_z (read_order y z B S))) with (Q2R z) in Vg. change (Q2R (fo_y (read_order y z B S))) with (Q2R y) in Vg. rewrite VA, VB in Vg.
    assert (G0 : 0 <= Q2R g) by (rewrite Vg; apply gain_pos; try assumption; lra).
    destruct (src_R (read_order y z B S) (pymin g y)) as (q & Eq & Vq); try (rewrite ?VA, ?VB; assumption).
    { rewrite pymin_R. apply HM, G0. }
    exists (mkFrate q (pymin g y)). unfold quote_by_source. rewrite Eg. change (fo_y (read_order y z B S)) with y. cbn [bind]. rewrite Eq. split; [reflexivity |].
    cbn [fr_input fr_output]. rewrite Vq, VA, VB, pymin_R, Vg. split.
    + apply (gain_rn 3); try assumption. lra.
    + rewrite cost_gain; try assumption; [| lra]. apply rn_min; [apply rn_refl; assumption |]. apply (cost_rn 3); try assumption; lra.
Qed.
End Quotes.
Lemma params_negative : forall lo hi, Q2R lo <= Q2R hi -> Q2R lo < 0 -> fits 1000 (- Q2R lo) -> order_params hi lo = Raise ValueError.
Proof.
  intros lo hi LH L F. unfold order_params.
  assert (E : Qlt_bool hi lo = false) by (unfold Qlt_bool; apply negb_false_iff, Qle_bool_iff, Rle_Qle; exact LH). rewrite E.
  assert (N : flt (fdec lo) fzero = true).
  { unfold fdec. destruct (Qnum lo) as [| n | n] eqn:En.
    - rewrite (Q2R_pos_num lo En) in L. lra.
    - exfalso. unfold Q2R in L. rewrite En in L. pose proof (IZR_lt 0 (Z.pos n) ltac:(lia)). pose proof (Rinv_0_lt_compat _ (IZR_lt 0 (Z.pos (Qden lo)) ltac:(lia))). nra.
    - assert (V : Q2R lo = - IZR (Z.pos n) / IZR (Z.pos (Qden lo))) by (unfold Q2R; rewrite En; change (Z.neg n) with (- Z.pos n)%Z; rewrite opp_IZR; reflexivity).
      pose proof (rnd_near (- Q2R lo) ltac:(lra) (fits_le 1000 1010 _ ltac:(lia) F)) as (R1 & R2 & R3).
      pose proof (fquot_val true n (Qden lo)) as C. cbv zeta in C. cbn iota in C. rewrite <- V in C.
      assert (O : rnd (Q2R lo) = - rnd (- Q2R lo)).
      { cbn [round_mode]. rewrite round_NE_opp. ring. }
      rewrite O, Rabs_Ropp in C. destruct (C R3) as (C1 & C2). rewrite flt_correct; [| exact C1 | reflexivity]. rewrite C2, val_zero. unfold rlt.
      destruct (Rlt_dec _ _) as [K | K]; [reflexivity |]. exfalso. apply K. pose proof c_pos. assert (0 < rnd (- Q2R lo)) by nra. lra. }
  unfold fsqrt. rewrite N. reflexivity.
Qed.
