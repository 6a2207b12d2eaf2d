(** Lemmas for FpUniProps.v. *)
From Coq Require Import ZArith Reals Bool List Lia Lra.
From Flocq Require Import Core IEEE754.BinarySingleNaN IEEE754.Binary IEEE754.Bits.
From Verif Require Import CurveModel FpModel FpSpec FpProofs FpProofs2 FpProofs3 FpCpcSpec FpCpcProofs FpCpcProofs2 FpUniModel FpUniSpec.
Local Open Scope R_scope.

Lemma f_of_ok : forall n e, (0 <= n)%Z -> fits 1000 (IZR n * bpow radix2 e) -> near 1 (IZR n * bpow radix2 e) (f_of n e) /\ val (f_of n e) = rnd (IZR n * bpow radix2 e).
Proof.
  intros n e Hn F. assert (P : 0 <= IZR n * bpow radix2 e) by (apply Rmult_le_pos; [apply IZR_le; exact Hn | apply bpow_ge_0]).
  destruct (rnd_near _ P (fits_le 1000 1010 _ ltac:(lia) F)) as (R1 & R2 & R3).
  pose proof (binary_normalize_correct 53 1024 (eq_refl _) (eq_refl _) mode_NE n e false) as C. unfold F2R in C. cbn [Fnum Fexp] in C. rewrite R3 in C. destruct C as (C1 & C2 & _).
  split; [| exact C1]. split; [exact C2 |]. split; [exact P |]. fold (f_of n e) in C1. fold (val (f_of n e)) in C1. rewrite C1, pow_1. split; assumption.
Qed.
Lemma price_fits192 : forall s, root_price s -> fits 192 (IZR (s ^ 2) * bpow radix2 (-192)) /\ 0 < IZR (s ^ 2).
Proof.
  intros s H. unfold root_price in H. assert (L : (1 <= s ^ 2)%Z) by nia. assert (U : (s ^ 2 <= 2 ^ 320)%Z) by (replace (2 ^ 320)%Z with ((2 ^ 160) ^ 2)%Z by reflexivity; apply Z.pow_le_mono_l; lia).
  apply IZR_le in L. apply IZR_le in U. split; [| lra]. right. change (IZR (2 ^ 320)) with (bpow radix2 320) in U. split.
  - change (- (192))%Z with (-192)%Z. rewrite <- (Rmult_1_l (bpow radix2 (-192))) at 1. apply Rmult_le_compat_r; [apply bpow_ge_0 | exact L].
  - apply Rle_trans with (bpow radix2 320 * bpow radix2 (-192)); [apply Rmult_le_compat_r; [apply bpow_ge_0 | exact U] | rewrite <- bpow_plus; apply bpow_le; lia].
Qed.
Lemma price_near : forall s, root_price s -> near 1 (IZR (s ^ 2) * bpow radix2 (-192)) (u_price_f s) /\ val (u_price_f s) = rnd (IZR (s ^ 2) * bpow radix2 (-192)).
Proof. intros s H. destruct (price_fits192 s H) as (F & P). apply f_of_ok; [apply Z.pow_nonneg; unfold root_price in H; lia | apply (fits_le 192 1000 _ ltac:(lia) F)]. Qed.
Lemma price_ok : forall s, root_price s -> finite (u_price_f s) /\ Rabs (val (u_price_f s) - IZR (s ^ 2) / IZR (2 ^ 192)) <= bpow radix2 (-52) * (IZR (s ^ 2) / IZR (2 ^ 192)).
Proof.
  intros s H. destruct (price_near s H) as (N & _). change (bpow radix2 (-192)) with (/ IZR (2 ^ 192)) in N. fold (Rdiv (IZR (s ^ 2)) (IZR (2 ^ 192))) in N. split; [apply N |].
  pose proof (near_abs _ _ _ N ltac:(lia)) as E. change (INR 1) with 1 in E. rewrite u52. pose proof N as (_ & P & _). pose proof u_pos. assert (0 <= u * (IZR (s ^ 2) / IZR (2 ^ 192))) by (apply Rmult_le_pos; lra). lra.
Qed.
Lemma price_mono : forall s t, root_price s -> root_price t -> (s <= t)%Z -> val (u_price_f s) <= val (u_price_f t).
Proof.
  intros s t Hs Ht L. destruct (price_near s Hs) as (_ & ->). destruct (price_near t Ht) as (_ & ->). apply rnd_mono. apply Rmult_le_compat_r; [apply bpow_ge_0 |]. apply IZR_le. apply Z.pow_le_mono_l. unfold root_price in Hs. lia.
Qed.
Lemma near_u_p : forall s d, root_price s -> factor d -> near 2 (IZR (s ^ 2) * bpow radix2 (-192) * val d) (u_p s d) /\ fits 392 (IZR (s ^ 2) * bpow radix2 (-192) * val d) /\ 0 < IZR (s ^ 2) * bpow radix2 (-192) * val d.
Proof.
  intros s d Hs (Fd & Gd & d0). destruct (price_near s Hs) as (N & _). destruct (price_fits192 s Hs) as (F & P).
  assert (F2 : fits 392 (IZR (s ^ 2) * bpow radix2 (-192) * val d)) by (apply (fits_mul 192 200); assumption).
  split; [apply (near_mul 1 0); [exact N | apply near_0; [exact Fd | lra] | apply few_small; lia | apply (fits_le 392 1000 _ ltac:(lia) F2)] |]. split; [exact F2 |].
  apply Rmult_lt_0_compat; [apply Rmult_lt_0_compat; [exact P | apply bpow_gt_0] | exact d0].
Qed.
Lemma p_ok : forall s d, root_price s -> factor d -> let P := IZR (s ^ 2) / IZR (2 ^ 192) * val d in
  exists q, finite (u_p s d) /\ Rabs (val (u_p s d) - P) <= bpow radix2 (-51) * P /\ u_p_inv s d = Ret q /\ finite q /\ Rabs (val q - / P) <= bpow radix2 (-51) * / P.
Proof.
  intros s d Hs Hd P. destruct (near_u_p s d Hs Hd) as (N & F & P0). change (bpow radix2 (-192)) with (/ IZR (2 ^ 192)) in *. fold (Rdiv (IZR (s ^ 2)) (IZR (2 ^ 192))) in *. fold P in N, F, P0.
  assert (I0 : 0 < / P) by (apply Rinv_0_lt_compat; exact P0).
  destruct (near_fdiv 0 2 1 P fone (u_p s d) near_one N) as (q & Eq & Nq); [apply few_small; lia | exact P0 | unfold Rdiv; rewrite Rmult_1_l; apply (fits_le 392 1000 _ ltac:(lia)); apply fits_inv; assumption |].
  unfold Rdiv in Nq. rewrite Rmult_1_l in Nq. change (near 3 (/ P) q) in Nq. exists q. split; [apply N |].
  pose proof u_pos. assert (0 <= u * P) by (apply Rmult_le_pos; lra). assert (0 <= u * / P) by (apply Rmult_le_pos; lra).
  pose proof (near_abs _ _ _ N ltac:(lia)) as E1. pose proof (near_abs _ _ _ Nq ltac:(lia)) as E2. replace (INR 2) with 2 in E1 by (simpl; lra). replace (INR 3) with 3 in E2 by (simpl; lra). rewrite u51. split; [lra |]. split; [exact Eq |]. split; [apply Nq | lra].
Qed.
Lemma q96 : near 0 (IZR (2 ^ 96)) (f_of (2 ^ 96) 0) /\ fits 96 (IZR (2 ^ 96)).
Proof.
  assert (F : fits 96 (IZR (2 ^ 96))) by (right; change (IZR (2 ^ 96)) with (bpow radix2 96); split; apply bpow_le; lia). split; [| exact F].
  destruct (f_of_ok (2 ^ 96) 0) as (N & V); [lia | change (bpow radix2 0) with 1; rewrite Rmult_1_r; apply (fits_le 96 1000 _ ltac:(lia) F) |]. change (bpow radix2 0) with 1 in V. rewrite Rmult_1_r in V.
  assert (V' : val (f_of (2 ^ 96) 0) = IZR (2 ^ 96)) by (rewrite V; apply round_generic; [apply valid_rnd_N | change (IZR (2 ^ 96)) with (bpow radix2 96); apply generic_format_bpow; unfold SpecFloat.fexp, SpecFloat.emin; lia]).
  rewrite <- V'. apply near_0; [apply N | rewrite V'; apply IZR_le; lia].
Qed.
Lemma back : forall n x p, near n x p -> (n <= 1)%nat -> fits 200 x -> exists r, u_sp96_from_price p = Ret r /\ near (S (S n)) (sqrt x * IZR (2 ^ 96)) r.
Proof.
  intros n x p N L F. destruct (near_sqrt n x p N) as (s & Es & Ns & _); [apply few_small; lia | apply (fits_le 200 1000 _ ltac:(lia) F) |]. destruct q96 as (Nq & Fq).
  exists (fmul s (f_of (2 ^ 96) 0)). unfold u_sp96_from_price. rewrite Es. cbn [rbind]. split; [reflexivity |].
  replace (S (S n)) with (S (S n + 0)) by lia. apply near_mul; [exact Ns | exact Nq | apply few_small; lia | apply (fits_le 196 1000 _ ltac:(lia)); apply (fits_mul 100 96); [apply (sqrt_fits 100 _ ltac:(lia) F) | exact Fq]].
Qed.
Lemma from_price_ok : forall p, amount p -> exists r, u_sp96_from_price p = Ret r /\ finite r /\ Rabs (val r - sqrt (val p) * IZR (2 ^ 96)) <= bpow radix2 (-51) * (sqrt (val p) * IZR (2 ^ 96)).
Proof.
  intros p (Fp & p0 & Gp). destruct (back 0 (val p) p) as (r & E & N); [apply near_0; [exact Fp | lra] | lia | apply (fits_le 100 200 _ ltac:(lia) Gp) |]. exists r. split; [exact E |]. split; [apply N |].
  pose proof (near_abs _ _ _ N ltac:(lia)) as A. replace (INR 2) with 2 in A by (simpl; lra). pose proof N as (_ & P & _). pose proof u_pos. assert (0 <= u * (sqrt (val p) * IZR (2 ^ 96))) by (apply Rmult_le_pos; lra). rewrite u51. lra.
Qed.
Lemma roundtrip : forall s, root_price s -> exists r, u_sp96_from_price (u_price_f s) = Ret r /\ finite r /\ Rabs (val r - IZR s) <= bpow radix2 (-51) * IZR s.
Proof.
  intros s H. destruct (price_near s H) as (N & _). destruct (price_fits192 s H) as (F & P). destruct (back 1 _ _ N) as (r & E & Nr); [lia | apply (fits_le 192 200 _ ltac:(lia) F) |].
  assert (s0 : 0 < IZR s) by (apply IZR_lt; unfold root_price in H; lia).
  replace (sqrt (IZR (s ^ 2) * bpow radix2 (-192)) * IZR (2 ^ 96)) with (IZR s) in Nr.
  - exists r. split; [exact E |]. split; [apply Nr |]. pose proof (near_abs _ _ _ Nr ltac:(lia)) as A. replace (INR 3) with 3 in A by (simpl; lra). pose proof u_pos. assert (0 <= u * IZR s) by (apply Rmult_le_pos; lra). rewrite u51. lra.
  - replace (IZR (s ^ 2) * bpow radix2 (-192)) with ((IZR s * bpow radix2 (-96)) * (IZR s * bpow radix2 (-96))).
    + rewrite sqrt_square by (apply Rmult_le_pos; [lra | apply bpow_ge_0]). change (IZR (2 ^ 96)) with (bpow radix2 96). rewrite Rmult_assoc, <- bpow_plus. change (bpow radix2 (-96 + 96)) with 1. ring.
    + replace (s ^ 2)%Z with (s * s)%Z by ring. rewrite mult_IZR. replace (bpow radix2 (-192)) with (bpow radix2 (-96) * bpow radix2 (-96)) by (rewrite <- bpow_plus; reflexivity). ring.
Qed.
Lemma reserve_ok : forall l s d pa, (0 <= l < 2 ^ 128)%Z -> root_price s -> factor d -> finite pa -> 0 <= val pa -> fits 390 (val pa) -> val pa <= val (u_p s d) -> exists r, u_tkn1reserve l s d pa = Ret r /\ finite r /\ 0 <= val r.
Proof.
  intros l s d pa Hl Hs Hd Fa Pa Ga L. destruct (near_u_p s d Hs Hd) as (N & F & P0). destruct Hd as (Fd & Gd & d0).
  destruct (near_sqrt 2 _ _ N) as (S & ES & NS & VS); [apply few_small; lia | apply (fits_le 392 1000 _ ltac:(lia) F) |].
  destruct (near_sqrt 0 _ _ (near_0 pa Fa Pa)) as (a & Ea & Na & Va); [apply few_small; lia | apply (fits_le 390 1000 _ ltac:(lia) Ga) |].
  assert (Le : val a <= val S) by (rewrite VS, Va; apply rnd_mono, sqrt_le_1_alt; exact L).
  assert (FS : fits 196 (sqrt (IZR (s ^ 2) * bpow radix2 (-192) * val d))) by (apply (sqrt_fits 196 _ ltac:(lia) F)).
  pose proof (near_pos _ _ _ NS) as S0. pose proof (near_pos _ _ _ Na) as a0.
  assert (S1 : val S <= bpow radix2 197).
  { assert (G : fits 197 (val S)) by (apply (fits_of_near 3 196 _ S NS); [apply few_small; lia | exact FS | lia]). destruct G as [G | (_ & G)]; [rewrite G; apply bpow_ge_0 | exact G]. }
  assert (b1 : bpow radix2 197 <= bpow radix2 801) by (apply bpow_le; lia).
  destruct (sub_ok S a (proj1 NS) (proj1 Na) S0 a0) as (FD & VD & _); [lra | lra |].
  assert (D0 : 0 <= val (fsub S a)) by (rewrite VD; apply rnd_pos; lra).
  assert (D1 : val (fsub S a) <= bpow radix2 197) by (rewrite VD; apply round_le_generic; [apply fexp_correct; reflexivity | apply valid_rnd_N | apply generic_format_bpow; unfold SpecFloat.fexp, SpecFloat.emin; lia | lra]).
  assert (FL : fits 128 (IZR l)). { destruct (Z.eq_dec l 0) as [-> | X]; [left; reflexivity |]. right. split; [apply Rle_trans with 1; [change 1 with (bpow radix2 0); apply bpow_le; lia | apply IZR_le; lia] | change (bpow radix2 128) with (IZR (2 ^ 128)); apply IZR_le; lia]. }
  destruct (f_of_ok l 0) as (NL & _); [lia | change (bpow radix2 0) with 1; rewrite Rmult_1_r; apply (fits_le 128 1000 _ ltac:(lia) FL) |]. change (bpow radix2 0) with 1 in NL. rewrite Rmult_1_r in NL.
  pose proof (near_pos _ _ _ NL) as l0. assert (l1 : val (f_of l 0) <= bpow radix2 129).
  { assert (G : fits 129 (val (f_of l 0))) by (apply (fits_of_near 1 128 _ _ NL); [apply few_small; lia | exact FL | lia]). destruct G as [G | (_ & G)]; [rewrite G; apply bpow_ge_0 | exact G]. }
  assert (d1 : val d <= bpow radix2 200) by (apply fits_up; assumption).
  assert (M : forall f g, finite f -> finite g -> 0 <= val f -> 0 <= val g -> forall e1 e2, (e1 + e2 <= 900)%Z -> (0 <= e1 + e2)%Z -> val f <= bpow radix2 e1 -> val g <= bpow radix2 e2 -> finite (fmul f g) /\ 0 <= val (fmul f g) <= bpow radix2 (e1 + e2)).
  { intros f g Ff Fg f0 g0 e1 e2 He He' f1 g1. pose proof (Bmult_correct 53 1024 (eq_refl _) (eq_refl _) binop_nan_pl64 mode_NE f g) as C.
    assert (Pr : 0 <= val f * val g <= bpow radix2 (e1 + e2)) by (split; [apply Rmult_le_pos; assumption | rewrite bpow_plus; apply Rmult_le_compat; assumption]).
    assert (Sm : Rabs (val f * val g) <= bpow radix2 900) by (rewrite Rabs_pos_eq by lra; apply Rle_trans with (1 := proj2 Pr), bpow_le; exact He).
    apply small_rnd in Sm. unfold val in Sm. rewrite Sm in C. destruct C as (C1 & C2 & _). unfold finite in Ff, Fg. rewrite Ff, Fg in C2. split; [exact C2 |].
    assert (V : val (fmul f g) = rnd (val f * val g)) by exact C1. rewrite V. split; [apply rnd_pos; lra |]. apply round_le_generic; [apply fexp_correct; reflexivity | apply valid_rnd_N | apply generic_format_bpow; unfold SpecFloat.fexp, SpecFloat.emin; lia | lra]. }
  destruct (M (f_of l 0) (fsub S a) (proj1 NL) FD l0 D0 129%Z 197%Z ltac:(lia) ltac:(lia) l1 D1) as (F1 & M1).
  destruct (M _ d F1 Fd (proj1 M1) (Rlt_le _ _ d0) (129 + 197)%Z 200%Z ltac:(lia) ltac:(lia) (proj2 M1) d1) as (F2 & M2).
  eexists. unfold u_tkn1reserve. rewrite Ea, ES. cbn [rbind]. split; [reflexivity |]. split; [exact F2 | apply M2].
Qed.
Lemma reserve_near : forall l s d pa, (0 <= l < 2 ^ 128)%Z -> root_price s -> factor d -> finite pa -> fits 98 (val pa) -> val pa <= val (u_p s d) ->
  let P := IZR (s ^ 2) / IZR (2 ^ 192) * val d in fits 98 P ->
  exists r, u_tkn1reserve l s d pa = Ret r /\ Rabs (val r - IZR l * (sqrt P - sqrt (val pa)) * val d) <= bpow radix2 (-49) * (IZR l * sqrt P * val d).
Proof.
  intros l s d pa Hl Hs Hd Fa Ga L P FP. destruct (near_u_p s d Hs Hd) as (N & _ & P0). destruct Hd as (Fd & Gd & d0).
  change (bpow radix2 (-192)) with (/ IZR (2 ^ 192)) in *. fold (Rdiv (IZR (s ^ 2)) (IZR (2 ^ 192))) in *. fold P in N, P0. pose proof (fits_pos _ _ Ga) as Pa.
  destruct (near_sqrt 2 _ _ N) as (S & ES & NS & VS); [apply few_small; lia | apply (fits_le 98 1000 _ ltac:(lia) FP) |].
  destruct (near_sqrt 0 _ _ (near_0 pa Fa Pa)) as (a & Ea & Na & Va); [apply few_small; lia | apply (fits_le 98 1000 _ ltac:(lia) Ga) |].
  assert (Le : val a <= val S) by (rewrite VS, Va; apply rnd_mono, sqrt_le_1_alt; exact L).
  assert (F1 : fits 49 (sqrt P)) by (apply (sqrt_fits 49 _ ltac:(lia) FP)). assert (F2 : fits 49 (sqrt (val pa))) by (apply (sqrt_fits 49 _ ltac:(lia) Ga)).
  assert (G1 : fits 50 (val S)) by (apply (fits_of_near 3 49 _ S NS); [apply few_small; lia | exact F1 | lia]). assert (G2 : fits 50 (val a)) by (apply (fits_of_near 1 49 _ a Na); [apply few_small; lia | exact F2 | lia]).
  destruct (sub_grid S a (proj1 NS) (proj1 Na) (fits_le 50 100 _ ltac:(lia) G1) (fits_le 50 100 _ ltac:(lia) G2)) as (X & _). destruct (X ltac:(lra)) as (ND & FD).
  assert (FL : fits 128 (IZR l)). { destruct (Z.eq_dec l 0) as [-> | Z0]; [left; reflexivity |]. right. split; [apply Rle_trans with 1; [change 1 with (bpow radix2 0); apply bpow_le; lia | apply IZR_le; lia] | change (bpow radix2 128) with (IZR (2 ^ 128)); apply IZR_le; lia]. }
  destruct (f_of_ok l 0) as (NL & _); [lia | change (bpow radix2 0) with 1; rewrite Rmult_1_r; apply (fits_le 128 1000 _ ltac:(lia) FL) |]. change (bpow radix2 0) with 1 in NL. rewrite Rmult_1_r in NL.
  set (D := val S - val a) in *. assert (F3 : fits 280 (IZR l * D)) by (apply (fits_mul 128 152); assumption). assert (F4 : fits 480 (IZR l * D * val d)) by (apply (fits_mul 280 200); assumption).
  assert (N1 : near 3 (IZR l * D) (fmul (f_of l 0) (fsub S a))) by (apply (near_mul 1 1); [exact NL | exact ND | apply few_small; lia | apply (fits_le 280 1000 _ ltac:(lia) F3)]).
  assert (N2 : near 4 (IZR l * D * val d) (fmul (fmul (f_of l 0) (fsub S a)) d)) by (apply (near_mul 3 0); [exact N1 | apply near_0; [exact Fd | lra] | apply few_small; lia | apply (fits_le 480 1000 _ ltac:(lia) F4)]).
  eexists. unfold u_tkn1reserve. rewrite Ea, ES. cbn [rbind]. split; [reflexivity |]. set (r := fmul (fmul (f_of l 0) (fsub S a)) d) in *.
  pose proof (near_abs _ _ _ N2 ltac:(lia)) as A. pose proof (near_abs _ _ _ NS ltac:(lia)) as B. pose proof (near_abs _ _ _ Na ltac:(lia)) as C.
  replace (INR 4) with 4 in A by (simpl; lra). replace (INR 3) with 3 in B by (simpl; lra). change (INR 1) with 1 in C.
  assert (e49 : bpow radix2 (-49) = 16 * u) by (unfold u; change 16 with (bpow radix2 4); rewrite <- bpow_plus; reflexivity). rewrite e49. pose proof u_pos as U. pose proof u_small as U1.
  pose proof (sqrt_pos P) as q0. pose proof (sqrt_pos (val pa)) as q1. pose proof (near_pos _ _ _ Na) as a0.
  set (p := sqrt P) in *. set (q := sqrt (val pa)) in *. assert (up : 0 <= u * p) by (apply Rmult_le_pos; lra). assert (up1 : u * p <= / 1024 * p) by (apply Rmult_le_compat_r; lra). assert (uq : 0 <= u * q) by (apply Rmult_le_pos; lra). assert (uq1 : u * q <= / 1024 * q) by (apply Rmult_le_compat_r; lra).
  apply Rabs_le_inv in B. apply Rabs_le_inv in C. assert (qp : q <= 1.01 * p) by lra. assert (uqp : u * q <= u * (1.01 * p)) by (apply Rmult_le_compat_l; lra).
  assert (E1 : Rabs (D - (p - q)) <= 4.1 * (u * p)) by (apply Rabs_le; unfold D; lra).
  assert (D1 : 0 <= D <= 1.01 * p) by (unfold D; lra). assert (D2 : u * D <= u * (1.01 * p)) by (apply Rmult_le_compat_l; lra).
  set (w := IZR l * val d). assert (w0 : 0 <= w) by (apply Rmult_le_pos; [apply IZR_le; lia | lra]).
  replace (IZR l * D * val d) with (w * D) in A by (unfold w; ring). replace (IZR l * (p - q) * val d) with (w * (p - q)) by (unfold w; ring). replace (IZR l * p * val d) with (w * p) by (unfold w; ring).
  assert (A' : Rabs (val r - w * D) <= w * (4.1 * (u * p))).
  { apply Rle_trans with (1 := A). replace (1.01 * 4 * u * (w * D)) with (w * (1.01 * 4 * (u * D))) by ring. apply Rmult_le_compat_l; [exact w0 |]. lra. }
  assert (E2 : Rabs (w * (D - (p - q))) <= w * (4.1 * (u * p))) by (rewrite Rabs_mult, (Rabs_pos_eq w) by exact w0; apply Rmult_le_compat_l; assumption).
  assert (W : 0 <= w * (u * p)) by (apply Rmult_le_pos; assumption).
  apply Rabs_le_inv in A'. apply Rabs_le_inv in E2. replace (16 * u * (w * p)) with (16 * (w * (u * p))) by ring. apply Rabs_le. lra.
Qed.
