(** Lemmas for FpUni2Props.v. *)
From Coq Require Import ZArith Reals Bool List Lia Lra.
From Flocq Require Import Core IEEE754.BinarySingleNaN IEEE754.Binary IEEE754.Bits.
From Verif Require Import CurveModel FpModel FpSpec FpProofs FpProofs2 FpProofs3 FpCpcSpec FpCpcProofs FpCpcProofs2 FpUniModel FpUniSpec FpUniProofs FpUni2Model.
Local Open Scope R_scope.

Lemma near_abs10 : forall n x f, near n x f -> (n <= 10)%nat -> Rabs (val f - x) <= 1.01 * INR n * u * x.
Proof.
  intros n x f N L. pose proof u_pos. pose proof u_small. apply le_INR in L. replace (INR 10) with 10 in L by (simpl; lra). pose proof (pos_INR n).
  assert (INR n * u <= 10 * u) by (apply Rmult_le_compat_r; lra). pose proof N as (_ & X0 & _). assert (0 <= INR n * u) by (apply Rmult_le_pos; lra).
  destruct (near_close_gen n x f (1.01 * INR n * u) N) as (_ & C); [lra | |].
  - apply Rmult_le_reg_r with (1 - INR n * u); [lra |]. replace (INR n * u / (1 - INR n * u) * (1 - INR n * u)) with (INR n * u) by (field; lra).
    replace (1.01 * INR n * u * (1 - INR n * u)) with (1.01 * (INR n * u) - 1.01 * (INR n * u * (INR n * u))) by ring.
    assert (INR n * u * (INR n * u) <= INR n * u * (10 / 1024)) by (apply Rmult_le_compat_l; lra). lra.
  - rewrite (Rabs_pos_eq x X0) in C. exact C.
Qed.
Lemma reserve0_near : forall l s d pb, (0 <= l < 2 ^ 128)%Z -> root_price s -> factor d -> finite pb -> fits 98 (val pb) -> val (u_p s d) <= val pb ->
  let P := IZR (s ^ 2) / IZR (2 ^ 192) * val d in fits 98 P ->
  exists r, u_tkn0reserve l s d pb = Ret r /\ finite r /\ 0 <= val r /\ Rabs (val r - IZR l * (/ sqrt P - / sqrt (val pb)) * val d) <= bpow radix2 (-49) * (IZR l / sqrt P * val d).
Proof.
  intros l s d pb Hl Hs Hd Fb Gb L P FP. destruct (near_u_p s d Hs Hd) as (N & _ & P0). destruct Hd as (Fd & Gd & d0).
  change (bpow radix2 (-192)) with (/ IZR (2 ^ 192)) in *. fold (Rdiv (IZR (s ^ 2)) (IZR (2 ^ 192))) in *. fold P in N, P0. pose proof (fits_pos _ _ Gb) as Pb.
  destruct (near_sqrt 2 _ _ N) as (S & ES & NS & VS); [apply few_small; lia | apply (fits_le 98 1000 _ ltac:(lia) FP) |].
  destruct (near_sqrt 0 _ _ (near_0 pb Fb Pb)) as (b & Eb & Nb & Vb); [apply few_small; lia | apply (fits_le 98 1000 _ ltac:(lia) Gb) |].
  assert (Le : val S <= val b) by (rewrite VS, Vb; apply rnd_mono, sqrt_le_1_alt; exact L).
  assert (F1 : fits 49 (sqrt P)) by (apply (sqrt_fits 49 _ ltac:(lia) FP)). assert (F2 : fits 49 (sqrt (val pb))) by (apply (sqrt_fits 49 _ ltac:(lia) Gb)).
  assert (G1 : fits 50 (val S)) by (apply (fits_of_near 3 49 _ S NS); [apply few_small; lia | exact F1 | lia]). assert (G2 : fits 50 (val b)) by (apply (fits_of_near 1 49 _ b Nb); [apply few_small; lia | exact F2 | lia]).
  destruct (sub_grid b S (proj1 Nb) (proj1 NS) (fits_le 50 100 _ ltac:(lia) G2) (fits_le 50 100 _ ltac:(lia) G1)) as (X & _). destruct (X ltac:(lra)) as (ND & FD).
  assert (FL : fits 128 (IZR l)). { destruct (Z.eq_dec l 0) as [-> | Z0]; [left; reflexivity |]. right. split; [apply Rle_trans with 1; [change 1 with (bpow radix2 0); apply bpow_le; lia | apply IZR_le; lia] | change (bpow radix2 128) with (IZR (2 ^ 128)); apply IZR_le; lia]. }
  destruct (f_of_ok l 0) as (NL & _); [lia | change (bpow radix2 0) with 1; rewrite Rmult_1_r; apply (fits_le 128 1000 _ ltac:(lia) FL) |]. change (bpow radix2 0) with 1 in NL. rewrite Rmult_1_r in NL.
  set (D := val b - val S) in *. pose proof (near_abs _ _ _ NS ltac:(lia)) as B. pose proof (near_abs _ _ _ Nb ltac:(lia)) as C.
  replace (INR 3) with 3 in B by (simpl; lra). change (INR 1) with 1 in C. pose proof u_pos as U. pose proof u_small as U1.
  assert (p0 : 0 < sqrt P) by (apply sqrt_lt_R0; exact P0). pose proof (sqrt_pos (val pb)) as q1. pose proof (near_pos _ _ _ NS) as S0.
  set (p := sqrt P) in *. set (q := sqrt (val pb)) in *. assert (up : 0 <= u * p) by (apply Rmult_le_pos; lra). assert (up1 : u * p <= / 1024 * p) by (apply Rmult_le_compat_r; lra). assert (uq : 0 <= u * q) by (apply Rmult_le_pos; lra). assert (uq1 : u * q <= / 1024 * q) by (apply Rmult_le_compat_r; lra).
  apply Rabs_le_inv in B. apply Rabs_le_inv in C. assert (pq : p <= 1.01 * q) by lra. assert (upq : u * p <= u * (1.01 * q)) by (apply Rmult_le_compat_l; lra).
  assert (q0 : 0 < q) by lra. assert (pq0 : 0 < p * q) by (apply Rmult_lt_0_compat; assumption).
  assert (F3 : fits 280 (IZR l * D)) by (apply (fits_mul 128 152); assumption). assert (F5 : fits 98 (p * q)) by (apply (fits_mul 49 49); assumption).
  assert (F6 : fits 378 (IZR l * D / (p * q))) by (apply (fits_div 280 98); assumption). assert (F4 : fits 578 (IZR l * D / (p * q) * val d)) by (apply (fits_mul 378 200); assumption).
  assert (N1 : near 3 (IZR l * D) (fmul (f_of l 0) (fsub b S))) by (apply (near_mul 1 1); [exact NL | exact ND | apply few_small; lia | apply (fits_le 280 1000 _ ltac:(lia) F3)]).
  assert (N3 : near 5 (p * q) (fmul S b)) by (apply (near_mul 3 1); [exact NS | exact Nb | apply few_small; lia | apply (fits_le 98 1000 _ ltac:(lia) F5)]).
  destruct (near_fdiv 3 5 _ _ _ _ N1 N3) as (z & Ez & Nz); [apply few_small; lia | exact pq0 | apply (fits_le 378 1000 _ ltac:(lia) F6) |]. change (near 9 (IZR l * D / (p * q)) z) in Nz.
  assert (N2 : near 10 (IZR l * D / (p * q) * val d) (fmul z d)) by (apply (near_mul 9 0); [exact Nz | apply near_0; [exact Fd | lra] | apply few_small; lia | apply (fits_le 578 1000 _ ltac:(lia) F4)]).
  exists (fmul z d). unfold u_tkn0reserve. rewrite Eb, ES. cbn [rbind]. rewrite Ez. cbn [rbind]. split; [reflexivity |]. split; [apply N2 |]. split; [apply (near_pos _ _ _ N2) |].
  pose proof (near_abs10 _ _ _ N2 ltac:(lia)) as A. replace (INR 10) with 10 in A by (simpl; lra).
  assert (e49 : bpow radix2 (-49) = 16 * u) by (unfold u; change 16 with (bpow radix2 4); rewrite <- bpow_plus; reflexivity). rewrite e49.
  assert (E1 : Rabs (D - (q - p)) <= 4.1 * (u * q)) by (apply Rabs_le; unfold D; lra).
  assert (D1 : 0 <= D <= 1.01 * q) by (unfold D; lra). assert (D2 : u * D <= u * (1.01 * q)) by (apply Rmult_le_compat_l; lra).
  set (w := IZR l * val d / (p * q)). assert (w0 : 0 <= w) by (apply Rmult_le_pos; [apply Rmult_le_pos; [apply IZR_le; lia | lra] | left; apply Rinv_0_lt_compat; exact pq0]).
  replace (IZR l * D / (p * q) * val d) with (w * D) in A by (unfold w; field; lra). replace (IZR l * (/ p - / q) * val d) with (w * (q - p)) by (unfold w; field; lra). replace (IZR l / p * val d) with (w * q) by (unfold w; field; lra).
  assert (A' : Rabs (val (fmul z d) - w * D) <= w * (10.3 * (u * q))).
  { apply Rle_trans with (1 := A). replace (1.01 * 10 * u * (w * D)) with (w * (1.01 * 10 * (u * D))) by ring. apply Rmult_le_compat_l; [exact w0 |]. lra. }
  assert (E2 : Rabs (w * (D - (q - p))) <= w * (4.1 * (u * q))) by (rewrite Rabs_mult, (Rabs_pos_eq w) by exact w0; apply Rmult_le_compat_l; assumption).
  assert (W : 0 <= w * (u * q)) by (apply Rmult_le_pos; assumption).
  apply Rabs_le_inv in A'. apply Rabs_le_inv in E2. replace (16 * u * (w * q)) with (16 * (w * (u * q))) by ring. apply Rabs_le. lra.
Qed.
(** at the upper end of the range the reserve vanishes exactly *)
Lemma reserve0_end : forall l s d, (0 <= l < 2 ^ 128)%Z -> root_price s -> factor d -> fits 98 (val (u_p s d)) -> fits 98 (IZR (s ^ 2) / IZR (2 ^ 192) * val d) -> exists r, u_tkn0reserve l s d (u_p s d) = Ret r /\ val r = 0.
Proof.
  intros l s d Hl Hs Hd G FP. destruct (near_u_p s d Hs Hd) as (N & _ & P0). destruct Hd as (Fd & Gd & d0).
  change (bpow radix2 (-192)) with (/ IZR (2 ^ 192)) in *. fold (Rdiv (IZR (s ^ 2)) (IZR (2 ^ 192))) in *. set (P := IZR (s ^ 2) / IZR (2 ^ 192) * val d) in *.
  destruct (near_sqrt 2 _ _ N) as (S & ES & NS & VS); [apply few_small; lia | apply (fits_le 98 1000 _ ltac:(lia) FP) |].
  assert (F1 : fits 49 (sqrt P)) by (apply (sqrt_fits 49 _ ltac:(lia) FP)).
  assert (G1 : fits 50 (val S)) by (apply (fits_of_near 3 49 _ S NS); [apply few_small; lia | exact F1 | lia]).
  destruct (sub_grid S S (proj1 NS) (proj1 NS) (fits_le 50 100 _ ltac:(lia) G1) (fits_le 50 100 _ ltac:(lia) G1)) as (X & _). destruct (X ltac:(lra)) as (ND & _). rewrite Rminus_diag_eq in ND by reflexivity.
  assert (Z0 : fits 1000 0) by (left; reflexivity).
  assert (FL : fits 128 (IZR l)). { destruct (Z.eq_dec l 0) as [-> | ?]; [left; reflexivity |]. right. split; [apply Rle_trans with 1; [change 1 with (bpow radix2 0); apply bpow_le; lia | apply IZR_le; lia] | change (bpow radix2 128) with (IZR (2 ^ 128)); apply IZR_le; lia]. }
  destruct (f_of_ok l 0) as (NL & _); [lia | change (bpow radix2 0) with 1; rewrite Rmult_1_r; apply (fits_le 128 1000 _ ltac:(lia) FL) |].
  assert (p0 : 0 < sqrt P) by (apply sqrt_lt_R0; exact P0). assert (pq0 : 0 < sqrt P * sqrt P) by (apply Rmult_lt_0_compat; assumption).
  assert (N1 := near_mul 1 1 _ _ _ _ NL ND (few_small 2 ltac:(lia))). rewrite Rmult_0_r in N1. specialize (N1 Z0).
  assert (N3 := near_mul 3 3 _ _ _ _ NS NS (few_small 6 ltac:(lia)) (fits_le 98 1000 _ ltac:(lia) (fits_mul 49 49 _ _ F1 F1))).
  destruct (near_fdiv 3 7 _ _ _ _ N1 N3) as (z & Ez & Nz); [apply few_small; lia | exact pq0 | unfold Rdiv; rewrite Rmult_0_l; exact Z0 |]. unfold Rdiv in Nz. rewrite Rmult_0_l in Nz.
  assert (N4 := near_mul 11 0 _ _ _ _ Nz (near_0 d Fd (Rlt_le _ _ d0)) (few_small 11 ltac:(lia))). rewrite Rmult_0_l in N4. specialize (N4 Z0).
  exists (fmul z d). unfold u_tkn0reserve. rewrite ES. cbn [rbind]. rewrite Ez. cbn [rbind]. split; [reflexivity |].
  pose proof (near_pos _ _ _ N4). destruct N4 as (_ & _ & _ & K). rewrite Rmult_0_l in K. lra.
Qed.
