(** Lemmas for FpUni3Props.v. *)
From Coq Require Import ZArith Reals Bool List Lia Lra.
From Flocq Require Import Core IEEE754.BinarySingleNaN IEEE754.Binary IEEE754.Bits.
From Verif Require Import CurveModel FpModel FpSpec FpProofs FpProofs2 FpProofs3 FpCpcSpec FpCpcProofs FpCpcProofs2 FpUniModel FpUniSpec FpUniProofs FpUni2Model FpUni2Proofs FpUni3Model.
Local Open Scope R_scope.

Lemma near_abs16 : forall n x f, near n x f -> (n <= 16)%nat -> Rabs (val f - x) <= 1.02 * INR n * u * x.
Proof.
  intros n x f N L. pose proof u_pos. pose proof u_small. apply le_INR in L. replace (INR 16) with 16 in L by (simpl; lra). pose proof (pos_INR n).
  assert (INR n * u <= 16 * u) by (apply Rmult_le_compat_r; lra). pose proof N as (_ & X0 & _). assert (0 <= INR n * u) by (apply Rmult_le_pos; lra).
  destruct (near_close_gen n x f (1.02 * INR n * u) N) as (_ & C); [lra | |].
  - apply Rmult_le_reg_r with (1 - INR n * u); [lra |]. replace (INR n * u / (1 - INR n * u) * (1 - INR n * u)) with (INR n * u) by (field; lra).
    replace (1.02 * INR n * u * (1 - INR n * u)) with (1.02 * (INR n * u) - 1.02 * (INR n * u * (INR n * u))) by ring.
    assert (INR n * u * (INR n * u) <= INR n * u * (16 / 1024)) by (apply Rmult_le_compat_l; lra). lra.
  - rewrite (Rabs_pos_eq x X0) in C. exact C.
Qed.
Lemma r0_strong : forall l s d pb, (0 <= l < 2 ^ 128)%Z -> root_price s -> factor d -> finite pb -> fits 98 (val pb) -> val (u_p s d) <= val pb ->
  let P := IZR (s ^ 2) / IZR (2 ^ 192) * val d in fits 98 P ->
  exists r X, u_tkn0reserve l s d pb = Ret r /\ near 10 X r /\ fits 578 X /\ X <= 1.01 * (IZR l / sqrt P * val d) /\ Rabs (X - IZR l * (/ sqrt P - / sqrt (val pb)) * val d) <= 4.1 * (u * (IZR l / sqrt P * val d)).
Proof.
  intros l s d pb Hl Hs Hd Fb Gb L P FP. destruct (near_u_p s d Hs Hd) as (N & _ & P0). destruct Hd as (Fd & Gd & d0).
  change (bpow radix2 (-192)) with (/ IZR (2 ^ 192)) in *. fold (Rdiv (IZR (s ^ 2)) (IZR (2 ^ 192))) in *. fold P in N, P0. pose proof (fits_pos _ _ Gb) as Pb.
  destruct (near_sqrt 2 _ _ N) as (S & ES & NS & VS); [apply few_small; lia | apply (fits_le 98 1000 _ ltac:(lia) FP) |].
  destruct (near_sqrt 0 _ _ (near_0 pb Fb Pb)) as (b & Eb & Nb & Vb); [apply few_small; lia | apply (fits_le 98 1000 _ ltac:(lia) Gb) |].
  assert (Le : val S <= val b) by (rewrite VS, Vb; apply rnd_mono, sqrt_le_1_alt; exact L).
  assert (F1 : fits 49 (sqrt P)) by (apply (sqrt_fits 49 _ ltac:(lia) FP)). assert (F2 : fits 49 (sqrt (val pb))) by (apply (sqrt_fits 49 _ ltac:(lia) Gb)).
  assert (G1 : fits 50 (val S)) by (apply (fits_of_near 3 49 _ S NS); [apply few_small; lia | exact F1 | lia]). assert (G2 : fits 50 (val b)) by (apply (fits_of_near 1 49 _ b Nb); [apply few_small; lia | exact F2 | lia]).
  destruct (sub_grid b S (proj1 Nb) (proj1 NS) (fits_le 50 100 _ ltac:(lia) G2) (fits_le 50 100 _ ltac:(lia) G1)) as (X & _). destruct (X ltac:(lra)) as (ND & FD).
  assert (FL : fits 128 (IZR l)). { destruct (Z.eq_dec l 0) as [-> | Z0]; [left; reflexivity |]. right. split; [apply Rle_trans with 1; [change 1 with (bpow radix2 0); apply bpow_le; lia | apply IZR_le; lia] | change (bpow radix2 128) with (IZR (2 ^ 128)); apply IZR_le; lia]. }
  destruct (f_of_ok l 0) as (NL & _); [lia | change (bpow radix2 0) with 1; rewrite Rmult_1_r; apply (fits_le 128 1000 _ ltac:(lia) FL) |]. change (bpow radix2 0) with 1 in NL. rewrite Rmult_1_r in NL.
  set (D := val b - val S) in *. pose proof (near_abs _ _ _ NS ltac:(lia)) as B. pose proof (near_abs _ _ _ Nb ltac:(lia)) as C.
  replace (INR 3) with 3 in B by (simpl; lra). change (INR 1) with 1 in C. pose proof u_pos as U. pose proof u_small as U1.
  assert (p0 : 0 < sqrt P) by (apply sqrt_lt_R0; exact P0). pose proof (sqrt_pos (val pb)) as q1. pose proof (near_pos _ _ _ NS) as S0.
  set (p := sqrt P) in *. set (q := sqrt (val pb)) in *. assert (up : 0 <= u * p) by (apply Rmult_le_pos; lra). assert (up1 : u * p <= / 1024 * p) by (apply Rmult_le_compat_r; lra). assert (uq : 0 <= u * q) by (apply Rmult_le_pos; lra). assert (uq1 : u * q <= / 1024 * q) by (apply Rmult_le_compat_r; lra).
  apply Rabs_le_inv in B. apply Rabs_le_inv in C. assert (pq : p <= 1.01 * q) by lra. assert (upq : u * p <= u * (1.01 * q)) by (apply Rmult_le_compat_l; lra).
  assert (q0 : 0 < q) by lra. assert (pq0 : 0 < p * q) by (apply Rmult_lt_0_compat; assumption).
  assert (F3 : fits 280 (IZR l * D)) by (apply (fits_mul 128 152); assumption). assert (F5 : fits 98 (p * q)) by (apply (fits_mul 49 49); assumption).
  assert (F6 : fits 378 (IZR l * D / (p * q))) by (apply (fits_div 280 98); assumption). assert (F4 : fits 578 (IZR l * D / (p * q) * val d)) by (apply (fits_mul 378 200); assumption).
  assert (N1 : near 3 (IZR l * D) (fmul (f_of l 0) (fsub b S))) by (apply (near_mul 1 1); [exact NL | exact ND | apply few_small; lia | apply (fits_le 280 1000 _ ltac:(lia) F3)]).
  assert (N3 : near 5 (p * q) (fmul S b)) by (apply (near_mul 3 1); [exact NS | exact Nb | apply few_small; lia | apply (fits_le 98 1000 _ ltac:(lia) F5)]).
  destruct (near_fdiv 3 5 _ _ _ _ N1 N3) as (z & Ez & Nz); [apply few_small; lia | exact pq0 | apply (fits_le 378 1000 _ ltac:(lia) F6) |]. change (near 9 (IZR l * D / (p * q)) z) in Nz.
  assert (N2 : near 10 (IZR l * D / (p * q) * val d) (fmul z d)) by (apply (near_mul 9 0); [exact Nz | apply near_0; [exact Fd | lra] | apply few_small; lia | apply (fits_le 578 1000 _ ltac:(lia) F4)]).
  assert (E1 : Rabs (D - (q - p)) <= 4.1 * (u * q)) by (apply Rabs_le; unfold D; lra).
  assert (D1 : 0 <= D <= 1.01 * q) by (unfold D; lra).
  set (w := IZR l * val d / (p * q)). assert (w0 : 0 <= w) by (apply Rmult_le_pos; [apply Rmult_le_pos; [apply IZR_le; lia | lra] | left; apply Rinv_0_lt_compat; exact pq0]).
  exists (fmul z d), (IZR l * D / (p * q) * val d). unfold u_tkn0reserve. rewrite Eb, ES. cbn [rbind]. rewrite Ez. cbn [rbind]. split; [reflexivity |]. split; [exact N2 |]. split; [exact F4 |].
  replace (IZR l * D / (p * q) * val d) with (w * D) by (unfold w; field; lra). replace (IZR l * (/ p - / q) * val d) with (w * (q - p)) by (unfold w; field; lra). replace (IZR l / p * val d) with (w * q) by (unfold w; field; lra).
  split; [replace (1.01 * (w * q)) with (w * (1.01 * q)) by ring; apply Rmult_le_compat_l; lra |].
  replace (w * D - w * (q - p)) with (w * (D - (q - p))) by ring. rewrite Rabs_mult, (Rabs_pos_eq w) by exact w0. replace (4.1 * (u * (w * q))) with (w * (4.1 * (u * q))) by ring. apply Rmult_le_compat_l; assumption.
Qed.
Lemma r1_strong : forall l s d pa, (0 <= l < 2 ^ 128)%Z -> root_price s -> factor d -> finite pa -> fits 98 (val pa) -> val pa <= val (u_p s d) ->
  let P := IZR (s ^ 2) / IZR (2 ^ 192) * val d in fits 98 P ->
  exists r X, u_tkn1reserve l s d pa = Ret r /\ near 4 X r /\ fits 480 X /\ X <= 1.01 * (IZR l * sqrt P * val d) /\ Rabs (X - IZR l * (sqrt P - sqrt (val pa)) * val d) <= 4.1 * (u * (IZR l * sqrt P * val d)).
Proof.
  intros l s d pa Hl Hs Hd Fa Ga L P FP. destruct (near_u_p s d Hs Hd) as (N & _ & P0). destruct Hd as (Fd & Gd & d0).
  change (bpow radix2 (-192)) with (/ IZR (2 ^ 192)) in *. fold (Rdiv (IZR (s ^ 2)) (IZR (2 ^ 192))) in *. fold P in N, P0. pose proof (fits_pos _ _ Ga) as Pa.
  destruct (near_sqrt 2 _ _ N) as (S & ES & NS & VS); [apply few_small; lia | apply (fits_le 98 1000 _ ltac:(lia) FP) |].
  destruct (near_sqrt 0 _ _ (near_0 pa Fa Pa)) as (a & Ea & Na & Va); [apply few_small; lia | apply (fits_le 98 1000 _ ltac:(lia) Ga) |].
  assert (Le : val a <= val S) by (rewrite VS, Va; apply rnd_mono, sqrt_le_1_alt; exact L).
  assert (F1 : fits 49 (sqrt P)) by (apply (sqrt_fits 49 _ ltac:(lia) FP)). assert (F2 : fits 49 (sqrt (val pa))) by (apply (sqrt_fits 49 _ ltac:(lia) Ga)).
  assert (G1 : fits 50 (val S)) by (apply (fits_of_near 3 49 _ S NS); [apply few_small; lia | exact F1 | lia]). assert (G2 : fits 50 (val a)) by (apply (fits_of_near 1 49 _ a Na); [apply few_small; lia | exact F2 | lia]).
  destruct (sub_grid S a (proj1 NS) (proj1 Na) (fits_le 50 100 _ ltac:(lia) G1) (fits_le 50 100 _ ltac:(lia) G2)) as (X & _). destruct (X ltac:(lra)) as (ND & FD).
  assert (FL : fits 128 (IZR l)). { destruct (Z.eq_dec l 0) as [-> | Z0]; [left; reflexivity |]. right. split; [apply Rle_trans with 1; [change 1 with (bpow radix2 0); apply bpow_le; lia | apply IZR_le; lia] | change (bpow radix2 128) with (IZR (2 ^ 128)); apply IZR_le; lia]. }
  destruct (f_of_ok l 0) as (NL & _); [lia | change (bpow radix2 0) with 1; rewrite Rmult_1_r; apply (fits_le 128 1000 _ ltac:(lia) FL) |]. change (bpow radix2 0) with 1 in NL. rewrite Rmult_1_r in NL.
  set (D := val S - val a) in *. assert (F3 : fits 280 (IZR l * D)) by (apply (fits_mul 128 152); assumption). assert (F4 : fits 480 (IZR l * D * val d)) by (apply (fits_mul 280 200); assumption).
  assert (N1 : near 3 (IZR l * D) (fmul (f_of l 0) (fsub S a))) by (apply (near_mul 1 1); [exact NL | exact ND | apply few_small; lia | apply (fits_le 280 1000 _ ltac:(lia) F3)]).
  assert (N2 : near 4 (IZR l * D * val d) (fmul (fmul (f_of l 0) (fsub S a)) d)) by (apply (near_mul 3 0); [exact N1 | apply near_0; [exact Fd | lra] | apply few_small; lia | apply (fits_le 480 1000 _ ltac:(lia) F4)]).
  pose proof (near_abs _ _ _ NS ltac:(lia)) as B. pose proof (near_abs _ _ _ Na ltac:(lia)) as C.
  replace (INR 3) with 3 in B by (simpl; lra). change (INR 1) with 1 in C.
  pose proof u_pos as U. pose proof u_small as U1.
  pose proof (sqrt_pos P) as q0. pose proof (sqrt_pos (val pa)) as q1. pose proof (near_pos _ _ _ Na) as a0.
  set (p := sqrt P) in *. set (q := sqrt (val pa)) in *. assert (up : 0 <= u * p) by (apply Rmult_le_pos; lra). assert (up1 : u * p <= / 1024 * p) by (apply Rmult_le_compat_r; lra). assert (uq : 0 <= u * q) by (apply Rmult_le_pos; lra). assert (uq1 : u * q <= / 1024 * q) by (apply Rmult_le_compat_r; lra).
  apply Rabs_le_inv in B. apply Rabs_le_inv in C. assert (qp : q <= 1.01 * p) by lra. assert (uqp : u * q <= u * (1.01 * p)) by (apply Rmult_le_compat_l; lra).
  assert (E1 : Rabs (D - (p - q)) <= 4.1 * (u * p)) by (apply Rabs_le; unfold D; lra).
  assert (D1 : 0 <= D <= 1.01 * p) by (unfold D; lra).
  set (w := IZR l * val d). assert (w0 : 0 <= w) by (apply Rmult_le_pos; [apply IZR_le; lia | lra]).
  exists (fmul (fmul (f_of l 0) (fsub S a)) d), (IZR l * D * val d). unfold u_tkn1reserve. rewrite Ea, ES. cbn [rbind]. split; [reflexivity |]. split; [exact N2 |]. split; [exact F4 |].
  replace (IZR l * D * val d) with (w * D) by (unfold w; ring). replace (IZR l * (p - q) * val d) with (w * (p - q)) by (unfold w; ring). replace (IZR l * p * val d) with (w * p) by (unfold w; ring).
  split; [replace (1.01 * (w * p)) with (w * (1.01 * p)) by ring; apply Rmult_le_compat_l; lra |].
  replace (w * D - w * (p - q)) with (w * (D - (p - q))) by ring. rewrite Rabs_mult, (Rabs_pos_eq w) by exact w0. replace (4.1 * (u * (w * p))) with (w * (4.1 * (u * p))) by ring. apply Rmult_le_compat_l; assumption.
Qed.
Lemma tvl_ok : forall l s d pa pb k, (0 <= l < 2 ^ 128)%Z -> root_price s -> factor d -> finite pa -> finite pb -> fits 98 (val pa) -> fits 98 (val pb) -> val pa <= val (u_p s d) <= val pb ->
  let P := IZR (s ^ 2) / IZR (2 ^ 192) * val d in fits 98 P ->
  let T := IZR l * (/ sqrt P - / sqrt (val pb)) * val d + IZR l * (sqrt P - sqrt (val pa)) * val d / P in
  let E := IZR l / sqrt P * val d in
  exists t, u_tvl l s d pa pb k = Ret t /\ finite t /\ 0 <= val t /\ Rabs (val t - (if k then T else T * P)) <= bpow radix2 (-47) * (if k then E else E * P).
Proof.
  intros l s d pa pb k Hl Hs Hd Fa Fb Ga Gb (La & Lb) P FP T E.
  destruct (r0_strong l s d pb Hl Hs Hd Fb Gb Lb FP) as (r0 & X0 & E0 & N0 & F0 & U0 & A0). destruct (r1_strong l s d pa Hl Hs Hd Fa Ga La FP) as (r1 & X1 & E1 & N1 & F1 & U1 & A1). fold P in U0, A0, U1, A1. fold E in U0, A0.
  destruct (near_u_p s d Hs Hd) as (N & _ & P0). change (bpow radix2 (-192)) with (/ IZR (2 ^ 192)) in *. fold (Rdiv (IZR (s ^ 2)) (IZR (2 ^ 192))) in *. fold P in N, P0.
  assert (FI : fits 98 (/ P)) by (apply fits_inv; assumption).
  destruct (near_fdiv 0 2 1 P fone (u_p s d) near_one N) as (i & Ei & Ni); [apply few_small; lia | exact P0 | unfold Rdiv; rewrite Rmult_1_l; apply (fits_le 98 1000 _ ltac:(lia) FI) |].
  unfold Rdiv in Ni. rewrite Rmult_1_l in Ni. change (near 3 (/ P) i) in Ni.
  assert (F2 : fits 578 (X1 * / P)) by (apply (fits_mul 480 98); assumption).
  assert (N2 : near 8 (X1 * / P) (fmul r1 i)) by (apply (near_mul 4 3); [exact N1 | exact Ni | apply few_small; lia | apply (fits_le 578 1000 _ ltac:(lia) F2)]).
  assert (F3 : fits 579 (X0 + X1 * / P)) by (apply (fits_add 578); [lia | assumption | assumption]).
  assert (N3 : near 11 (X0 + X1 * / P) (fadd r0 (fmul r1 i))) by (apply near_add; [exact N0 | apply (near_weaken 8 10); [lia | exact N2] | apply few_small; lia | apply (fits_le 579 1000 _ ltac:(lia) F3)]).
  assert (N4 : near 14 ((X0 + X1 * / P) * P) (fmul (fadd r0 (fmul r1 i)) (u_p s d))) by (apply (near_mul 11 2); [exact N3 | exact N | apply few_small; lia | apply (fits_le 677 1000 _ ltac:(lia)); apply (fits_mul 579 98); assumption]).
  pose proof u_pos as U. assert (p0 : 0 < sqrt P) by (apply sqrt_lt_R0; exact P0). assert (PP : sqrt P * sqrt P = P) by (apply sqrt_sqrt; lra). assert (I0 : 0 < / P) by (apply Rinv_0_lt_compat; exact P0).
  destruct Hd as (_ & _ & d0).
  assert (EE : IZR l * sqrt P * val d * / P = E) by (unfold E; rewrite <- PP at 2; field; lra).
  assert (e0 : 0 <= E) by (unfold E; apply Rmult_le_pos; [apply Rmult_le_pos; [apply IZR_le; lia | left; apply Rinv_0_lt_compat; exact p0] | lra]).
  assert (U1' : X1 * / P <= 1.01 * E) by (rewrite <- EE; replace (1.01 * (IZR l * sqrt P * val d * / P)) with (1.01 * (IZR l * sqrt P * val d) * / P) by ring; apply Rmult_le_compat_r; lra).
  assert (A1' : Rabs (X1 * / P - IZR l * (sqrt P - sqrt (val pa)) * val d / P) <= 4.1 * (u * E)).
  { replace (X1 * / P - IZR l * (sqrt P - sqrt (val pa)) * val d / P) with ((X1 - IZR l * (sqrt P - sqrt (val pa)) * val d) * / P) by (unfold Rdiv; ring). rewrite Rabs_mult, (Rabs_pos_eq (/ P)) by lra.
    rewrite <- EE. replace (4.1 * (u * (IZR l * sqrt P * val d * / P))) with (4.1 * (u * (IZR l * sqrt P * val d)) * / P) by ring. apply Rmult_le_compat_r; lra. }
  set (Y := X0 + X1 * / P) in *. assert (Y0 : 0 <= Y) by apply N3. assert (YU : u * Y <= u * (2.02 * E)) by (apply Rmult_le_compat_l; unfold Y; lra). assert (ue : 0 <= u * E) by (apply Rmult_le_pos; lra).
  assert (YT : Rabs (Y - T) <= 8.2 * (u * E)) by (apply Rabs_le_inv in A0; apply Rabs_le_inv in A1'; apply Rabs_le; unfold Y, T; lra). apply Rabs_le_inv in YT.
  assert (e47 : bpow radix2 (-47) = 64 * u) by (unfold u; change 64 with (bpow radix2 6); rewrite <- bpow_plus; reflexivity). rewrite e47.
  pose proof (near_abs16 _ _ _ N3 ltac:(lia)) as B3. pose proof (near_abs16 _ _ _ N4 ltac:(lia)) as B4. replace (INR 11) with 11 in B3 by (simpl; lra). replace (INR 14) with 14 in B4 by (simpl; lra). apply Rabs_le_inv in B3. apply Rabs_le_inv in B4.
  eexists. unfold u_tvl, u_p_inv. rewrite E0, E1. cbn [rbind]. rewrite Ei. cbn [rbind]. split; [reflexivity |]. destruct k.
  - split; [apply N3 |]. split; [apply (near_pos _ _ _ N3) |]. apply Rabs_le. lra.
  - split; [apply N4 |]. split; [apply (near_pos _ _ _ N4) |].
    assert (Q1 : u * Y * P <= u * (2.02 * E) * P) by (apply Rmult_le_compat_r; lra). assert (Q2 : (Y - T) * P <= 8.2 * (u * E) * P) by (apply Rmult_le_compat_r; lra). assert (Q3 : - (8.2 * (u * E)) * P <= (Y - T) * P) by (apply Rmult_le_compat_r; lra). assert (Q4 : 0 <= u * E * P) by (apply Rmult_le_pos; lra).
    apply Rabs_le. lra.
Qed.
