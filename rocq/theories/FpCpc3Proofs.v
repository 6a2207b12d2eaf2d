(** Lemmas for FpCpc3Props.v. *)
From Coq Require Import ZArith Reals Bool List Lia Lra.
From Flocq Require Import Core IEEE754.BinarySingleNaN IEEE754.Binary IEEE754.Bits.
From Verif Require Import CurveModel FpModel FpSpec FpProofs FpProofs2 FpProofs3 FpCpcModel FpCpcSpec FpCpcProofs FpCpcProofs2 FpCpc2Model FpCpc2Spec FpCpc2Proofs FpCpc3Model FpCpc3Spec.
Local Open Scope R_scope.

Lemma price_fits : forall p, price p -> fits 90 (val p) /\ 0 < val p.
Proof. intros p (_ & H). pose proof (bpow_gt_0 radix2 (-90)). split; [right; exact H | lra]. Qed.
(** the part after the prices have been put in order *)
Definition root_pair (pa pb : fl) : res (fl * fl) := let* sa := fsqrt pa in let* sb := fsqrt pb in Ret (fsub sa sb, sb).
Lemma roots_gen : forall n pa pb P Q, (n <= 1)%nat -> near n P pa -> near n Q pb -> Q <= P -> val pb <= val pa -> fits 92 P -> fits 92 Q -> 0 < P -> 0 < Q ->
  exists A B, root_pair pa pb = Ret (A, B) /\ finite A /\ finite B /\ 0 <= val A /\
    Rabs (val A - (sqrt P - sqrt Q)) <= (2.02 * INR (S n) + 1.01) * u * sqrt P /\ near (S n) (sqrt Q) B.
Proof.
  intros n pa pb P Q Hn Na Nb QP Hab FP FQ P0 Q0.
  destruct (near_sqrt n P pa Na) as (sa & Ea & Nsa & Va); [apply few_small; lia | apply (fits_le 92 1000 _ ltac:(lia) FP) |].
  destruct (near_sqrt n Q pb Nb) as (sb & Eb & Nsb & Vb); [apply few_small; lia | apply (fits_le 92 1000 _ ltac:(lia) FQ) |].
  assert (Le : val sb <= val sa) by (rewrite Va, Vb; apply rnd_mono, sqrt_le_1_alt; exact Hab).
  assert (F1 : fits 50 (sqrt P)) by (apply (sqrt_fits 50 _ ltac:(lia) (fits_le 92 100 _ ltac:(lia) FP))).
  assert (F2 : fits 50 (sqrt Q)) by (apply (sqrt_fits 50 _ ltac:(lia) (fits_le 92 100 _ ltac:(lia) FQ))).
  pose proof (near_pos _ _ _ Nsa) as p1. pose proof (near_pos _ _ _ Nsb) as p2.
  destruct (sub_ok sa sb (proj1 Nsa) (proj1 Nsb) p1 p2) as (FA & VA & EA); [apply (near_up (S n) _ sa 50 Nsa); [lia | exact F1 | lia] | apply (near_up (S n) _ sb 50 Nsb); [lia | exact F2 | lia] |].
  exists (fsub sa sb), sb. unfold root_pair. rewrite Ea, Eb. cbn [rbind]. split; [reflexivity |]. split; [exact FA |]. split; [apply Nsb |].
  split; [rewrite VA; apply rnd_pos; lra |]. split; [| exact Nsb].
  assert (SL : sqrt Q <= sqrt P) by (apply sqrt_le_1_alt; exact QP). pose proof (sqrt_pos Q) as q0.
  set (a := sqrt P) in *. set (b := sqrt Q) in *. pose proof u_pos as U. pose proof u_small as U1.
  pose proof (near_abs _ _ _ Nsa ltac:(lia)) as A1. pose proof (near_abs _ _ _ Nsb ltac:(lia)) as B1. fold a in A1. fold b in B1.
  assert (UP : 0 <= u * a) by (apply Rmult_le_pos; lra). assert (UQ : u * b <= u * a) by (apply Rmult_le_compat_l; lra). assert (UP1 : u * a <= / 1024 * a) by (apply Rmult_le_compat_r; lra).
  assert (N2 : INR (S n) = 1 \/ INR (S n) = 2) by (destruct n as [| [|]]; [left; reflexivity | right; simpl; lra | lia]).
  set (i := INR (S n)) in *.
  assert (A2 : Rabs (val sa - a) <= 1.01 * i * (u * a)) by lra.
  assert (B2 : Rabs (val sb - b) <= 1.01 * i * (u * a)) by (destruct N2 as [-> | ->] in *; lra).
  assert (D : Rabs (val sa - val sb) <= 1.01 * a).
  { rewrite Rabs_pos_eq by lra. apply Rabs_le_inv in A2. destruct N2 as [E | E]; rewrite E in *; lra. }
  assert (EA' : Rabs (val (fsub sa sb) - (val sa - val sb)) <= u * (1.01 * a)) by (apply Rle_trans with (1 := EA), Rmult_le_compat_l; lra).
  apply Rabs_le_inv in A2. apply Rabs_le_inv in B2. apply Rabs_le_inv in EA'. apply Rabs_le. destruct N2 as [E | E]; rewrite E in *; lra.
Qed.
Lemma rlt_t : forall a b, a < b -> rlt a b = true. Proof. intros a b H. unfold rlt. destruct (Rlt_dec a b); [reflexivity | lra]. Qed.
Lemma rlt_f : forall a b, b <= a -> rlt a b = false. Proof. intros a b H. unfold rlt. destruct (Rlt_dec a b); [lra | reflexivity]. Qed.
Lemma prices_ordered : forall pa pb, finite pa -> finite pb -> val pb < val pa -> fc_prices false pa pb = root_pair pa pb.
Proof.
  intros pa pb Fa Fb H. unfold fc_prices, root_pair. cbn [rbind]. rewrite (feq_correct pa pb Fa Fb). unfold req. destruct (Req_EM_T (val pa) (val pb)); [lra |]. cbn [rbind].
  rewrite (flt_correct pb pa Fb Fa), rlt_t by exact H. reflexivity.
Qed.
Lemma prices_refused : forall pa pb, finite pa -> finite pb -> val pa < val pb -> fc_prices false pa pb = Raise AssertionError.
Proof.
  intros pa pb Fa Fb H. unfold fc_prices. cbn [rbind]. rewrite (feq_correct pa pb Fa Fb). unfold req. destruct (Req_EM_T (val pa) (val pb)); [lra |]. cbn [rbind].
  rewrite (flt_correct pb pa Fb Fa), rlt_f by lra. reflexivity.
Qed.
Lemma price_near : forall p, price p -> near 0 (val p) p.
Proof. intros p Hp. destruct (price_fits _ Hp). apply near_0; [apply Hp | lra]. Qed.
Lemma prices_ok : forall pa pb, price pa -> price pb -> val pb < val pa -> roots_of (-51) (fc_prices false pa pb) (val pa) (val pb).
Proof.
  intros pa pb Ha Hb H. destruct (price_fits _ Ha) as (Ga & a0). destruct (price_fits _ Hb) as (Gb & b0). rewrite (prices_ordered pa pb (proj1 Ha) (proj1 Hb) H).
  destruct (roots_gen 0 pa pb (val pa) (val pb)) as (A & B & E & FA & FB & A0 & EA & NB); try assumption; [lia | apply price_near; assumption | apply price_near; assumption | lra | lra | apply (fits_le 90 92 _ ltac:(lia) Ga) | apply (fits_le 90 92 _ ltac:(lia) Gb) |].
  exists A, B. repeat (split; [assumption |]). pose proof u_pos. pose proof (sqrt_pos (val pa)). pose proof (sqrt_pos (val pb)).
  assert (0 <= u * sqrt (val pa)) by (apply Rmult_le_pos; lra). assert (0 <= u * sqrt (val pb)) by (apply Rmult_le_pos; lra).
  pose proof (near_abs _ _ _ NB ltac:(lia)) as EB. change (INR 1) with 1 in EA, EB. rewrite u51. split; lra.
Qed.
(** prices that are not next to each other *)
Lemma prices_apart : forall pa pb A B, price pa -> price pb -> val pb * (1 + bpow radix2 (-50)) <= val pa -> fc_prices false pa pb = Ret (A, B) -> amount A.
Proof.
  intros pa pb A B Ha Hb H E. destruct (price_fits _ Ha) as (Ga & a0). destruct (price_fits _ Hb) as (Gb & b0). rewrite u50 in H. pose proof u_pos as U. pose proof u_small as U1.
  assert (L : val pb < val pa) by (assert (0 < val pb * (8 * u)) by (apply Rmult_lt_0_compat; lra); lra).
  rewrite (prices_ordered pa pb (proj1 Ha) (proj1 Hb) L) in E.
  destruct (roots_gen 0 pa pb (val pa) (val pb)) as (A' & B' & E' & FA & FB & A0 & EA & NB); try assumption; [lia | apply price_near; assumption | apply price_near; assumption | lra | lra | apply (fits_le 90 92 _ ltac:(lia) Ga) | apply (fits_le 90 92 _ ltac:(lia) Gb) |].
  rewrite E in E'. injection E' as <- <-. change (INR 1) with 1 in EA.
  assert (SP : sqrt (val pa) * sqrt (val pa) = val pa) by (apply sqrt_sqrt; lra). assert (SQ : sqrt (val pb) * sqrt (val pb) = val pb) by (apply sqrt_sqrt; lra).
  assert (S0 : 0 < sqrt (val pa)) by (apply sqrt_lt_R0; exact a0). assert (S1 : 0 < sqrt (val pb)) by (apply sqrt_lt_R0; exact b0).
  assert (SL : sqrt (val pb) <= sqrt (val pa)) by (apply sqrt_le_1_alt; lra).
  assert (F1 : bpow radix2 (-45) <= sqrt (val pa) <= bpow radix2 45).
  { assert (F : fits 45 (sqrt (val pa))) by (apply (sqrt_fits 45 _ ltac:(lia) Ga)). destruct F as [F | F]; [lra | exact F]. }
  set (a := sqrt (val pa)) in *. set (b := sqrt (val pb)) in *. rewrite <- SP, <- SQ in H.
  (* b <= a * (1 - 3.5 u) *)
  assert (K : b <= a * (1 - 39 / 10 * u)).
  { destruct (Rle_lt_dec b (a * (1 - 39 / 10 * u))) as [X | X]; [exact X |]. exfalso.
    assert (Y : a * (1 - 39 / 10 * u) * (a * (1 - 39 / 10 * u)) < b * b) by (apply Rmult_le_0_lt_compat; try (apply Rmult_le_pos); lra).
    assert (Z : a * a * ((1 - 39 / 10 * u) * (1 - 39 / 10 * u) * (1 + 8 * u)) < a * a).
    { apply Rlt_le_trans with (b * b * (1 + 8 * u)); [| exact H]. replace (a * a * ((1 - 39 / 10 * u) * (1 - 39 / 10 * u) * (1 + 8 * u))) with (a * (1 - 39 / 10 * u) * (a * (1 - 39 / 10 * u)) * (1 + 8 * u)) by ring. apply Rmult_lt_compat_r; lra. }
    assert (W : 1 <= (1 - 39 / 10 * u) * (1 - 39 / 10 * u) * (1 + 8 * u)).
    { assert (u * u <= / 1024 * u) by (apply Rmult_le_compat_r; lra). assert (0 <= u * u * u) by (apply Rmult_le_pos; [apply Rmult_le_pos |]; lra).
      replace ((1 - 39 / 10 * u) * (1 - 39 / 10 * u) * (1 + 8 * u)) with (1 + 2 / 10 * u - 4719 / 100 * (u * u) + 12168 / 100 * (u * u * u)) by field. lra. }
    assert (a * a * 1 <= a * a * ((1 - 39 / 10 * u) * (1 - 39 / 10 * u) * (1 + 8 * u))) by (apply Rmult_le_compat_l; [apply Rmult_le_pos; lra | exact W]). lra. }
  assert (UA : 0 < u * a) by (apply Rmult_lt_0_compat; lra). assert (UA1 : u * a <= / 1024 * a) by (apply Rmult_le_compat_r; lra). apply Rabs_le_inv in EA.
  assert (LO : / 2 * (u * a) <= val A) by lra. assert (HI : val A <= 2 * a) by lra.
  split; [exact FA |]. split; [lra |]. right. split.
  - apply Rle_trans with (/ 2 * (u * bpow radix2 (-45))); [| apply Rle_trans with (2 := LO); apply Rmult_le_compat_l; [lra |]; apply Rmult_le_compat_l; lra].
    change (/ 2) with (bpow radix2 (-1)). unfold u. rewrite <- !bpow_plus. apply bpow_le. lia.
  - apply Rle_trans with (1 := HI). apply Rle_trans with (2 * bpow radix2 45); [lra |]. change 2 with (bpow radix2 1) at 1. rewrite <- bpow_plus. apply bpow_le. lia.
Qed.
(** equal prices are moved apart *)
Lemma widen_val : 1 + bpow radix2 (-24) <= val fwiden <= 1 + bpow radix2 (-23).
Proof. unfold val, B2R, fwiden, F2R, cond_Zopp. cbn [Fnum Fexp]. simpl (bpow _ _). lra. Qed.
Lemma prices_equal : forall pa pb, price pa -> price pb -> val pa = val pb -> let p := val pa in let w := val fwiden in
  exists A B, fc_prices false pa pb = Ret (A, B) /\ amount A /\ finite B /\
    Rabs (val A - (sqrt (p * w) - sqrt (p / w))) <= bpow radix2 (-25) * (sqrt (p * w) - sqrt (p / w)) /\ Rabs (val B - sqrt (p / w)) <= bpow radix2 (-51) * sqrt (p / w).
Proof.
  intros pa pb Ha Hb Eq p w. destruct (price_fits _ Ha) as (Ga & a0). destruct (price_fits _ Hb) as (Gb & b0). fold p in Ga, a0. pose proof u_pos as U. pose proof u_small as U1.
  assert (U2 : u <= / 1024 * bpow radix2 (-24)) by (change (/ 1024) with (bpow radix2 (-10)); unfold u; rewrite <- bpow_plus; apply bpow_le; lia).
  assert (e24 : 0 < bpow radix2 (-24) <= / 1024) by (split; [apply bpow_gt_0 | change (/ 1024) with (bpow radix2 (-10)); apply bpow_le; lia]).
  assert (e23 : bpow radix2 (-23) = 2 * bpow radix2 (-24)) by (change 2 with (bpow radix2 1); rewrite <- bpow_plus; reflexivity).
  pose proof widen_val as W. fold w in W. rewrite e23 in W. set (d := bpow radix2 (-24)) in *.
  assert (Fw : finite fwiden) by reflexivity. assert (Gw : fits 1 w) by (right; change (bpow radix2 (- (1))) with (/ 2); change (bpow radix2 1) with 2; lra).
  assert (Nw : near 0 w fwiden) by (apply near_0; [exact Fw | fold w; lra]).
  assert (FP : fits 91 (p * w)) by (apply (fits_mul 90 1); assumption). assert (FQ : fits 91 (p / w)) by (apply (fits_div 90 1); try assumption; lra).
  assert (NP : near 1 (p * w) (fmul pa fwiden)) by (apply (near_mul 0 0); [apply price_near; exact Ha | exact Nw | apply few_small; lia | apply (fits_le 91 1000 _ ltac:(lia) FP)]).
  destruct (near_fdiv 0 0 p w pb fwiden) as (q & Eqq & NQ); [unfold p; rewrite Eq; apply price_near; exact Hb | exact Nw | apply few_small; lia | lra | apply (fits_le 91 1000 _ ltac:(lia) FQ) |].
  assert (P0 : 0 < p * w) by (apply Rmult_lt_0_compat; lra). assert (Q0 : 0 < p / w) by (apply Rdiv_lt_0_compat; lra).
  assert (QW : p / w * w = p) by (field; lra). set (Q := p / w) in *. change (near 1 Q q) in NQ.
  assert (pd : d * d <= / 1024 * d) by (apply Rmult_le_compat_r; lra).
  (* the moved prices are in order *)
  pose proof (near_abs _ _ _ NP ltac:(lia)) as A1. pose proof (near_abs _ _ _ NQ ltac:(lia)) as B1. change (INR 1) with 1 in A1, B1.
  assert (PW : p * w = Q * (w * w)) by (rewrite <- QW; ring).
  assert (Lt : Q < p * w) by (rewrite PW; assert (1 * 1 < w * w) by (apply Rmult_le_0_lt_compat; lra); assert (Q * 1 < Q * (w * w)) by (apply Rmult_lt_compat_l; lra); lra).
  assert (Hlt : val q < val (fmul pa fwiden)).
  { assert (p * (1 + d) <= p * w) by (apply Rmult_le_compat_l; lra). assert (u * (p * w) <= / 1024 * d * (p * w)) by (apply Rmult_le_compat_r; lra).
    assert (p * w <= 2 * p) by (rewrite (Rmult_comm 2); apply Rmult_le_compat_l; lra).
    assert (d * (p * w) <= d * (2 * p)) by (apply Rmult_le_compat_l; lra).
    assert (Q <= p) by (rewrite <- QW; rewrite <- (Rmult_1_r Q) at 1; apply Rmult_le_compat_l; lra). assert (u * Q <= / 1024 * d * p) by (apply Rmult_le_compat; lra).
    assert (0 < d * p) by (apply Rmult_lt_0_compat; lra). apply Rabs_le_inv in A1. apply Rabs_le_inv in B1. lra. }
  assert (EE : fc_prices false pa pb = root_pair (fmul pa fwiden) q).
  { unfold fc_prices, root_pair. cbn [rbind]. rewrite (feq_correct pa pb (proj1 Ha) (proj1 Hb)). unfold req. destruct (Req_EM_T (val pa) (val pb)); [| contradiction]. rewrite Eqq. cbn [rbind].
    rewrite (flt_correct q _ (proj1 NQ) (proj1 NP)), rlt_t by exact Hlt. reflexivity. }
  destruct (roots_gen 1 (fmul pa fwiden) q (p * w) Q) as (A & B & E & FA & FB & A0 & EA & NB); try assumption; [lia | lra | lra | apply (fits_le 91 92 _ ltac:(lia) FP) | apply (fits_le 91 92 _ ltac:(lia) FQ) |].
  exists A, B. rewrite EE. split; [exact E |]. replace (INR 2) with 2 in EA by (simpl; lra).
  assert (SQ : sqrt (p * w) = sqrt Q * w) by (rewrite PW, sqrt_mult_alt, sqrt_square by lra; reflexivity).
  assert (s0 : 0 < sqrt Q) by (apply sqrt_lt_R0; exact Q0).
  assert (F1 : bpow radix2 (-46) <= sqrt Q <= bpow radix2 46).
  { assert (F : fits 46 (sqrt Q)) by (apply (sqrt_fits 46 _ ltac:(lia) (fits_le 91 92 _ ltac:(lia) FQ))). destruct F as [F | F]; [lra | exact F]. }
  rewrite SQ in EA |- *. set (s := sqrt Q) in *.
  assert (D1 : s * d <= s * w - s) by (assert (s * (1 + d) <= s * w) by (apply Rmult_le_compat_l; lra); lra).
  assert (D2 : s * w <= 2 * s) by (rewrite (Rmult_comm 2); apply Rmult_le_compat_l; lra).
  assert (US : u * (s * w) <= u * (2 * s)) by (apply Rmult_le_compat_l; lra).
  assert (us : bpow radix2 (-25) * (s * d) = 16 * (u * s)). { replace (bpow radix2 (-25) * (s * d)) with (bpow radix2 (-25) * d * s) by ring. unfold d, u. change 16 with (bpow radix2 4). rewrite <- Rmult_assoc, <- !bpow_plus. reflexivity. }
  assert (us0 : 0 < u * s) by (apply Rmult_lt_0_compat; lra).
  assert (e25 : bpow radix2 (-25) = / 2 * d) by (change (/ 2) with (bpow radix2 (-1)); unfold d; rewrite <- bpow_plus; reflexivity).
  assert (EA' : Rabs (val A - (s * w - s)) <= bpow radix2 (-25) * (s * w - s)).
  { apply Rle_trans with (bpow radix2 (-25) * (s * d)); [rewrite us; lra | apply Rmult_le_compat_l; [apply bpow_ge_0 | exact D1]]. }
  assert (AM : amount A).
  { assert (sd : 0 < s * d) by (apply Rmult_lt_0_compat; lra). assert (X : bpow radix2 (-25) * (s * w - s) <= / 2 * (s * w - s)) by (rewrite e25; apply Rmult_le_compat_r; lra).
    apply Rabs_le_inv in EA'. split; [exact FA |]. split; [lra |]. right. split.
    - apply Rle_trans with (/ 2 * (bpow radix2 (-46) * d)); [change (/ 2) with (bpow radix2 (-1)); unfold d; rewrite <- !bpow_plus; apply bpow_le; lia |].
      apply Rle_trans with (/ 2 * (s * d)); [apply Rmult_le_compat_l; [lra | apply Rmult_le_compat_r; lra] | lra].
    - apply Rle_trans with (2 * s); [lra |]. apply Rle_trans with (2 * bpow radix2 46); [lra |]. change 2 with (bpow radix2 1) at 1. rewrite <- bpow_plus. apply bpow_le. lia. }
  split; [exact AM |]. split; [exact FB |]. split; [exact EA' |].
  pose proof (near_abs _ _ _ NB ltac:(lia)) as EB. replace (INR 2) with 2 in EB by (simpl; lra). rewrite u51. lra.
Qed.
(** prices in the other direction *)
Lemma prices_inv : forall pa pb, price pa -> price pb -> exists qa qb, fdiv fone pa = Ret qa /\ fdiv fone pb = Ret qb /\ fc_prices true pa pb = fc_prices false qa qb /\ near 1 (/ val pa) qa /\ near 1 (/ val pb) qb.
Proof.
  intros pa pb Ha Hb.
  assert (Q : forall z, price z -> exists q, fdiv fone z = Ret q /\ near 1 (/ val z) q).
  { intros z Hz. destruct (price_fits _ Hz) as (G & z0). destruct (near_fdiv 0 0 1 (val z) fone z near_one (price_near _ Hz)) as (q & E & N); [apply few_small; lia | exact z0 | unfold Rdiv; rewrite Rmult_1_l; apply (fits_le 90 1000 _ ltac:(lia)); apply fits_inv; assumption |].
    exists q. split; [exact E |]. unfold Rdiv in N. rewrite Rmult_1_l in N. exact N. }
  destruct (Q pa Ha) as (qa & Ea & Na). destruct (Q pb Hb) as (qb & Eb & Nb). exists qa, qb. split; [exact Ea |]. split; [exact Eb |].
  split; [unfold fc_prices; cbn [rbind]; rewrite Ea, Eb; reflexivity | split; assumption].
Qed.
Lemma prices_inverse : forall pa pb qa qb, price pa -> price pb -> fdiv fone pa = Ret qa -> fdiv fone pb = Ret qb ->
  fc_prices true pa pb = fc_prices false qa qb /\ (val pa < val pb -> val qb <= val qa) /\ (val qb < val qa -> roots_of (-50) (fc_prices true pa pb) (/ val pa) (/ val pb)).
Proof.
  intros pa pb qa qb Ha Hb Ea Eb. destruct (prices_inv pa pb Ha Hb) as (qa' & qb' & Ea' & Eb' & E & Na & Nb). rewrite Ea in Ea'. rewrite Eb in Eb'. injection Ea' as <-. injection Eb' as <-.
  split; [exact E |]. destruct (price_fits _ Ha) as (Ga & a0). destruct (price_fits _ Hb) as (Gb & b0).
  assert (V : forall z q, price z -> fdiv fone z = Ret q -> val q = rnd (/ val z)).
  { intros z q Hz Eq. destruct (price_fits _ Hz) as (G & z0). destruct (fdiv_val fone z (proj1 near_one) z0 (proj1 Hz)) as (r & Er & _ & Vr).
    - rewrite val_one. unfold Rdiv. rewrite Rmult_1_l, Rabs_pos_eq by (apply Rlt_le, Rinv_0_lt_compat; exact z0). apply Rle_trans with (bpow radix2 90); [apply fits_up; [apply Rinv_0_lt_compat; exact z0 | apply fits_inv; assumption] | apply bpow_le; lia].
    - rewrite Eq in Er. injection Er as <-. rewrite Vr, val_one. unfold Rdiv. rewrite Rmult_1_l. reflexivity. }
  rewrite (V pb qb Hb Eb), (V pa qa Ha Ea).
  split; [intros H; apply rnd_mono, Rlt_le, Rinv_lt_contravar; [apply Rmult_lt_0_compat; assumption | exact H] |].
  intros H. rewrite <- (V pb qb Hb Eb), <- (V pa qa Ha Ea) in H. rewrite E, (prices_ordered qa qb (proj1 Na) (proj1 Nb) H).
  assert (L : val pa < val pb).
  { destruct (Rlt_le_dec (val pa) (val pb)) as [X | X]; [exact X |]. exfalso. assert (val qa <= val qb) by (rewrite (V pb qb Hb Eb), (V pa qa Ha Ea); apply rnd_mono, Rinv_le; assumption). lra. }
  destruct (roots_gen 1 qa qb (/ val pa) (/ val pb)) as (A & B & E2 & FA & FB & A0 & EA & NB); try assumption; [lia | apply Rinv_le; lra | lra | apply (fits_le 90 92 _ ltac:(lia)); apply fits_inv; assumption | apply (fits_le 90 92 _ ltac:(lia)); apply fits_inv; assumption | apply Rinv_0_lt_compat; assumption | apply Rinv_0_lt_compat; assumption |].
  exists A, B. repeat (split; [assumption |]). replace (INR 2) with 2 in EA by (simpl; lra). pose proof (near_abs _ _ _ NB ltac:(lia)) as EB. replace (INR 2) with 2 in EB by (simpl; lra).
  pose proof u_pos. pose proof (sqrt_pos (/ val pa)). pose proof (sqrt_pos (/ val pb)). assert (0 <= u * sqrt (/ val pa)) by (apply Rmult_le_pos; lra). assert (0 <= u * sqrt (/ val pb)) by (apply Rmult_le_pos; lra).
  rewrite u50, u51. split; lra.
Qed.
(** the curve is that of the order with these roots *)
Lemma carbon_p_same : forall pw inv yint y pa pb A B, fc_prices inv pa pb = Ret (A, B) -> finite A -> 0 <= val A -> fc_from_carbon_p pw inv yint y pa pb = fc_from_carbon pw yint y A B.
Proof.
  intros pw inv yint y pa pb A B E FA A0. unfold fc_from_carbon_p, fc_from_carbon. rewrite E. cbn [rbind]. rewrite (fle_true fzero A fin_zero FA) by (rewrite val_zero; exact A0). reflexivity.
Qed.
Lemma carbon_p_raise : forall pw inv yint y pa pb, finite yint -> finite y ->
  (val yint < val y \/ val y < 0 -> fc_from_carbon_p pw inv yint y pa pb = Raise AssertionError) /\
  (0 <= val y <= val yint -> forall e, fc_prices inv pa pb = Raise e -> fc_from_carbon_p pw inv yint y pa pb = Raise e).
Proof.
  intros pw inv yint y pa pb Fi Fy. unfold fc_from_carbon_p. rewrite (fle_correct y yint Fy Fi), (fle_correct fzero y fin_zero Fy), val_zero. unfold rle. split.
  - intros H. destruct (Rle_dec (val y) (val yint)); [| reflexivity]. cbn [negb]. destruct (Rle_dec 0 (val y)); [lra | reflexivity].
  - intros H e E. destruct (Rle_dec (val y) (val yint)); [| lra]. cbn [negb]. destruct (Rle_dec 0 (val y)); [| lra]. cbn [negb]. rewrite E. reflexivity.
Qed.
(** such orders can always be read *)
Lemma input_root : forall B Q, finite B -> bpow radix2 (-91) <= Q <= bpow radix2 91 -> Rabs (val B - sqrt Q) <= bpow radix2 (-51) * sqrt Q -> input B /\ 0 < val B.
Proof.
  intros B Q FB H E. assert (q0 : 0 < Q) by (pose proof (bpow_gt_0 radix2 (-91)); lra). assert (F : fits 50 (sqrt Q)).
  { apply (sqrt_fits 50 _ ltac:(lia)). apply (fits_le 91 100 _ ltac:(lia)). right. exact H. }
  assert (s0 : 0 < sqrt Q) by (apply sqrt_lt_R0; exact q0). destruct F as [F | (F1 & F2)]; [lra |]. change (- (50))%Z with (-50)%Z in F1. pose proof u_pos. pose proof u_small. rewrite u51 in E.
  assert (u * sqrt Q <= / 1024 * sqrt Q) by (apply Rmult_le_compat_r; lra). apply Rabs_le_inv in E.
  assert (LO : / 2 * sqrt Q <= val B) by lra. assert (HI : val B <= 2 * sqrt Q) by lra. split; [| lra]. split; [exact FB |]. right. split.
  - apply Rle_trans with (/ 2 * bpow radix2 (-50)); [change (/ 2) with (bpow radix2 (-1)); rewrite <- bpow_plus; apply bpow_le; lia | lra].
  - apply Rle_trans with (2 * bpow radix2 50); [lra |]. change 2 with (bpow radix2 1) at 1. rewrite <- bpow_plus. apply bpow_le. lia.
Qed.
Lemma carbon_p_read : forall pw yint y pa pb, accurate pw -> amount yint -> input y -> val y <= val yint -> price pa -> price pb -> val pa = val pb \/ val pb * (1 + bpow radix2 (-50)) <= val pa ->
  exists A B c, fc_prices false pa pb = Ret (A, B) /\ amount A /\ amount B /\ fc_from_carbon_p pw false yint y pa pb = Ret c /\ fc_ya c = y /\ val (fc_xa c) = 0 /\
    Rabs (val (fc_k c) - val yint ^ 2 / val A ^ 2) <= bpow radix2 (-49) * (val yint ^ 2 / val A ^ 2) /\
    Rabs (val (fc_x c) - val yint ^ 2 / val A ^ 2 / (val y + val yint * val B / val A)) <= bpow radix2 (-49) * (val yint ^ 2 / val A ^ 2 / (val y + val yint * val B / val A)).
Proof.
  intros pw yint y pa pb AC Hi Hy L Ha Hb H.
  assert (G : exists A B, fc_prices false pa pb = Ret (A, B) /\ amount A /\ input B /\ 0 < val B).
  { destruct H as [H | H].
    - destruct (prices_equal pa pb Ha Hb H) as (A & B & E & HA & FB & _ & EB). exists A, B. split; [exact E |]. split; [exact HA |]. apply (input_root _ _ FB) with (2 := EB).
      destruct Ha as (_ & Ha). pose proof widen_val as (W1 & W2). assert (1 < val fwiden <= 2).
      { pose proof (bpow_gt_0 radix2 (-24)). assert (bpow radix2 (-23) <= 1) by (change 1 with (bpow radix2 0); apply bpow_le; lia). lra. }
      assert (p0 : 0 < val pa) by (pose proof (bpow_gt_0 radix2 (-90)); lra).
      split; apply Rmult_le_reg_r with (val fwiden); try lra; replace (val pa / val fwiden * val fwiden) with (val pa) by (field; lra).
      + apply Rle_trans with (bpow radix2 (-91) * 2); [apply Rmult_le_compat_l; [apply bpow_ge_0 | lra] |]. change 2 with (bpow radix2 1) at 1. rewrite <- bpow_plus. apply Ha.
      + apply Rle_trans with (bpow radix2 91 * 1); [rewrite Rmult_1_r; apply Rle_trans with (bpow radix2 90); [apply Ha | apply bpow_le; lia] | apply Rmult_le_compat_l; [apply bpow_ge_0 | lra]].
    - destruct (price_fits _ Hb) as (_ & b0). pose proof (bpow_gt_0 radix2 (-50)) as e0. assert (LT : val pb < val pa) by (assert (0 < val pb * bpow radix2 (-50)) by (apply Rmult_lt_0_compat; lra); lra).
      destruct (prices_ok pa pb Ha Hb LT) as (A & B & E & _ & FB & _ & _ & EB). exists A, B. split; [exact E |]. split; [apply (prices_apart pa pb A B Ha Hb H E) |]. apply (input_root _ _ FB) with (2 := EB).
      destruct Hb as (_ & Hb). split; [apply Rle_trans with (bpow radix2 (-90)); [apply bpow_le; lia | apply Hb] | apply Rle_trans with (bpow radix2 90); [apply Hb | apply bpow_le; lia]]. }
  destruct G as (A & B & E & HA & HB & B0). pose proof HA as (FA & A0 & _). pose proof Hi as (_ & i0 & _). destruct (input_near _ Hy) as (_ & y0).
  assert (S0 : 0 < val yint * val B / val A) by (apply Rdiv_lt_0_compat; [apply Rmult_lt_0_compat |]; assumption).
  destruct (carbon_ok pw yint y A B AC Hi Hy HA HB L ltac:(lra)) as (c & y' & m & C1 & C2 & C3 & _ & _ & _ & C4 & C5 & _).
  exists A, B, c. split; [exact E |]. split; [exact HA |]. split; [split; [apply HB | split; [exact B0 | apply HB]] |]. rewrite (carbon_p_same pw false yint y pa pb A B E FA) by lra. repeat (split; [assumption |]). assumption.
Qed.
