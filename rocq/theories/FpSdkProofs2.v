(** The price range of an order after encoding and decoding in double precision. *)
From Coq Require Import ZArith QArith Qreals Reals Bool Lia Lra String.
From Flocq Require Import Core IEEE754.BinarySingleNaN IEEE754.Binary IEEE754.Bits.
From Verif Require Import TradeModel TradeProofs3 CurveModel SdkModel SdkSpec SdkProofs FpModel FpSpec FpProofs FpProofs2 FpProofs3 FpSdkModel FpSdkProofs.
Local Open Scope R_scope.

Lemma sqrt_grow : forall x y e, 0 <= x -> 0 <= e -> y <= x * (1 + e) -> sqrt y <= sqrt x * (1 + e).
Proof.
  intros x y e Hx He H. apply Rle_trans with (sqrt (x * ((1 + e) * (1 + e)))).
  - apply sqrt_le_1_alt. apply Rle_trans with (1 := H). apply Rmult_le_compat_l; [exact Hx | nra].
  - rewrite sqrt_mult by nra. rewrite sqrt_square by lra. lra.
Qed.
Lemma price_back : forall x q b f d r0 e0, 0 <= x -> 0 <= b -> 0 < d -> d <= / 1024 -> 16 * d <= r0 -> r0 <= / 1024 -> 0 <= e0 ->
  Rabs (q - x) <= d * x -> b * b <= q -> q < (b * (1 + r0) + e0) * (b * (1 + r0) + e0) -> Rabs (f - b * b) <= 2 * d * (b * b) ->
  0 <= f /\ f <= x * (1 + 4 * d) /\ sqrt x <= sqrt f * (1 + 2 * r0) + 2 * e0.
Proof.
  intros x q b f d r0 e0 Px Pb Pd Sd Hr Sr Pe Hq B1 B2 Hf.
  apply Rabs_le_inv in Hq. apply Rabs_le_inv in Hf.
  assert (Pbb : 0 <= b * b) by nra.
  assert (Pf : 0 <= f) by nra.
  split; [exact Pf |]. split.
  - apply Rle_trans with (b * b * (1 + 2 * d)); [lra |].
    apply Rle_trans with (x * (1 + d) * (1 + 2 * d)); [apply Rmult_le_compat_r; lra |]. 
    rewrite Rmult_assoc. apply Rmult_le_compat_l; [exact Px |]. nra.
  - assert (S1 : sqrt x <= sqrt q * (1 + 2 * d)).
    { apply sqrt_grow; try lra. assert (1 <= (1 - d) * (1 + 2 * d)) by nra.
      apply Rle_trans with (x * (1 - d) * (1 + 2 * d)); [nra |]. apply Rmult_le_compat_r; lra. }
    assert (S2 : sqrt q <= b * (1 + r0) + e0).
    { rewrite <- (sqrt_square (b * (1 + r0) + e0)) by nra. apply sqrt_le_1_alt. lra. }
    assert (S3 : b <= sqrt f * (1 + 4 * d)).
    { rewrite <- (sqrt_square b) by exact Pb. apply sqrt_grow; try lra. assert (1 <= (1 - 2 * d) * (1 + 4 * d)) by nra.
      apply Rle_trans with (b * b * (1 - 2 * d) * (1 + 4 * d)); [nra |]. apply Rmult_le_compat_r; lra. }
    pose proof (sqrt_pos f) as Psf. set (g := sqrt f) in *.
    apply Rle_trans with (1 := S1).
    apply Rle_trans with ((g * (1 + 4 * d) * (1 + r0) + e0) * (1 + 2 * d)).
    { apply Rmult_le_compat_r; [lra |]. apply Rle_trans with (1 := S2). apply Rplus_le_compat_r. apply Rmult_le_compat_r; lra. }
    assert (K : (1 + 4 * d) * (1 + r0) * (1 + 2 * d) <= 1 + 2 * r0).
    { assert ((1 + 4 * d) * (1 + 2 * d) <= 1 + 7 * d) by nra.
      apply Rle_trans with ((1 + 7 * d) * (1 + r0)); [nra |]. nra. }
    apply Rle_trans with (g * ((1 + 4 * d) * (1 + r0) * (1 + 2 * d)) + e0 * (1 + 2 * d)); [right; ring |].
    apply Rplus_le_compat; [apply Rmult_le_compat_l; assumption |]. nra.
Qed.

Lemma exponent_small : forall L, (0 <= L < 2 ^ 100)%Z -> small_exponent (encodeFloat L).
Proof.
  intros L (H1 & H2). unfold small_exponent. rewrite encodeFloat_eq by exact H1. change ONE with (2 ^ 48)%Z.
  pose proof (mt_bound L H1) as M. pose proof (ex_nonneg L) as E.
  rewrite Z.div_add by discriminate. rewrite Z.div_small by exact M.
  destruct (Z.eq_dec (ex L) 0) as [Z0 | Z0]; [lia |].
  pose proof (ex_lower L H1 ltac:(lia)) as LO.
  assert (47 + ex L < 100)%Z; [| lia]. apply Z.pow_lt_mono_r_iff with (a := 2%Z); lia.
Qed.
Lemma rate_small : forall q L, Q2R q <= bpow radix2 101 -> encodeRate q = Some L -> (0 <= L < 2 ^ 100)%Z.
Proof.
  intros q L Hq E. destruct (rate_upper q L E) as (N & B & _). split; [exact N |].
  apply Qle_Rle in B. rewrite Q2R_mult in B. unfold Q2R at 1 3, inject_Z in B. cbn [Qnum Qden] in B.
  rewrite !Rinv_1, !Rmult_1_r in B.
  destruct (Z.lt_ge_cases L (2 ^ 100)) as [H | H]; [exact H | exfalso].
  assert (H' : (2 ^ 200 <= L * L)%Z) by (change (2 ^ 200)%Z with (2 ^ 100 * 2 ^ 100)%Z; apply Z.mul_le_mono_nonneg; lia).
  apply IZR_le in H'. change (2 ^ 200)%Z with (radix2 ^ 200)%Z in H'. rewrite IZR_Zpower in H' by lia.
  change (2 ^ 96)%Z with (radix2 ^ 96)%Z in B. rewrite IZR_Zpower in B by lia.
  assert (Q2R q * bpow radix2 96 <= bpow radix2 101 * bpow radix2 96) by (apply Rmult_le_compat_r; [apply bpow_ge_0 | exact Hq]).
  rewrite <- bpow_plus in H0. assert (bpow radix2 (101 + 96) < bpow radix2 200) by (apply bpow_lt; lia). lra.
Qed.
Lemma two_45 : Q2R (two_to (-45)) = bpow radix2 (- (45)).
Proof. change (two_to (-45)) with (1 # 35184372088832). change (bpow radix2 (- (45))) with (/ IZR 35184372088832). unfold Q2R. cbn [Qnum Qden]. lra. Qed.
Lemma two_47 : Q2R (two_to (-47)) = bpow radix2 (- (47)).
Proof. change (two_to (-47)) with (1 # 140737488355328). change (bpow radix2 (- (47))) with (/ IZR 140737488355328). unfold Q2R. cbn [Qnum Qden]. lra. Qed.
Lemma two_48 : Q2R (two_to (-48)) = bpow radix2 (- (48)).
Proof. change (two_to (-48)) with (1 # 281474976710656). change (bpow radix2 (- (48))) with (/ IZR 281474976710656). unfold Q2R. cbn [Qnum Qden]. lra. Qed.
Lemma one_q : Q2R 1 = 1. Proof. unfold Q2R. simpl. lra. Qed.

Lemma range_same : forall pw y hi lo z t, accurate pw -> (0 <= y)%Z -> (match z with Some z => 0 <= z | None => True end)%Z ->
  finite hi -> fits 100 (val hi) -> finite lo -> fits 100 (val lo) -> val lo <= val hi ->
  exists o pe ps, feo_encode y hi lo z t = Ret o /\ eo_y o = y /\ eo_z o = match z with Some z => z | None => y end /\
    feo_p_end o = Ret pe /\ feo_p_start pw o = Ret ps /\ finite pe /\ finite ps /\
    0 <= val pe /\ val pe <= val lo * (1 + bpow radix2 (-49)) /\ sqrt (val lo) <= sqrt (val pe) * (1 + bpow radix2 (-46)) + bpow radix2 (-47) /\
    0 <= val ps /\ val ps <= val hi * (1 + bpow radix2 (-49)) /\ sqrt (val hi) <= sqrt (val ps) * (1 + bpow radix2 (-44)) + bpow radix2 (-46).
Proof.
  intros pw y hi lo z t A Hy Hz Fh Rh Fl Rl Hle.
  destruct (encode_same y hi lo z t Fh Rh Fl Rl) as (qh & ql & Dh & Dl & M & Pl & E). specialize (M Hle).
  pose proof (fits_pos _ _ Rh) as Ph. pose proof (fits_pos _ _ Rl) as Pl'.
  assert (Up : forall x q, 0 <= x -> fits 100 x -> Rabs (Q2R q - x) <= bpow radix2 (-51) * x -> Q2R q <= bpow radix2 101).
  { intros x q Px Rx H. apply Rabs_le_inv in H.
    assert (x <= bpow radix2 100) by (destruct Rx as [R0 | [_ R0]]; [rewrite R0; apply bpow_ge_0 | exact R0]).
    assert (bpow radix2 (-51) <= 1) by (change 1 with (bpow radix2 0); apply bpow_le; lia).
    replace (bpow radix2 101) with (2 * bpow radix2 100) by (change 2 with (bpow radix2 1); rewrite <- bpow_plus; reflexivity). nra. }
  destruct (encodeRate_some ql Pl) as (l & El & Nl). destruct (encodeRate_some qh ltac:(apply Qle_trans with ql; assumption)) as (h & Eh & Nh).
  pose proof (encodeRate_mono ql qh l h El Eh M) as Hlh.
  pose proof (rate_small qh h (Up _ _ Ph Rh Dh) Eh) as Bh.
  set (o := mkEorder match t with Some t => t | None => "TKN"%string end y (match z with Some z => z | None => y end) (encodeFloat (h - l)) (encodeFloat l)).
  assert (Eo : feo_encode y hi lo z t = Ret o).
  { rewrite E. unfold eo_encode. rewrite (eo_rate _ _ Eh), (eo_rate _ _ El). cbn [rbind]. unfold o.
    destruct z as [z |]; cbn [option_map]; rewrite ?qtrunc_Z; destruct t; reflexivity. }
  destruct (encode_prices qh ql _ _ _ h l o Eh El Hlh eq_refl) as (a & b & EA & EB & Epe & Eps & Pa & Pb & Rb & Ra).
  assert (SB : small_exponent (eo_B o)) by (apply exponent_small; lia).
  assert (SA : small_exponent (eo_A o)) by (apply exponent_small; lia).
  destruct (p_end_same o SB) as (pe & q1 & F1 & F2 & (F3 & F4)). destruct (p_start_same pw o A SA SB) as (ps & q2 & G1 & G2 & (G3 & G4)).
  rewrite Epe in F2. injection F2 as <-. rewrite Eps in G2. injection G2 as <-.
  exists o, pe, ps. split; [exact Eo |]. split; [reflexivity |]. split; [reflexivity |]. split; [exact F1 |]. split; [exact G1 |]. split; [exact F3 |]. split; [exact G3 |].
  destruct Rb as (Rb1 & Rb2). destruct Ra as (Ra1 & Ra2).
  apply Qle_Rle in Rb1. apply Qlt_Rlt in Rb2. apply Qle_Rle in Ra1. apply Qlt_Rlt in Ra2.
  rewrite !Q2R_mult, ?Q2R_plus, ?Q2R_mult, ?Q2R_plus in Rb2. rewrite !Q2R_mult, ?Q2R_plus, ?Q2R_mult, ?Q2R_plus in Ra2.
  rewrite Q2R_mult in Rb1. rewrite Q2R_mult, !Q2R_plus in Ra1. rewrite Q2R_mult in F4. rewrite Q2R_mult, !Q2R_plus in G4.
  rewrite one_q in Rb2, Ra2.
  rewrite two_47, two_48 in Rb2. rewrite two_45, two_47 in Ra2.
  assert (Pb' : 0 <= Q2R b) by (apply Qle_Rle in Pb; replace (Q2R 0) with 0 in Pb by (unfold Q2R; simpl; lra); exact Pb).
  assert (Pa' : 0 <= Q2R a) by (apply Qle_Rle in Pa; replace (Q2R 0) with 0 in Pa by (unfold Q2R; simpl; lra); exact Pa).
  assert (P51 : 0 < bpow radix2 (-51)) by apply bpow_gt_0.
  assert (S51 : bpow radix2 (-51) <= / 1024) by (change (/ 1024) with (bpow radix2 (-10)); apply bpow_le; lia).
  assert (D2 : forall k j, bpow radix2 (k + j) = bpow radix2 k * bpow radix2 j) by (intros; apply bpow_plus).
  assert (E49 : bpow radix2 (-49) = 4 * bpow radix2 (-51)) by (change 4 with (bpow radix2 2); rewrite <- bpow_plus; reflexivity).
  assert (E50 : bpow radix2 (-50) = 2 * bpow radix2 (-51)) by (change 2 with (bpow radix2 1); rewrite <- bpow_plus; reflexivity).
  assert (E52 : bpow radix2 (-52) <= 2 * bpow radix2 (-51)) by (rewrite <- E50; apply bpow_le; lia).
  assert (E47 : bpow radix2 (-46) = 2 * bpow radix2 (- (47))) by (change 2 with (bpow radix2 1); rewrite <- bpow_plus; reflexivity).
  assert (E48 : bpow radix2 (-47) = 2 * bpow radix2 (- (48))) by (change 2 with (bpow radix2 1); rewrite <- bpow_plus; reflexivity).
  assert (E45 : bpow radix2 (-44) = 2 * bpow radix2 (- (45))) by (change 2 with (bpow radix2 1); rewrite <- bpow_plus; reflexivity).
  assert (I16 : 16 * bpow radix2 (-51) = bpow radix2 (- (47))) by (change 16 with (bpow radix2 4); rewrite <- bpow_plus; reflexivity).
  assert (J47 : bpow radix2 (- (47)) <= / 1024) by (change (/ 1024) with (bpow radix2 (-10)); apply bpow_le; lia).
  assert (J45 : bpow radix2 (- (45)) <= / 1024) by (change (/ 1024) with (bpow radix2 (-10)); apply bpow_le; lia).
  assert (K45 : bpow radix2 (- (47)) <= bpow radix2 (- (45))) by (apply bpow_le; lia).
  assert (P47 : 0 <= bpow radix2 (- (47))) by apply bpow_ge_0. assert (P48 : 0 <= bpow radix2 (- (48))) by apply bpow_ge_0.
  destruct (price_back (val lo) (Q2R ql) (Q2R b) (val pe) (bpow radix2 (-51)) (bpow radix2 (- (47))) (bpow radix2 (- (48)))) as (X1 & X2 & X3); try assumption; try lra.
  { apply Rle_trans with (1 := F4). rewrite Rabs_pos_eq by nra. apply Rmult_le_compat_r; [nra | exact E52]. }
  destruct (price_back (val hi) (Q2R qh) (Q2R b + Q2R a) (val ps) (bpow radix2 (-51)) (bpow radix2 (- (45))) (bpow radix2 (- (47)))) as (Y1 & Y2 & Y3); try assumption; try lra.
  { apply Rle_trans with (1 := G4). rewrite Rabs_pos_eq by nra. rewrite E50. lra. }
  rewrite E49, E45, E48, E47. repeat split; assumption.
Qed.
