(** The quotes of the fast router with float roots and Decimal rounding. *)
From Coq Require Import ZArith QArith Qreals Reals Lia Lra.
From Flocq Require Import Core.
From Verif Require Import CurveModel FpModel FpSpec FpProofs FpOrderModel FpOrderProofs FpOrderProofs2 FpDecModel FpDecProofs FpDecProofs2.
Local Open Scope R_scope.

(** ** C176 quotes of the fast router with all roundings *)
Theorem C176_target : forall lo hi y z x, 0 < Q2R lo -> Q2R lo <= Q2R hi -> fits 190 (Q2R lo) -> fits 190 (Q2R hi) -> 0 <= y <= z -> 0 < z -> 0 <= x ->
  let P w := sqrt (Q2R lo) * z + (sqrt (Q2R hi) - sqrt (Q2R lo)) * w in
  let d := Rmin x y in
  let exact := d * z ^ 2 / (P y * P (y - d)) in
  exists B S out, order_params hi lo = Ret (lo, hi, B, S) /\ d_quote_by_target x (mkDorder y z (val S) (val B)) = Ret (d, out) /\
    Rabs (out - exact) <= bpow radix2 (-49) * exact.
Proof.
  intros lo hi y z x L LH Fl Fh (y0 & yz) z0 Hx P d e. destruct (dec_quotes lo hi y z L LH Fl Fh y0 yz z0) as (B & S & E & T).
  destruct (T x Hx) as ((out & E1 & R1) & _). exists B, S, out. split; [exact E |]. split; [exact E1 |].
  replace e with (cost (sqrt (Q2R lo)) (sqrt (Q2R hi)) z y (Rmin x y)) by (unfold cost, e, P, d, lin, Rdiv; ring).
  apply rn_close with (1 := R1). lia.
Qed.
Print Assumptions C176_target.
Theorem C176_source : forall lo hi y z x, 0 < Q2R lo -> Q2R lo <= Q2R hi -> fits 190 (Q2R lo) -> fits 190 (Q2R hi) -> 0 <= y <= z -> 0 < z -> 0 <= x ->
  let P w := sqrt (Q2R lo) * z + (sqrt (Q2R hi) - sqrt (Q2R lo)) * w in
  let bought := x * P y ^ 2 / ((sqrt (Q2R hi) - sqrt (Q2R lo)) * x * P y + z ^ 2) in
  let whole := y * z ^ 2 / (P y * P 0) in
  exists B S inp out, order_params hi lo = Ret (lo, hi, B, S) /\ d_quote_by_source x (mkDorder y z (val S) (val B)) = Ret (inp, out) /\
    out <= y /\ Rabs (out - Rmin bought y) <= bpow radix2 (-49) * Rmin bought y /\
    Rabs (inp - Rmin x whole) <= bpow radix2 (-49) * Rmin x whole.
Proof.
  intros lo hi y z x L LH Fl Fh (y0 & yz) z0 Hx P bought whole. destruct (dec_quotes lo hi y z L LH Fl Fh y0 yz z0) as (B & S & E & T).
  destruct (T x Hx) as (_ & (inp & out & E1 & R1 & R2)). exists B, S, inp, out. split; [exact E |]. split; [exact E1 |].
  split.
  { unfold d_quote_by_source in E1. destruct (d_amt_by_target _ x) as [t | ex]; [| discriminate]. cbn [rbind d_y] in E1. rewrite dmin_R in E1.
    destruct (d_amt_by_src _ _) as [i | ex]; [| discriminate]. cbn [rbind] in E1. injection E1 as _ <-. apply Rmin_r. }
  replace bought with (gain (sqrt (Q2R lo)) (sqrt (Q2R hi)) z y x) by (unfold gain, bought, P, lin; simpl pow; rewrite !Rmult_1_r; reflexivity).
  replace whole with (cost (sqrt (Q2R lo)) (sqrt (Q2R hi)) z y y).
  2:{ unfold cost, whole, P, lin. simpl pow. rewrite !Rmult_1_r, Rmult_assoc. replace (y - y) with 0 by ring. reflexivity. }
  split; [apply rn_close with (1 := R1); lia | apply rn_close with (1 := R2); lia].
Qed.
Print Assumptions C176_source.
(** Decimal arithmetic alone, for any exact parameters of an order whose price range is not extreme *)
Theorem C176_decimal : forall B A y z x, 0 < B -> 0 <= A -> B + A <= bpow radix2 200 * B -> 0 <= y <= z -> 0 < z -> 0 <= x ->
  let P w := B * z + A * w in
  let d := Rmin x y in
  let paid := d * z ^ 2 / (P y * P (y - d)) in
  let bought := x * P y ^ 2 / (A * x * P y + z ^ 2) in
  let whole := y * z ^ 2 / (P y * P 0) in
  exists out inp out', d_quote_by_target x (mkDorder y z A B) = Ret (d, out) /\ d_quote_by_source x (mkDorder y z A B) = Ret (inp, out') /\
    Rabs (out - paid) <= bpow radix2 (-185) * paid /\
    Rabs (out' - Rmin bought y) <= bpow radix2 (-389) * Rmin bought y /\
    Rabs (inp - Rmin x whole) <= bpow radix2 (-185) * Rmin x whole.
Proof.
  intros B A y z x B0 A0 HK (y0 & yz) z0 Hx P d paid bought whole.
  destruct (d_quotes B A y z (bpow radix2 200) B0 A0 y0 yz z0 HK (Rle_refl _) x Hx) as ((out & E1 & G1) & (inp & out' & E2 & G2 & G3)).
  exists out, inp, out'. split; [exact E1 |]. split; [exact E2 |]. pose proof (bpow_gt_0 radix2 (-190)) as S0.
  assert (S5 : bpow radix2 (-185) = 32 * bpow radix2 (-190)) by (change 32 with (bpow radix2 5); rewrite <- bpow_plus; reflexivity).
  assert (S1 : bpow radix2 (-190) <= / 1024) by (change (/ 1024) with (bpow radix2 (-10)); apply bpow_le; lia).
  replace (cost B (B + A) z y (Rmin x y)) with paid in G1 by (unfold cost, paid, P, d, lin, Rdiv; replace (B + A - B) with A by ring; ring).
  replace (gain B (B + A) z y x) with bought in G2 by (unfold gain, bought, P, lin; replace (B + A - B) with A by ring; simpl pow; rewrite !Rmult_1_r; reflexivity).
  replace (cost B (B + A) z y y) with whole in G3.
  2:{ unfold cost, whole, P, lin. replace (B + A - B) with A by ring. simpl pow. rewrite !Rmult_1_r, Rmult_assoc. replace (y - y) with 0 by ring. reflexivity. }
  split; [| split].
  - apply Rle_trans with (1 := abs_gn (1 + 8 * bpow radix2 (-190)) _ _ ltac:(lra) G1). apply Rmult_le_compat_r; [apply G1 | lra].
  - apply Rle_trans with (1 := abs_gn _ _ _ (kn1 14) G2). apply Rmult_le_compat_r; [apply G2 |].
    pose proof (kn_small 14 ltac:(lia)). assert (bpow radix2 (-390) <= bpow radix2 (-389)) by (apply bpow_le; lia). lra.
  - set (t := bpow radix2 (-190)) in *.
    assert (Q1 : (1 + 8 * t) * (1 + 8 * t) - 1 = 16 * t + 64 * (t * t)) by ring.
    assert (Q2 : t * t <= / 1024 * t) by (apply Rmult_le_compat_r; lra). assert (Q3 : 0 <= t * t) by (apply Rmult_le_pos; lra).
    apply Rle_trans with (1 := abs_gn ((1 + 8 * t) * (1 + 8 * t)) _ _ ltac:(lra) G3). apply Rmult_le_compat_r; [apply G3 | lra].
Qed.
Print Assumptions C176_decimal.
(** prices 1500 to 2000, capacity 10, balance 7; and roundings do happen *)
Example C176_ex : 0 < Q2R 1500 /\ Q2R 1500 <= Q2R 2000 /\ fits 190 (Q2R 1500) /\ fits 190 (Q2R 2000) /\ 0 <= 7 <= 10 /\ rd (1 / 3) <> 1 / 3.
Proof.
  assert (F : forall n d, 1 <= Q2R (n # d) <= 4096 -> fits 190 (Q2R (n # d))).
  { intros n d (H1 & H2). right. split.
    - apply Rle_trans with (bpow radix2 0); [apply bpow_le; lia | exact H1].
    - apply Rle_trans with (bpow radix2 12); [exact H2 | apply bpow_le; lia]. }
  split; [unfold Q2R; simpl; lra |]. split; [unfold Q2R; simpl; lra |]. split; [apply F; unfold Q2R; simpl; lra |]. split; [apply F; unfold Q2R; simpl; lra |].
  split; [lra |]. unfold rd, round, F2R. cbn [Fnum Fexp]. set (m := ZnearestE _).
  assert (E : cexp ten (FLX_exp 128) (1 / 3) = (-128)%Z).
  { unfold cexp. rewrite (mag_unique ten (1 / 3) 0); [reflexivity |]. rewrite Rabs_pos_eq by lra. change (bpow ten (0 - 1)) with (/ 10). change (bpow ten 0) with 1. lra. }
  rewrite E. change (-128)%Z with (- (128))%Z. rewrite bpow_opp, <- IZR_Zpower by lia. intro H.
  assert (P : IZR (ten ^ 128) <> 0) by (apply IZR_neq; discriminate).
  assert (H' : (3 * m = ten ^ 128)%Z). { apply eq_IZR. rewrite mult_IZR. apply Rmult_eq_reg_r with (/ IZR (ten ^ 128)); [| apply Rinv_neq_0_compat; exact P]. rewrite Rmult_assoc, H. field. exact P. }
  assert (M : ((3 * m) mod 3 = ten ^ 128 mod 3)%Z) by (rewrite H'; reflexivity).
  rewrite Z.mul_comm, Z.mod_mul in M by lia. vm_compute in M. discriminate.
Qed.
