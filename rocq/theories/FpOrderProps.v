(** Orders of the simulator with their roots in double precision. *)
From Coq Require Import ZArith QArith Qreals Reals Bool Lia Lra.
From Flocq Require Import Core IEEE754.BinarySingleNaN IEEE754.Binary IEEE754.Bits.
From Verif Require Import TradeModel PairModel SimModel CurveModel FastModel FpModel FpSpec FpProofs FpProofs2 FpOrderModel FpOrderProofs FpOrderProofs2.
Local Open Scope R_scope.

(** ** C175 orders of the simulator in double precision *)
Theorem C175_params : forall p1 p2, 0 <= Q2R p1 -> fits 190 (Q2R p1) -> 0 <= Q2R p2 -> fits 190 (Q2R p2) ->
  exists lo hi B S, order_params p1 p2 = Ret (lo, hi, B, S) /\ Q2R lo = Rmin (Q2R p1) (Q2R p2) /\ Q2R hi = Rmax (Q2R p1) (Q2R p2) /\
    finite B /\ finite S /\ 0 <= val B /\ 0 <= val S /\
    Rabs (val B ^ 2 - Q2R lo) <= bpow radix2 (-49) * Q2R lo /\ Rabs ((val B + val S) ^ 2 - Q2R hi) <= bpow radix2 (-49) * Q2R hi.
Proof.
  assert (W : forall lo hi, 0 <= Q2R lo -> Q2R lo <= Q2R hi -> fits 190 (Q2R lo) -> fits 190 (Q2R hi) -> exists B S, order_params hi lo = Ret (lo, hi, B, S) /\
    finite B /\ finite S /\ 0 <= val B /\ 0 <= val S /\
    Rabs (val B ^ 2 - Q2R lo) <= bpow radix2 (-49) * Q2R lo /\ Rabs ((val B + val S) ^ 2 - Q2R hi) <= bpow radix2 (-49) * Q2R hi).
  { intros lo hi L LH Fl Fh. destruct (params_ok lo hi L LH Fl Fh) as (B & S & E & FB & FS & PS & RB & RH). exists B, S.
    split; [exact E |]. split; [exact FB |]. split; [exact FS |]. split; [apply (rn_pos _ _ _ RB) |]. split; [exact PS |]. split.
    - pose proof (rn_mul _ _ _ _ _ _ RB RB) as M. rewrite sqrt_sqrt in M by exact L. replace (val B ^ 2) with (val B * val B) by ring. apply rn_close with (1 := M). lia.
    - pose proof (rn_mul _ _ _ _ _ _ RH RH) as M. rewrite sqrt_sqrt in M by lra. replace ((val B + val S) ^ 2) with ((val B + val S) * (val B + val S)) by ring. apply rn_close with (1 := M). lia. }
  intros p1 p2 H1 F1 H2 F2. destruct (Rle_dec (Q2R p2) (Q2R p1)) as [L | L].
  - destruct (W p2 p1 H2 L F2 F1) as (B & S & K). exists p2, p1, B, S. rewrite Rmin_right, Rmax_left by lra. intuition.
  - rewrite params_swap by lra. destruct (W p1 p2 H1 ltac:(lra) F1 F2) as (B & S & K). exists p1, p2, B, S. rewrite Rmin_left, Rmax_right by lra. intuition.
Qed.
Print Assumptions C175_params.

(** what the fast router quotes for such an order, by target; the exact curve is the one with the roots of the prices *)
Theorem C175_target : forall lo hi y z x, 0 < Q2R lo -> Q2R lo <= Q2R hi -> fits 190 (Q2R lo) -> fits 190 (Q2R hi) ->
  0 <= Q2R y <= Q2R z -> 0 < Q2R z -> 0 <= Q2R x ->
  let P w := sqrt (Q2R lo) * Q2R z + (sqrt (Q2R hi) - sqrt (Q2R lo)) * w in
  let d := Rmin (Q2R x) (Q2R y) in
  let exact := d * Q2R z ^ 2 / (P (Q2R y) * P (Q2R y - d)) in
  exists B S r, order_params hi lo = Ret (lo, hi, B, S) /\ quote_by_target false x (read_order y z B S) = Some r /\
    Q2R (fr_input r) = d /\ Rabs (Q2R (fr_output r) - exact) <= bpow radix2 (-49) * exact.
Proof.
  intros lo hi y z x L LH Fl Fh (y0 & yz) z0 Hx P d e.
  destruct (quotes_ok lo hi y z L LH Fl Fh y0 yz z0) as (B & S & E & T & _). destruct (T x Hx) as (r & Er & I & O).
  exists B, S, r. split; [exact E |]. split; [exact Er |]. split; [exact I |].
  replace e with (cost (sqrt (Q2R lo)) (sqrt (Q2R hi)) (Q2R z) (Q2R y) (Rmin (Q2R x) (Q2R y))) by (unfold cost, e, P, d, lin, Rdiv; ring).
  apply rn_close with (1 := O). lia.
Qed.
Print Assumptions C175_target.
(** and by source *)
Theorem C175_source : forall lo hi y z x, 0 < Q2R lo -> Q2R lo <= Q2R hi -> fits 190 (Q2R lo) -> fits 190 (Q2R hi) ->
  0 <= Q2R y <= Q2R z -> 0 < Q2R z -> 0 <= Q2R x ->
  let P w := sqrt (Q2R lo) * Q2R z + (sqrt (Q2R hi) - sqrt (Q2R lo)) * w in
  let bought := Q2R x * P (Q2R y) ^ 2 / ((sqrt (Q2R hi) - sqrt (Q2R lo)) * Q2R x * P (Q2R y) + Q2R z ^ 2) in
  let whole := Q2R y * Q2R z ^ 2 / (P (Q2R y) * P 0) in
  exists B S r, order_params hi lo = Ret (lo, hi, B, S) /\ quote_by_source false x (read_order y z B S) = Some r /\
    Rabs (Q2R (fr_output r) - Rmin bought (Q2R y)) <= bpow radix2 (-49) * Rmin bought (Q2R y) /\
    Rabs (Q2R (fr_input r) - Rmin (Q2R x) whole) <= bpow radix2 (-49) * Rmin (Q2R x) whole.
Proof.
  intros lo hi y z x L LH Fl Fh (y0 & yz) z0 Hx P bought whole.
  destruct (quotes_ok lo hi y z L LH Fl Fh y0 yz z0) as (B & S & E & _ & T). destruct (T x Hx) as (r & Er & O & I).
  exists B, S, r. split; [exact E |]. split; [exact Er |].
  replace bought with (gain (sqrt (Q2R lo)) (sqrt (Q2R hi)) (Q2R z) (Q2R y) (Q2R x)).
  2:{ unfold gain, bought, P, lin. simpl pow. rewrite !Rmult_1_r. reflexivity. }
  replace whole with (cost (sqrt (Q2R lo)) (sqrt (Q2R hi)) (Q2R z) (Q2R y) (Q2R y)).
  2:{ unfold cost, whole, P, lin. simpl pow. rewrite !Rmult_1_r, Rmult_assoc. replace (Q2R y - Q2R y) with 0 by ring. reflexivity. }
  split; [apply rn_close with (1 := O); lia | apply rn_close with (1 := I); lia].
Qed.
Print Assumptions C175_source.

Theorem C175_negative : forall lo hi, Q2R lo <= Q2R hi -> Q2R lo < 0 -> fits 1000 (- Q2R lo) -> order_params hi lo = Raise ValueError.
Proof. exact params_negative. Qed.
Print Assumptions C175_negative.

(** a range of prices can become a single one *)
Definition one_up : fl := B754_finite 53 1024 false 4503599627370497 (-52) eq_refl.
Lemma bits_inj : forall x y : fl, bits_of_b64 x = bits_of_b64 y -> x = y.
Proof. intros x y H. rewrite <- (binary_float_of_bits_of_binary_float 52 11 (eq_refl _) (eq_refl _) (eq_refl _) x), <- (binary_float_of_bits_of_binary_float 52 11 (eq_refl _) (eq_refl _) (eq_refl _) y). unfold bits_of_b64 in H. rewrite H. reflexivity. Qed.
Theorem C175_width_refuted : exists lo hi B S, Q2R lo < Q2R hi /\ order_params hi lo = Ret (lo, hi, B, S) /\ val S = 0.
Proof.
  exists 1%Q, (4503599627370497 # 4503599627370496)%Q, fone, fzero. split; [unfold Q2R; cbn [Qnum Qden]; lra |]. split; [| reflexivity].
  assert (E1 : fdec 1 = fone) by (apply bits_inj; vm_compute; reflexivity).
  assert (E2 : fdec (4503599627370497 # 4503599627370496) = one_up) by (apply bits_inj; vm_compute; reflexivity).
  assert (E3 : b64_sqrt mode_NE fone = fone) by (apply bits_inj; vm_compute; reflexivity).
  assert (E4 : b64_sqrt mode_NE one_up = fone) by (apply bits_inj; vm_compute; reflexivity).
  assert (E5 : fsub fone fone = fzero) by (apply bits_inj; vm_compute; reflexivity).
  unfold order_params. change (Qlt_bool (4503599627370497 # 4503599627370496) 1) with false. cbn iota. rewrite E1, E2. unfold fsqrt.
  change (flt fone fzero) with false. change (flt one_up fzero) with false. cbn [rbind]. rewrite E3, E4, E5. reflexivity.
Qed.
Print Assumptions C175_width_refuted.
(** prices 1500 to 2000 (not doubles' squares), capacity 10, balance 7 *)
Example C175_ex : 0 < Q2R 1500 /\ Q2R 1500 <= Q2R 2000 /\ fits 190 (Q2R 1500) /\ fits 190 (Q2R 2000) /\ 0 <= Q2R 7 <= Q2R 10 /\
  exists r, (let* x := order_params 2000 1500 in let '(_, _, B, W) := x in Ret (quote_by_target false 3 (read_order 7 10 B W))) = Ret (Some r) /\ (fr_input r = 3)%Q.
Proof.
  assert (F : forall n d, 1 <= Q2R (n # d) <= 4096 -> fits 190 (Q2R (n # d))).
  { intros n d (H1 & H2). right. split.
    - apply Rle_trans with (bpow radix2 0); [apply bpow_le; lia | exact H1].
    - apply Rle_trans with (bpow radix2 12); [exact H2 | apply bpow_le; lia]. }
  split; [unfold Q2R; simpl; lra |]. split; [unfold Q2R; simpl; lra |]. split; [apply F; unfold Q2R; simpl; lra |]. split; [apply F; unfold Q2R; simpl; lra |].
  split; [unfold Q2R; simpl; lra |]. eexists. split; [vm_compute; reflexivity |]. reflexivity.
Qed.
