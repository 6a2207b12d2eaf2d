(** C178: the reference amounts of the benchmark, computed with Decimals of 100 digits, are those of the
    exact formulas. *)
From Coq Require Import ZArith Reals Lra.
From Verif Require Import FpSpecModel FpSpecProofs.
Local Open Scope R_scope.

(** ** C178 rounding errors of the reference formulas *)
(** An amount that the order can take (x * sqrt(m l) <= y: the exact amount bought is at most y) buys the
    exact amount within 10^-96 of it, whatever the rates are. *)
Theorem C178_source : forall x y l h m, 0 <= x -> 0 < y -> 0 <= l -> 0 <= h -> l <= m -> sqrt m * sqrt l * x <= y ->
  let exact := m * x * y / (sqrt m * (sqrt m - sqrt l) * x + y) in
  exists q, d_execute d_bySource x y l h m = Some q /\ Rabs (q - exact) <= / 10 ^ 96 * exact.
Proof. exact source_bound. Qed.
Print Assumptions C178_source.
(** The amount to pay for any part of the liquidity is exact within 10^-96 times the ratio of the two roots. *)
Theorem C178_target : forall x y l h m, 0 <= x <= y -> 0 < y -> 0 < l -> 0 <= h -> l <= m -> sqrt m <= 10 ^ 90 * sqrt l ->
  let exact := x * y / (m * y - sqrt m * (sqrt m - sqrt l) * x) in
  exists q, d_execute d_byTarget x y l h m = Some q /\ Rabs (q - exact) <= / 10 ^ 96 * (sqrt m / sqrt l) * exact.
Proof. exact target_bound. Qed.
Print Assumptions C178_target.
(** nothing from nothing raises, and so does a negative rate *)
Theorem C178_empty : forall l h m, d_execute d_bySource 0 0 l h m = None /\ d_execute d_byTarget 0 0 l h m = None.
Proof. exact empty. Qed.
Print Assumptions C178_empty.
Theorem C178_negative : forall f x y l h m, l < 0 \/ h < 0 \/ m < 0 -> d_execute f x y l h m = None.
Proof. exact negative. Qed.
Print Assumptions C178_negative.

(** rates between 1 and 4, 100 units: 10 buy 100/3 and 50 cost 50/3 *)
Example C178_ex : (exists q, d_execute d_bySource 10 100 1 4 4 = Some q /\ Rabs (q - 100 / 3) <= / 10 ^ 96 * 34)
  /\ (exists q, d_execute d_byTarget 50 100 1 4 4 = Some q /\ Rabs (q - 50 / 3) <= / 10 ^ 96 * 34).
Proof.
  assert (S4 : sqrt 4 = 2) by (replace 4 with (2 * 2) by ring; apply sqrt_square; lra). assert (S1 := sqrt_1).
  assert (T : 0 < / 10 ^ 96) by (apply Rinv_0_lt_compat, pow_lt; lra). assert (B : 1 <= 10 ^ 90) by (apply pow_R1_Rle; lra). split.
  - destruct (C178_source 10 100 1 4 4) as (q & E & K); try lra; [rewrite S4, S1; lra |]. exists q. split; [exact E |]. rewrite S4, S1 in K.
    replace (4 * 10 * 100 / (2 * (2 - 1) * 10 + 100)) with (100 / 3) in K by field. apply Rle_trans with (1 := K). apply Rmult_le_compat_l; lra.
  - destruct (C178_target 50 100 1 4 4) as (q & E & K); try lra; try (rewrite S4, S1; lra). exists q. split; [exact E |]. rewrite S4, S1 in K.
    replace (50 * 100 / (4 * 100 - 2 * (2 - 1) * 50)) with (50 / 3) in K by field. apply Rle_trans with (1 := K). rewrite Rmult_assoc. apply Rmult_le_compat_l; lra.
Qed.
