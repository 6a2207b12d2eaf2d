(** C177: the encoding of orders by the benchmark, computed with Decimals of 100 digits, gives the
    integers of the exact formulas. *)
From Coq Require Import ZArith QArith Qreals Qround Reals Lia Lra.
From Verif Require Import TradeModel FpRateModel FpRateProofs.

(** ** C177 rounding to 100 digits does not change an encoded rate *)
(** A rate of at most 69 significant digits, wherever its point is, is encoded as the integer part of
    sqrt(rate) * 2^48, cleared of its lower bits. *)
Theorem C177_rate : forall p d, (0 <= p < 10 ^ 69)%Z ->
  let data := Z.sqrt (p * 2 ^ 96 / 10 ^ Z.of_nat d) in
  let length := if (data <? 2 ^ 48)%Z then 0%Z else (Z.log2 data - 47)%Z in
  d_encodeRate (IZR p / IZR (10 ^ Z.of_nat d)) = Some (data / 2 ^ length * 2 ^ length)%Z.
Proof. exact rate_value. Qed.
Print Assumptions C177_rate.
(** The same integer is what the model without rounding, used by the claims on traded amounts, has. *)
Theorem C177_same : forall p d, (0 <= p < 10 ^ 69)%Z -> d_encodeRate (Q2R (digits p d)) = encodeRate (digits p d).
Proof. exact rate_exact. Qed.
Print Assumptions C177_same.
(** and so have orders the same four integers *)
Theorem C177_order : forall y p d p' d' p'' d'', (0 <= y)%Q -> (0 <= p < 10 ^ 69)%Z -> (0 <= p' < 10 ^ 69)%Z -> (0 <= p'' < 10 ^ 69)%Z ->
  d_encodeOrder (Q2R y) (Q2R (digits p d)) (Q2R (digits p' d')) (Q2R (digits p'' d'')) = encodeOrder y (digits p d) (digits p' d') (digits p'' d'').
Proof. exact order_exact. Qed.
Print Assumptions C177_order.
(** negative rates have no encoding *)
Theorem C177_negative : forall x, (x < 0)%R -> d_encodeRate x = None.
Proof. exact rate_negative. Qed.
Print Assumptions C177_negative.
(** For rates with more digits it fails: 1 - 10^-210 is encoded as 2^48, which decodes to a rate above it. *)
Theorem C177_long_refuted : exists r, (0 < r < 1)%Q /\ encodeRate r = Some (2 ^ 48 - 1)%Z /\ d_encodeRate (Q2R r) = Some (2 ^ 48)%Z.
Proof. exists near_one. split; [split; reflexivity |]. split; [exact near_one_exact | exact near_one_up]. Qed.
Print Assumptions C177_long_refuted.

(** the rates 1500.5, 1/4 and 10^-20 *)
Example C177_ex : d_encodeRate (IZR 15005 / IZR (10 ^ Z.of_nat 1)) = Some 10903295733522624%Z /\ d_encodeRate (IZR 25 / IZR (10 ^ Z.of_nat 2)) = Some (2 ^ 47)%Z
  /\ d_encodeRate (IZR 1 / IZR (10 ^ Z.of_nat 20)) = Some 28147%Z.
Proof. repeat split; rewrite C177_rate by (split; [discriminate | reflexivity]); vm_compute; reflexivity. Qed.
