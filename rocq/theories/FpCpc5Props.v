(** The total value locked of curves in double precision. *)
From Coq Require Import ZArith Reals Bool List Lia Lra.
From Flocq Require Import Core IEEE754.BinarySingleNaN IEEE754.Binary IEEE754.Bits.
From Verif Require Import CurveModel FpModel FpSpec FpProofs FpProofs2 FpCpcModel FpCpcSpec FpCpcProofs FpOrderProps FpCpcProps FpCpc5Model FpCpc5Proofs.
Local Open Scope R_scope.

(** ** C187 The total value locked in a curve with floats, in the base token (inb true) and in the quote token *)
Theorem C187_tvl : forall c m inb, pool c -> finite (fc_xa c) -> fits 100 (val (fc_xa c)) -> finite (fc_ya c) -> fits 100 (val (fc_ya c)) -> finite m -> fits 100 (val m) ->
  let P := val (fc_k c) / val (fc_x c) / val (fc_x c) in let T := (P * val (fc_xa c) + val (fc_ya c)) * val m in
  exists t, fc_tvl c m inb = Ret t /\ finite t /\ 0 <= val t /\ Rabs (val t - (if inb then T / P else T)) <= bpow radix2 (-49) * (if inb then T / P else T).
Proof. exact tvl_ok. Qed.
Print Assumptions C187_tvl.
(** without a range both halves of a pool have the same value *)
Theorem C187_full : forall k x m, amount k -> amount x -> finite m -> fits 100 (val m) -> exists c q b, fc_from_kx k x = Ret c /\ fc_tvl c m false = Ret q /\ fc_tvl c m true = Ret b /\
  (let T := 2 * (val k / val x) * val m in Rabs (val q - T) <= bpow radix2 (-49) * T) /\ (let T := 2 * val x * val m in Rabs (val b - T) <= bpow radix2 (-49) * T).
Proof. exact tvl_full. Qed.
Print Assumptions C187_full.

(** a pool with part of its balances *)
Example C187_ex : let c := mkFcpc f2 f2 fone fone in pool c /\ finite (fc_xa c) /\ fits 100 (val (fc_xa c)) /\ finite (fc_ya c) /\ fits 100 (val (fc_ya c)) /\ amount f2.
Proof.
  assert (A : amount f2) by amt. assert (B : fits 100 (val fone)) by (right; rewrite val_one; change 1 with (bpow radix2 0); split; apply bpow_le; lia).
  cbn [fc_xa fc_ya]. repeat split; try exact B; apply A.
Qed.
