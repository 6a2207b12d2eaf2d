(** What is said about Univ3Calculator in double precision. *)
From Coq Require Import ZArith Reals.
From Flocq Require Import Core IEEE754.BinarySingleNaN IEEE754.Binary IEEE754.Bits.
From Verif Require Import CurveModel FpModel FpSpec.
Local Open Scope R_scope.

(** the square root price of a contract: 160 bits, and not so small that the price vanishes *)
Definition root_price (s : Z) : Prop := (0 < s < 2 ^ 160)%Z.
(** a decimal factor: an ordinary double, at most 10^60 and at least 10^-60 *)
Definition factor (d : fl) : Prop := finite d /\ fits 200 (val d) /\ 0 < val d.
