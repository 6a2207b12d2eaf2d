(** What is said about orders given by their prices. *)
From Coq Require Import ZArith Reals.
From Flocq Require Import Core IEEE754.BinarySingleNaN IEEE754.Binary IEEE754.Bits.
From Verif Require Import CurveModel FpModel FpSpec FpCpc3Model.
Local Open Scope R_scope.

(** an ordinary price *)
Definition price (p : fl) : Prop := finite p /\ bpow radix2 (-90) <= val p <= bpow radix2 90.
(** the roots computed from two prices *)
Definition roots_of (e : Z) (r : res (fl * fl)) (P Q : R) : Prop := exists A B, r = Ret (A, B) /\ finite A /\ finite B /\ 0 <= val A /\
  Rabs (val A - (sqrt P - sqrt Q)) <= bpow radix2 e * sqrt P /\ Rabs (val B - sqrt Q) <= bpow radix2 (-51) * sqrt Q.
