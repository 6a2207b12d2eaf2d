(** What is said about constant product curves in double precision. *)
From Coq Require Import ZArith Reals.
From Flocq Require Import Core IEEE754.BinarySingleNaN IEEE754.Binary IEEE754.Bits.
From Verif Require Import CurveModel FpModel FpSpec FpCpcModel.
Local Open Scope R_scope.

(** a positive double that is not absurdly small or large *)
Definition amount (f : fl) : Prop := finite f /\ 0 < val f /\ fits 100 (val f).
(** the same, or zero *)
Definition input (f : fl) : Prop := finite f /\ fits 100 (val f).
(** a pool with an ordinary constant and an ordinary balance *)
Definition pool (c : fcpc) : Prop := amount (fc_k c) /\ amount (fc_x c).
(** k, x, y and p of the curve are those given, up to rounding; the actual balances are the virtual ones *)
Definition curve_ok (c : fcpc) (k x y p : R) : Prop := let e := bpow radix2 (-49) in
  Rabs (val (fc_k c) - k) <= e * k /\ Rabs (val (fc_x c) - x) <= e * x /\
  (exists fy, fc_y c = Ret fy /\ Rabs (val fy - y) <= e * y) /\ (exists fp, fc_p c = Ret fp /\ Rabs (val fp - p) <= e * p) /\
  fc_xa c = fc_x c /\ fc_y c = Ret (fc_ya c).
