(** What is said about pools as constant product curves in double precision. *)
From Coq Require Import ZArith Reals.
From Flocq Require Import Core IEEE754.BinarySingleNaN IEEE754.Binary IEEE754.Bits.
From Verif Require Import CurveModel FpModel FpSpec FpCpcModel FpCpc2Model.
Local Open Scope R_scope.

(** the lower end of the range of a pool without one: y_min is zero up to rounding, and p_min is None or next to nothing *)
Definition small_end (c : fcpc) (y p : R) : Prop := exists m, fc_y_min c = Ret m /\ finite m /\ Rabs (val m) <= bpow radix2 (-51) * y /\
  (fc_p_min c = Ret None \/ exists r, fc_p_min c = Ret (Some r) /\ finite r /\ 0 <= val r <= bpow radix2 (-99) * p).
(** an end of a range, if there is one *)
Definition below (v : fl) (m : option fl) : Prop := match m with Some m => val v <= val m | None => True end.
Definition all_finite (m : option fl) : Prop := match m with Some m => finite m | None => True end.
