(** What it means that a computation in double precision gives what the same computation gives
    over the real numbers. *)
From Coq Require Import ZArith Reals Bool.
From Flocq Require Import Core IEEE754.BinarySingleNaN IEEE754.Binary IEEE754.Bits.
From Verif Require Import CurveModel FpModel.
Local Open Scope R_scope.

Definition val (f : fl) : R := B2R 53 1024 f.
Definition finite (f : fl) : Prop := is_finite 53 1024 f = true.
(** zero, or not absurdly small or large *)
Definition fits (e : Z) (x : R) : Prop := x = 0 \/ bpow radix2 (- e) <= x <= bpow radix2 e.
(** the library function for squares has an error of at most two units of 2^-53 *)
Definition accurate (pw : fl -> fl) : Prop :=
  forall f, finite f -> fits 450 (val f) -> finite (pw f) /\ Rabs (val (pw f) - val f ^ 2) <= bpow radix2 (-52) * val f ^ 2.
(** the curve with the same numbers *)
Definition to_R (c : fcurve) : curve := mkCurve (f_base c) (val (f_B c)) (val (f_S c)) (val (f_yint c)) (val (f_y c)).
Definition ordinary (c : fcurve) : Prop :=
  (finite (f_B c) /\ fits 100 (val (f_B c))) /\ (finite (f_S c) /\ fits 100 (val (f_S c))) /\
  (finite (f_yint c) /\ fits 100 (val (f_yint c))) /\ (finite (f_y c) /\ fits 100 (val (f_y c))).
(** a number that is an argument: negative ones are allowed where the code refuses them *)
Definition argument (f : fl) : Prop := finite f /\ (val f < 0 \/ fits 100 (val f)).
(** same outcome, numbers up to a relative error *)
Definition close (eps : R) (v : fl) (r : R) : Prop := finite v /\ Rabs (val v - r) <= eps * Rabs r.
Definition same (eps : R) (a : res fl) (b : res R) : Prop :=
  match a, b with Ret v, Ret r => close eps v r | Raise e, Raise e' => e = e' | _, _ => False end.
Definition same_opt (eps : R) (a : res (option fl)) (b : res (option R)) : Prop :=
  match a, b with
  | Ret (Some v), Ret (Some r) => close eps v r
  | Ret None, Ret None => True
  | Raise e, Raise e' => e = e'
  | _, _ => False
  end.
