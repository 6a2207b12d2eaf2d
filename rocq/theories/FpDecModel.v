(** Model of the quotes of carbon/routers/fast_router.py (47-116, use_floor_division=False) with the
    rounding of Decimal arithmetic: every operation gives the nearest number with 128 decimal
    digits, ties to even (carbon/order.py:20, getcontext().prec = 128). FastModel.v has the same
    functions without rounding.

    Exponents of Decimals are unbounded here (they reach from -999999 to 999999). A division by
    zero raises (DivisionByZero and InvalidOperation are written ZeroDivision). Constructing a
    Decimal does not round. *)
From Coq Require Import ZArith Reals.
From Flocq Require Import Core.
From Verif Require Import CurveModel.
Local Open Scope R_scope.

Definition ten : radix := Build_radix 10 (eq_refl _).
Definition rd (x : R) : R := round ten (FLX_exp 128) ZnearestE x.
Definition dadd (x y : R) : R := rd (x + y).
Definition dsub (x y : R) : R := rd (x - y).
Definition dmul (x y : R) : R := rd (x * y).
Definition ddiv (x y : R) : res R := if req y 0 then Raise ZeroDivision else Ret (rd (x / y)).

(** fast_router.py:59, 81: the four numbers of an order *)
Record dorder := mkDorder { d_y : R; d_z : R; d_A : R; d_B : R }.
(** 47-67; ONE is Decimal("1") (263) *)
Definition d_amt_by_src (o : dorder) (dx : R) : res R :=
  let temp1 := dmul (d_z o) 1 in
  let temp2 := dadd (dmul (d_y o) (d_A o)) (dmul (d_z o) (d_B o)) in
  let temp3 := dsub temp2 (dmul dx (d_A o)) in
  ddiv (dmul (dmul dx temp1) temp1) (dmul temp2 temp3).
(** 69-92 *)
Definition d_amt_by_target (o : dorder) (dx : R) : res R :=
  let temp1 := dadd (dmul (d_y o) (d_A o)) (dmul (d_z o) (d_B o)) in
  let* temp2 := ddiv (dmul temp1 dx) 1 in
  let temp3 := dadd (dmul temp2 (d_A o)) (dmul (dmul (d_z o) (d_z o)) 1) in
  ddiv (dmul temp1 temp2) temp3.
(** Python's [min(a, b)] *)
Definition dmin (a b : R) : R := if rlt b a then b else a.
(** 94-105: (input, output) *)
Definition d_quote_by_source (source_amount : R) (o : dorder) : res (R * R) :=
  let* target_amount := d_amt_by_target o source_amount in
  let output := dmin target_amount (d_y o) in
  let* input := d_amt_by_src o output in
  Ret (input, output).
(** 107-116: (input, output) *)
Definition d_quote_by_target (target_amount : R) (o : dorder) : res (R * R) :=
  let input := dmin target_amount (d_y o) in
  let* output := d_amt_by_src o input in
  Ret (input, output).
