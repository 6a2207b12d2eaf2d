(** Model of the rounding of Decimals in the reference formulas of benchmark/core/trade/spec.py:3-27, 42-43:
    100 digits, ROUND_HALF_DOWN (benchmark/core/__init__.py:5-6), roots half even. TradeModel.v
    has the two formulas without rounding.

    Exponents of Decimals are unbounded here; constructing a Decimal from a text does not round. *)
From Coq Require Import ZArith Reals.
From Flocq Require Import Core.
From Verif Require Import FpDecModel FpRateModel.
Local Open Scope R_scope.

Definition rh (x : R) : R := round ten (FLX_exp 100) (Znearest half_down) x.
(** a division by zero raises *)
Definition rh_div (x y : R) : option R := if Req_EM_T y 0 then None else Some (rh (x / y)).
(** spec.py:19-22 *)
Definition d_bySource (x y L M : R) : option R :=
  let n := rh (rh (rh (M * M) * x) * y) in
  let d := rh (rh (rh (M * rh (M - L)) * x) + y) in
  rh_div n d.
(** spec.py:24-27 *)
Definition d_byTarget (x y L M : R) : option R :=
  let n := rh (x * y) in
  let d := rh (rh (rh (M * rh (L - M)) * x) + rh (rh (M * M) * y)) in
  rh_div n d.
(** spec.py:3-9, 29-43: [execute] with the roots of the rates of an order; the highest rate is not used;
    a negative rate raises *)
Definition d_execute (f : R -> R -> R -> R -> option R) (amount liquidity lowestRate highestRate marginalRate : R) : option R :=
  if Rlt_dec lowestRate 0 then None else if Rlt_dec highestRate 0 then None else if Rlt_dec marginalRate 0 then None else
  f amount liquidity (rd_sqrt lowestRate) (rd_sqrt marginalRate).
