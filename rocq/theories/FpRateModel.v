(** Model of the rounding of Decimals in the encoding of orders by benchmark/core/trade/impl.py:20-46.
    benchmark/core/__init__.py:5-6 sets a precision of 100 digits and ROUND_HALF_DOWN; a square
    root is always rounded half even. TradeModel.v has the same functions without rounding.

    Exponents of Decimals are unbounded here; constructing a Decimal from a text does not round. *)
From Coq Require Import ZArith QArith Qreals Reals.
From Flocq Require Import Core.
From Verif Require Import TradeModel FpDecModel.

(** ties are rounded towards zero: the choice, given the integer below *)
Definition half_down (n : Z) : bool := (n <? 0)%Z.
Definition rd_sqrt (x : R) : R := round ten (FLX_exp 100) ZnearestE (sqrt x).
Definition rd_mul (x y : R) : R := round ten (FLX_exp 100) (Znearest half_down) (x * y).
(** impl.py:20-23; [int(x)] truncates; the root of a negative number raises *)
Definition d_encodeRate (value : R) : option Z :=
  if Rlt_dec value 0 then None else
  let data := Ztrunc (rd_mul (rd_sqrt value) (IZR ONE)) in
  let length := bitLength (data / ONE) in
  Some (Z.shiftl (Z.shiftr data length) length).
(** impl.py:36-46 *)
Definition d_encodeOrder (liquidity lowestRate highestRate marginalRate : R) : option order :=
  let y := Ztrunc liquidity in
  do L <- d_encodeRate lowestRate;
  do H <- d_encodeRate highestRate;
  do M <- d_encodeRate marginalRate;
  do z <- (if H =? M then Some y else pydiv (y * (H - L)) (M - L))%Z;
  Some (mkOrder y z (encodeFloat (H - L)) (encodeFloat L)).
(** a Decimal with p as its digits and d of them after the point *)
Definition digits (p : Z) (d : nat) : Q := (inject_Z p / inject_Z (10 ^ Z.of_nat d))%Q.
