(** Model of benchmark/core/trade/impl.py (integer trade functions and order
    encoding, as in the Carbon smart contracts) and benchmark/core/trade/spec.py.

    Python ints are [Z]. A Python exception (failed assert, ZeroDivisionError)
    is [None]. Python's [//] and [%] on ints are floor division and modulo, which
    is what [Z.div]/[Z.modulo] compute for a non-zero divisor; a zero divisor is
    an exception. *)
From Coq Require Import ZArith QArith Qround.
Local Open Scope Z_scope.

(** Exceptions as values: sequencing of computations that may raise. *)
Definition bind {A B : Type} (m : option A) (f : A -> option B) : option B :=
  match m with Some a => f a | None => None end.
Notation "'do' x <- m ; f" := (bind m (fun x => f))
  (at level 200, x name, m at level 100, f at level 200, right associativity).

(** impl.py:3 [ONE = 2 ** 48] *)
Definition ONE : Z := 2 ^ 48.
(** impl.py:5-6 *)
Definition MAX_UINT128 : Z := 2 ^ 128 - 1.
Definition MAX_UINT256 : Z := 2 ^ 256 - 1.

(** impl.py:8 [check]: assert 0 <= val <= max; return val *)
Definition check (val max : Z) : option Z :=
  if (0 <=? val) && (val <=? max) then Some val else None.

(** Python's [a // b] on ints: ZeroDivisionError when b == 0. *)
Definition pydiv (a b : Z) : option Z := if b =? 0 then None else Some (a / b).

(** impl.py:10-15 *)
Definition uint128 (n : Z) : option Z := check n MAX_UINT128.
Definition add (a b : Z) : option Z := check (a + b) MAX_UINT256.
Definition sub (a b : Z) : option Z := check (a - b) MAX_UINT256.
Definition mul (a b : Z) : option Z := check (a * b) MAX_UINT256.
Definition mulDivF (a b c : Z) : option Z :=
  do q <- pydiv (a * b) c; check q MAX_UINT256.
Definition mulDivC (a b c : Z) : option Z :=
  do q <- pydiv (a * b + c - 1) c; check q MAX_UINT256.

(** impl.py:17-18 [bitLength]: number of binary digits of a positive value, else 0.
    ([len(bin(v).lstrip('0b'))] for v > 0 is the number of binary digits,
    i.e. [Z.log2 v + 1].) *)
Definition bitLength (value : Z) : Z := if 0 <? value then Z.log2 value + 1 else 0.

(** impl.py:20-23 [encodeRate]. The argument is a Decimal; it is modelled as an
    exact rational. Simplification: [int(value.sqrt() * ONE)], computed by the code
    with 100-digit decimals, is modelled as the exact integer part of
    sqrt(value) * ONE, i.e. the integer square root of floor(value * ONE^2); C177
    (FpRateModel.v) proves that the two agree for rates of at most 69 digits.
    A negative value makes Decimal.sqrt raise. *)
Definition encodeRate (value : Q) : option Z :=
  if Qle_bool 0 value then
    let data := Z.sqrt (Qfloor (value * inject_Z (ONE * ONE))) in
    let length := bitLength (data / ONE) in
    Some (Z.shiftl (Z.shiftr data length) length)
  else None.

(** impl.py:25-26 [decodeRate] (exact rational instead of Decimal) *)
Definition decodeRate (value : Q) : Q := ((value / inject_Z ONE) * (value / inject_Z ONE))%Q.

(** impl.py:28-31 [encodeFloat] *)
Definition encodeFloat (value : Z) : Z :=
  let exponent := bitLength (value / ONE) in
  let mantissa := Z.shiftr value exponent in
  Z.lor mantissa (exponent * ONE).

(** impl.py:33-34 [decodeFloat] *)
Definition decodeFloat (value : Z) : Z := Z.shiftl (value mod ONE) (value / ONE).

(** Encoded order: the dict with keys 'y','z','A','B' (impl.py:41-46) *)
Record order := mkOrder { o_y : Z; o_z : Z; o_A : Z; o_B : Z }.

(** impl.py:36-46 [encodeOrder]. The source order's Decimal strings are exact
    rationals; [int(liquidity)] truncates (floor, for a non-negative number). *)
Definition encodeOrder (liquidity lowestRate highestRate marginalRate : Q) : option order :=
  let y := Qfloor liquidity in
  do L <- encodeRate lowestRate;
  do H <- encodeRate highestRate;
  do M <- encodeRate marginalRate;
  do z <- (if H =? M then Some y else pydiv (y * (H - L)) (M - L));
  Some (mkOrder y z (encodeFloat (H - L)) (encodeFloat L)).

(** impl.py:48-58 [decodeOrder]: (liquidity, lowestRate, highestRate, marginalRate);
    Decimal arithmetic as exact rationals; [A * y / z] raises when z = 0. *)
Definition decodeOrder (o : order) : option (Q * Q * Q * Q) :=
  let y := inject_Z (o_y o) in
  let z := inject_Z (o_z o) in
  let A := inject_Z (decodeFloat (o_A o)) in
  let B := inject_Z (decodeFloat (o_B o)) in
  if o_y o =? o_z o then
    Some (y, decodeRate B, decodeRate (B + A), decodeRate (B + A))%Q
  else if o_z o =? 0 then None
  else Some (y, decodeRate B, decodeRate (B + A), decodeRate (B + A * y / z))%Q.

(** impl.py:65-81 [tradeBySourceAmountFunc] *)
Definition tradeBySourceAmountFunc (x y z A B : Z) : option Z :=
  if A =? 0 then
    do bb <- mul B B; do oo <- mul ONE ONE; mulDivF x bb oo
  else
    do temp1 <- mul z ONE;
    do yA <- mul y A; do zB <- mul z B; do temp2 <- add yA zB;
    do temp3 <- mul temp2 x;
    do factor1 <- mulDivC temp1 temp1 MAX_UINT256;
    do factor2 <- mulDivC temp3 A MAX_UINT256;
    let factor := Z.max factor1 factor2 in
    do temp4 <- mulDivC temp1 temp1 factor;
    do temp5 <- mulDivC temp3 A factor;
    if temp4 + temp5 <=? MAX_UINT256 then
      do q <- pydiv temp3 factor; mulDivF temp2 q (temp4 + temp5)
    else
      do c <- mulDivC temp1 temp1 temp3; do d <- add A c; pydiv temp2 d.

(** impl.py:88-102 [tradeByTargetAmountFunc] *)
Definition tradeByTargetAmountFunc (x y z A B : Z) : option Z :=
  if A =? 0 then
    do oo <- mul ONE ONE; do bb <- mul B B; mulDivC x oo bb
  else
    do temp1 <- mul z ONE;
    do yA <- mul y A; do zB <- mul z B; do temp2 <- add yA zB;
    do xA <- mul x A; do temp3 <- sub temp2 xA;
    do factor1 <- mulDivC temp1 temp1 MAX_UINT256;
    do factor2 <- mulDivC temp2 temp3 MAX_UINT256;
    let factor := Z.max factor1 factor2 in
    do temp4 <- mulDivC temp1 temp1 factor;
    do temp5 <- mulDivF temp2 temp3 factor;
    mulDivC x temp4 temp5.

(** impl.py:104-113 [tradeFunc]: any exception inside the try gives the fallback.
    (decodeFloat is outside the try; it cannot raise on non-negative fields.) *)
Definition tradeFunc (amount : Z) (o : order)
    (func : Z -> Z -> Z -> Z -> Z -> option Z) (fallback : Z) : Z :=
  match (do r <- func amount (o_y o) (o_z o) (decodeFloat (o_A o)) (decodeFloat (o_B o));
         uint128 r) with
  | Some v => v
  | None => fallback
  end.

(** impl.py:115-116 *)
Definition tradeBySourceAmount (amount : Z) (o : order) : Z :=
  tradeFunc amount o tradeBySourceAmountFunc 0.
(** impl.py:118-119 *)
Definition tradeByTargetAmount (amount : Z) (o : order) : Z :=
  tradeFunc amount o tradeByTargetAmountFunc MAX_UINT128.

(** spec.py:19-22 *)
Definition spec_tradeBySourceAmountFunc (x y L M : Q) : Q :=
  (let n := M * M * x * y in let d := M * (M - L) * x + y in n / d)%Q.
(** spec.py:24-27 *)
Definition spec_tradeByTargetAmountFunc (x y L M : Q) : Q :=
  (let n := x * y in let d := M * (L - M) * x + M * M * y in n / d)%Q.
