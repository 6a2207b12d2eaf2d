(** Model of the reserve of token 0 of Univ3Calculator (carbon/tools/univ3calc.py) in double precision,
    beside FpUniModel.v and with the same omissions. *)
From Coq Require Import ZArith Bool List.
From Flocq Require Import Core IEEE754.BinarySingleNaN IEEE754.Binary IEEE754.Bits.
From Verif Require Import CurveModel FpModel FpUniModel.

(** univ3calc.py:184-193, for the upper end pb of the range *)
Definition u_tkn0reserve (liquidity sp96 : Z) (decf pb : fl) : res fl :=
  let* sb := fsqrt pb in
  let* s := fsqrt (u_p sp96 decf) in
  let* q := fdiv (fmul (f_of liquidity 0) (fsub sb s)) (fmul s sb) in
  Ret (fmul q decf).
