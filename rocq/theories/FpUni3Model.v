(** Model of the total value locked of Univ3Calculator (carbon/tools/univ3calc.py) in double precision,
    with the omissions of FpUniModel.v. *)
From Coq Require Import ZArith Bool List.
From Flocq Require Import Core IEEE754.BinarySingleNaN IEEE754.Binary IEEE754.Bits.
From Verif Require Import CurveModel FpModel FpUniModel FpUni2Model.

(** univ3calc.py:206-213, for the ends pa and pb of the range *)
Definition u_tvl (liquidity sp96 : Z) (decf pa pb : fl) (astkn0 : bool) : res fl :=
  let* r0 := u_tkn0reserve liquidity sp96 decf pb in
  let* r1 := u_tkn1reserve liquidity sp96 decf pa in
  let* i := u_p_inv sp96 decf in
  let tvl_tkn0 := fadd r0 (fmul r1 i) in
  Ret (if astkn0 then tvl_tkn0 else fmul tvl_tkn0 (u_p sp96 decf)).
