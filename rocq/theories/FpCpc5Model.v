(** Model of the total value locked of ConstantProductCurve (carbon/tools/cpc.py) in double precision. The choice of
    the token and the error for other tokens are in CpcModel.v. *)
From Coq Require Import ZArith Bool List.
From Flocq Require Import Core IEEE754.BinarySingleNaN IEEE754.Binary IEEE754.Bits.
From Verif Require Import CurveModel FpModel FpCpcModel.

(** cpc.py:630-634, for the base token (inb true) or the quote token *)
Definition fc_tvl (c : fcpc) (mult : fl) (inb : bool) : res fl :=
  let* p := fc_p c in
  let tvl_tknq := fmul (fadd (fmul p (fc_xa c)) (fc_ya c)) mult in
  if inb then fdiv tvl_tknq p else Ret tvl_tknq.
