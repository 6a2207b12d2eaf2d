(** Model of orders of Carbon given by their prices, read as constant product curves (carbon/tools/cpc.py),
    in double precision. FpCpc2Model.v has the same constructor with A and B given.

    Left out: tokens, ids, parameters. Whether the prices have to be inverted (isdydx is False and tkny is
    the base token of the pair) is the argument [inv]. y**2 is a parameter [pw] as in FpModel.v. *)
From Coq Require Import ZArith Bool List.
From Flocq Require Import Core IEEE754.BinarySingleNaN IEEE754.Binary IEEE754.Bits.
From Verif Require Import CurveModel FpModel FpCpcModel FpCpc2Model.

(** cpc.py:482-483: the double written 1.0000001 *)
Definition fwiden : fl := B754_finite 53 1024 false 4503600077730459 (-52) eq_refl.
(** 471-490: A and B from the prices *)
Definition fc_prices (inv : bool) (pa pb : fl) : res (fl * fl) :=
  let* pa := (if inv then fdiv fone pa else Ret pa) in
  let* pb := (if inv then fdiv fone pb else Ret pb) in
  let* r := (if feq pa pb then let* q := fdiv pb fwiden in Ret (fmul pa fwiden, q) else Ret (pa, pb)) in
  let (pa, pb) := r in
  if negb (flt pb pa) then Raise AssertionError else
  let* sa := fsqrt pa in let* sb := fsqrt pb in
  Ret (fsub sa sb, sb).
(** 415-514, with pa and pb given *)
Definition fc_from_carbon_p (pw : fl -> fl) (inv : bool) (yint y pa pb : fl) : res fcpc :=
  if negb (fle y yint) then Raise AssertionError else
  if negb (fle fzero y) then Raise AssertionError else
  let* r := fc_prices inv pa pb in
  let (A, B) := r in
  let* yasym := fdiv (fmul yint B) A in
  let* kappa := fdiv (pw yint) (pw A) in
  let* x := fdiv kappa (fadd y yasym) in
  fmake kappa x (Some fzero) (Some y).
