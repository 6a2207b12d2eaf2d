(** Model of prices and of the reserve of token 1 of Univ3Calculator (carbon/tools/univ3calc.py) in double
    precision. Univ3Model.v has the same functions over the real numbers.

    sp96 and liquidity are Python integers. Left out: overflow of integers beyond the doubles
    (OverflowError in Python, infinite here). The decimal factor 10**(dec0-dec1) and the lower end
    of the range 1.0001**tick * decf come from the library's power function and are arguments. *)
From Coq Require Import ZArith Bool List.
From Flocq Require Import Core IEEE754.BinarySingleNaN IEEE754.Binary IEEE754.Bits.
From Verif Require Import CurveModel FpModel.

(** the double nearest to n * 2^e: conversion of an integer, and (e < 0) its quotient by a power of two, which
    Python rounds once *)
Definition f_of (n e : Z) : fl := binary_normalize 53 1024 (eq_refl _) (eq_refl _) mode_NE n e false.
(** univ3calc.py:138-141 *)
Definition u_price_f (sp96 : Z) : fl := f_of (sp96 ^ 2) (-192).
(** 143-147 *)
Definition u_p (sp96 : Z) (decf : fl) : fl := fmul (u_price_f sp96) decf.
(** 149-152 *)
Definition u_p_inv (sp96 : Z) (decf : fl) : res fl := fdiv fone (u_p sp96 decf).
(** 158-161 *)
Definition u_sp96_from_price (p : fl) : res fl := let* s := fsqrt p in Ret (fmul s (f_of (2 ^ 96) 0)).
(** 195-204, for the lower end pa of the range *)
Definition u_tkn1reserve (liquidity sp96 : Z) (decf pa : fl) : res fl :=
  let* sa := fsqrt pa in
  let* s := fsqrt (u_p sp96 decf) in
  Ret (fmul (fmul (f_of liquidity 0) (fsub s sa)) decf).
