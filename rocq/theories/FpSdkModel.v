(** Model of the encoded orders of carbon/sdk/carbonsdk.py (207-367) in double precision; the
    same functions over the rationals are in SdkModel.v.

    Prices are floats; amounts and encoded numbers are ints, of any size. An int divided by an int
    is rounded once. OverflowError is written RuntimeError here. The choice of the capacity from a
    marginal price (p_marg) is not modelled in double precision. *)
From Coq Require Import ZArith Bool String.
From Flocq Require Import Core IEEE754.BinarySingleNaN IEEE754.Binary IEEE754.Bits.
From Verif Require Import TradeModel CurveModel SdkModel FpModel.
Local Open Scope Z_scope.

(** the float of 2**48 *)
Definition fONE : fl := B754_finite 53 1024 false 4503599627370496 (-4) eq_refl.
(** int(x): towards zero; infinity and nan raise *)
Definition fint (x : fl) : res Z :=
  match x with
  | B754_zero _ _ _ => Ret 0
  | B754_infinity _ _ _ => Raise RuntimeError
  | B754_nan _ _ _ _ _ => Raise ValueError
  | B754_finite _ _ s m e _ => Ret (cond_Zopp s (if 0 <=? e then Z.pos m * 2 ^ e else Z.pos m / 2 ^ (- e)))
  end.
(** n / 2**48 for an int n *)
Definition fdiv_one (n : Z) : res fl :=
  let q := binary_normalize 53 1024 (eq_refl _) (eq_refl _) mode_NE n (-48) false in
  if is_finite 53 1024 q then Ret q else Raise RuntimeError.

(** carbonsdk.py:258-263 *)
Definition feo_encodeRate (v : fl) : res Z :=
  let* s := fsqrt v in
  let* data := fint (fmul s fONE) in
  let length := bitLength (data / ONE) in
  Ret (Z.shiftl (Z.shiftr data length) length).
(** carbonsdk.py:272-304 without p_marg; [encodeFloat] works on ints *)
Definition feo_encode (y : Z) (hi lo : fl) (z : option Z) (token : option string) : res eorder :=
  let token := match token with None => "TKN"%string | Some t => t end in
  let zz := match z with Some z => z | None => y end in
  let* h := feo_encodeRate hi in
  let* l := feo_encodeRate lo in
  Ret (mkEorder token y zz (encodeFloat (h - l)) (encodeFloat l)).
(** carbonsdk.py:243-251 *)
Definition feo_decode (v : Z) : res fl := if v / ONE <? 0 then Raise ValueError else fdiv_one (decodeFloat v).
(** carbonsdk.py:341-363 *)
Definition feo_A_ (o : eorder) : res fl := feo_decode (eo_A o).
Definition feo_B_ (o : eorder) : res fl := feo_decode (eo_B o).
Definition feo_p_end (o : eorder) : res fl := let* b := feo_B_ o in Ret (fmul b b).
Definition feo_p_start (pw : fl -> fl) (o : eorder) : res fl := let* b := feo_B_ o in let* a := feo_A_ o in Ret (pw (fadd b a)).
Definition feo_p_marg (pw : fl -> fl) (o : eorder) : res fl :=
  if eo_y o =? eo_z o then feo_p_start pw o
  else if eo_y o =? 0 then feo_p_end o
  else Raise RuntimeError.
