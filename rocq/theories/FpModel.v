(** Model of the price and amount functions of carbon/carbon_order_ui.py as they run: in IEEE 754
    double precision (Python floats), rounding to nearest even, from Flocq. CurveModel.v has the
    same functions over the real numbers.

    x**2 is a call of the C library and need not be correctly rounded, so it is a parameter [pw].
    Dividing by zero raises; no other operation on floats does (x**2 raises on overflow, which is
    outside the range of the theorems). The numbers of a curve are floats (Python ints below 2^53
    behave in the same way). *)
From Coq Require Import ZArith Bool.
From Flocq Require Import Core IEEE754.BinarySingleNaN IEEE754.Binary IEEE754.Bits.
From Verif Require Import CurveModel.

Definition fl := binary64.
Definition fadd (x y : fl) : fl := b64_plus mode_NE x y.
Definition fsub (x y : fl) : fl := b64_minus mode_NE x y.
Definition fmul (x y : fl) : fl := b64_mult mode_NE x y.
Definition fzero : fl := B754_zero 53 1024 false.
(** comparisons; false if a number is not a number *)
Definition feq (x y : fl) : bool := match b64_compare x y with Some Eq => true | _ => false end.
Definition flt (x y : fl) : bool := match b64_compare x y with Some Lt => true | _ => false end.
(** division raises ZeroDivisionError *)
Definition fdiv (x y : fl) : res fl := if feq y fzero then Raise ZeroDivision else Ret (b64_div mode_NE x y).
(** math.sqrt, correctly rounded as by the hardware *)
Definition fsqrt (x : fl) : res fl := if flt x fzero then Raise ValueError else Ret (b64_sqrt mode_NE x).
(** the number 1 *)
Definition fone : fl := B754_finite 53 1024 false 4503599627370496 (-52) eq_refl.

(** carbon_order_ui.py:75-80; [f_base] as in CurveModel.v *)
Record fcurve := mkFcurve { f_base : bool; f_B : fl; f_S : fl; f_yint : fl; f_y : fl }.

Section Curve.
Variable pw : fl -> fl.
(** 86-93 *)
Definition fpb_raw (c : fcurve) : fl := fmul (f_B c) (f_B c).
Definition fpa_raw (c : fcurve) : fl := pw (fadd (f_S c) (f_B c)).
Definition fdisabled (c : fcurve) : bool := feq (fpa_raw c) fzero && feq (fpb_raw c) fzero.
(** 97-98 *)
Definition fpa (c : fcurve) : res fl := if fdisabled c then Raise AttributeError else if f_base c then fdiv fone (fpa_raw c) else Ret (fpa_raw c).
Definition fpb (c : fcurve) : res fl := if fdisabled c then Raise AttributeError else if f_base c then fdiv fone (fpb_raw c) else Ret (fpb_raw c).
(** 99-107 *)
Definition fpminmax (c : fcurve) : res (option (fl * fl)) :=
  if fdisabled c then Ret None else
  let* a := fpa c in let* b := fpb c in Ret (Some (if flt a b then (a, b) else (b, a))).
(** 81-107: the constructor raises when a price cannot be computed *)
Definition fconstruct (base : bool) (B S yint y : fl) : res fcurve :=
  let c := mkFcurve base B S yint y in let* _ := fpminmax c in Ret c.
(** 166-211: from_prices *)
Definition ffrom_prices (base : bool) (p1 p2 yint y : fl) : res fcurve :=
  if flt yint fzero then Raise ValueError else
  if flt yint y then Raise ValueError else
  if flt y fzero then Raise ValueError else
  let* q1 := (if base then fdiv fone p1 else Ret p1) in
  let* q2 := (if base then fdiv fone p2 else Ret p2) in
  let '(a, b) := if flt q1 q2 then (q2, q1) else (q1, q2) in
  let* sb := fsqrt b in let* sa := fsqrt a in
  fconstruct base sb (fsub sa sb) yint y.
(** 634-639 *)
Definition fxint (c : fcurve) : res fl := fdiv (f_yint c) (fadd (pw (f_B c)) (fmul (f_B c) (f_S c))).
Definition ffail (raiseonerror : bool) (e : exc) : res (option fl) := if raiseonerror then Raise e else Ret None.
(** 554 *)
Definition fquoted (c : fcurve) (dydx : fl) : res fl := if f_base c then fdiv fone dydx else Ret dydx.
(** 521-555 *)
Definition fp_marg_f (c : fcurve) (dy : fl) (fullcurve checkbounds raiseonerror : bool) : res (option fl) :=
  if fdisabled c then Ret None else
  let y := if fullcurve then fsub (f_yint c) dy else fsub (f_y c) dy in
  if checkbounds && flt dy fzero then ffail raiseonerror ValueError else
  if checkbounds && flt y fzero then ffail raiseonerror ValueError else
  let* dydx := (if feq (f_yint c) fzero then
                  if negb (feq (f_y c) fzero) && feq dy fzero then Raise NameError else Ret (pw (fadd (f_B c) (f_S c)))
                else let* q := fdiv (fmul (f_S c) y) (f_yint c) in Ret (pw (fadd (f_B c) q))) in
  let* p := fquoted c dydx in Ret (Some p).
(** 659-697 *)
Definition fdyfromdx_f (c : fcurve) (dx : fl) (checkbounds raiseonerror : bool) : res (option fl) :=
  if feq (f_B c) fzero && feq (f_S c) fzero then (if raiseonerror then Raise ValueError else Ret (Some fzero)) else
  if checkbounds && flt dx fzero then ffail raiseonerror ValueError else
  let num := pw (fadd (fmul (f_S c) (f_y c)) (fmul (f_B c) (f_yint c))) in
  let denom := fadd (fmul (fmul (f_S c) dx) (fadd (fmul (f_S c) (f_y c)) (fmul (f_B c) (f_yint c)))) (pw (f_yint c)) in
  if checkbounds && flt num fzero then ffail raiseonerror NameError else
  let* r := fdiv num denom in Ret (Some (fmul dx r)).
(** 699-731 *)
Definition fdxfromdy_f (c : fcurve) (dy : fl) (checkbounds raiseonerror : bool) : res (option fl) :=
  if feq (f_B c) fzero && feq (f_S c) fzero then (if raiseonerror then Raise ValueError else Ret (Some fzero)) else
  if checkbounds && flt dy fzero then ffail raiseonerror ValueError else
  if checkbounds && flt (f_y c) dy then ffail raiseonerror ValueError else
  let num := pw (f_yint c) in
  let t := fadd (fmul (f_S c) (f_y c)) (fmul (f_B c) (f_yint c)) in
  let denom := fmul t (fsub t (fmul (f_S c) dy)) in
  let* r := fdiv num denom in Ret (Some (fmul dy r)).
(** 733-760 *)
Definition fxfromy_f (c : fcurve) (y : fl) (checkbounds raiseonerror : bool) : res (option fl) :=
  if checkbounds && flt (f_yint c) y then ffail raiseonerror ValueError else
  if checkbounds && flt y fzero then ffail raiseonerror ValueError else
  let num := fmul (f_yint c) (fsub (f_yint c) y) in
  let denom := fadd (fadd (fadd (fmul (pw (f_B c)) (f_yint c)) (fmul (fmul (f_B c) (f_S c)) y)) (fmul (fmul (f_B c) (f_S c)) (f_yint c))) (fmul (pw (f_S c)) y) in
  let* x := fdiv num denom in Ret (Some x).
End Curve.
