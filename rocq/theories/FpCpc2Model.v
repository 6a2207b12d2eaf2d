(** Model of the pools of Uniswap and Carbon as constant product curves (carbon/tools/cpc.py) in
    double precision, of the ends of their ranges and of their states for given prices.
    CpcModel.v has the same functions over the real numbers.

    Left out: tokens, ids, parameters, what is printed. y**2 is a parameter [pw] as in FpModel.v. *)
From Coq Require Import ZArith Bool List.
From Flocq Require Import Core IEEE754.BinarySingleNaN IEEE754.Binary IEEE754.Bits.
From Verif Require Import CurveModel FpModel FpCpcModel.

(** cpc.py:350-381: exactly one of k, x, y must be None *)
Definition fc_from_univ2 (x y k : option fl) : res fcpc :=
  match k, x, y with
  | None, Some x, Some y => fmake (fmul x y) x (Some x) (Some y)
  | Some k, None, Some y => let* x := fdiv k y in fmake k x (Some x) (Some y)
  | Some k, Some x, None => let* y := fdiv k x in fmake k x (Some x) (Some y)
  | _, _, _ => Raise AssertionError
  end.
(** 338-348, all arguments given *)
Definition fc_from_pkpp (p k p_min p_max : fl) : res fcpc :=
  let* q := fdiv k p in let* x0 := fsqrt q in
  let* y0 := fsqrt (fmul k p) in
  let* q' := fdiv k p_max in let* xm := fsqrt q' in
  let* ym := fsqrt (fmul k p_min) in
  fmake k x0 (Some (fsub x0 xm)) (Some (fsub y0 ym)).
(** 383-413 *)
Definition fc_from_univ3 (P L Pa Pb : fl) : res fcpc :=
  if negb (flt Pa Pb) then Raise AssertionError else
  if negb (flt Pa P && flt P Pb) then Raise AssertionError else
  fc_from_pkpp P (fmul L L) Pa Pb.
(** 415-514, with A and B given *)
Section Carbon.
Variable pw : fl -> fl.
Definition fle (x y : fl) : bool := match b64_compare x y with Some Lt | Some Eq => true | _ => false end.
Definition fc_from_carbon (yint y A B : fl) : res fcpc :=
  if negb (fle y yint) then Raise AssertionError else
  if negb (fle fzero y) then Raise AssertionError else
  if negb (fle fzero A) then Raise AssertionError else
  let* yasym := fdiv (fmul yint B) A in
  let* kappa := fdiv (pw yint) (pw A) in
  let* x := fdiv kappa (fadd y yasym) in
  fmake kappa x (Some fzero) (Some y).
End Carbon.

(** 650-653 *)
Definition fc_x_min (c : fcpc) : fl := fsub (fc_x c) (fc_xa c).
(** 676-679 *)
Definition fc_y_min (c : fcpc) : res fl := let* y := fc_y c in Ret (fsub y (fc_ya c)).
(** 681-695 *)
Definition fc_x_max (c : fcpc) : res (option fl) :=
  let* m := fc_y_min c in if flt fzero m then let* r := fdiv (fc_k c) m in Ret (Some r) else Ret None.
Definition fc_y_max (c : fcpc) : res (option fl) :=
  let m := fc_x_min c in if flt fzero m then let* r := fdiv (fc_k c) m in Ret (Some r) else Ret None.
(** 697-711 *)
Definition fc_p_max (c : fcpc) : res (option fl) :=
  let m := fc_x_min c in
  if flt fzero m then
    let* y := fc_y_max c in match y with Some y => let* r := fdiv y m in Ret (Some r) | None => Raise TypeError end
  else Ret None.
Definition fc_p_min (c : fcpc) : res (option fl) :=
  let* x := fc_x_max c in
  match x with
  | Some x => if flt fzero x then let* m := fc_y_min c in let* r := fdiv m x in Ret (Some r) else Ret None
  | None => Ret None
  end.
(** 731-763, without units *)
Definition raise_to (m v : fl) : fl := if flt v m then m else v.
Definition lower_to (m : option fl) (v : fl) : fl := match m with Some m => if flt m v then m else v | None => v end.
Definition fc_xyfromp (c : fcpc) (p : option fl) (ignorebounds : bool) : res (fl * fl * fl) :=
  let* p := match p with Some p => Ret p | None => fc_p c end in
  let* sp := fsqrt p in let* sk := fsqrt (fc_k c) in
  let* x := fdiv sk sp in
  let y := fmul sk sp in
  if ignorebounds then Ret (x, y, p) else
  let* x_max := fc_x_max c in let* y_min := fc_y_min c in let* y_max := fc_y_max c in
  Ret (lower_to x_max (raise_to (fc_x_min c) x), lower_to y_max (raise_to y_min y), p).
