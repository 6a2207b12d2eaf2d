(** Model of the classes ConstantProductCurve and CPCInverter of carbon/tools/cpc.py.

    Floats are real numbers, exceptions are values ([res] of CurveModel.v). A curve keeps
    k, x, x_act, y_act and the two tokens of its pair; cid, fee, descr, constr, params and
    the token scale are passed around unchanged by the code below and are left out. Prints
    (lines 240-244, 549-552) are left out. *)
From Coq Require Import Reals Bool List String.
From Verif Require Import CurveModel.
From Verif Require Univ3Model.
Import ListNotations.
Local Open Scope R_scope.

(** lines 206-215; the pair "TKNB/TKNQ" is kept as its two tokens (563-575: tknx = tknb is
    the part before the slash, tkny = tknq the part after it) *)
Record cpc := mkCpc { k : R; x : R; x_act : R; y_act : R; tknx : string; tkny : string }.

(** lines 602-605. Every constructed curve has x <> 0, see [make]. *)
Definition y (c : cpc) : R := k c / x c.
(** lines 607-610 *)
Definition p (c : cpc) : R := y c / x c.

Definition dflt (o : option R) (d : R) : R := match o with Some v => v | None => d end.
(** lines 217-246, the canonical constructor: x_act and y_act default to x and y, and the
    test at line 243 evaluates y, which fails for x = 0 *)
Definition make (k x : R) (xa ya : option R) (tx ty : string) : res cpc :=
  let* y := rdiv k x in
  Ret (mkCpc k x (dflt xa x) (dflt ya y) tx ty).

(** lines 308-337 *)
Definition from_kx (k x : R) xa ya tx ty := make k x xa ya tx ty.
Definition from_ky (k y : R) xa ya tx ty := let* x := rdiv k y in make k x xa ya tx ty.
Definition from_xy (x y : R) xa ya tx ty := make (x * y) x xa ya tx ty.
Definition from_pk (p k : R) xa ya tx ty := let* q := rdiv k p in let* x := rsqrt q in make k x xa ya tx ty.
Definition from_px (p x : R) xa ya tx ty := make (x * x * p) x xa ya tx ty.
Definition from_py (p y : R) xa ya tx ty :=
  let* k := rdiv (y * y) p in let* x := rdiv y p in make k x xa ya tx ty.

(** lines 338-348 *)
Definition from_pkpp (p k : R) (p_min p_max : option R) tx ty : res cpc :=
  let p_min := dflt p_min p in
  let p_max := dflt p_max p in
  let* kp := rdiv k p in
  let* x0 := rsqrt kp in
  let* y0 := rsqrt (k * p) in
  let* kpm := rdiv k p_max in
  let* xm := rsqrt kpm in
  let* ym := rsqrt (k * p_min) in
  make k x0 (Some (x0 - xm)) (Some (y0 - ym)) tx ty.

(** lines 350-381; pair, cid, descr and fee are given *)
Definition from_univ2 (x y k : option R) tx ty : res cpc :=
  match k, x, y with
  | None, Some x, Some y => make (x * y) x (Some x) (Some y) tx ty
  | None, _, _ => Raise AssertionError
  | Some k, None, Some y => let* x := rdiv k y in make k x (Some x) (Some y) tx ty
  | Some _, None, None => Raise AssertionError
  | Some k, Some x, None => let* y := rdiv k x in make k x (Some x) (Some y) tx ty
  | Some _, Some _, Some _ => Raise AssertionError
  end.

(** lines 383-413 *)
Definition from_univ3 (P L Pa Pb : R) tx ty : res cpc :=
  if negb (rlt Pa Pb) then Raise AssertionError else
  if negb (rlt Pa P && rlt P Pb) then Raise AssertionError else
  from_pkpp P (L * L) (Some Pa) (Some Pb) tx ty.

(** line 489: 1.0000001 *)
Definition WIDEN : R := 1 + / 10 ^ 7.
(** lines 469-498: the parameters A and B; [qtkn] is tkny == tknq *)
Definition carbon_AB (pa pb A B : option R) (isdydx qtkn : bool) : res (R * R) :=
  match A, B, pa, pb with
  | Some A, Some B, None, None =>
    if negb isdydx then Raise AssertionError else
    if rlt A 0 then Raise AssertionError else Ret (A, B)
  | None, None, Some pa, Some pb =>
    let* pa1 := (if negb isdydx && negb qtkn then rdiv 1 pa else Ret pa) in
    let* pb1 := (if negb isdydx && negb qtkn then rdiv 1 pb else Ret pb) in
    let pa := if req pa1 pb1 then pa1 * WIDEN else pa1 in
    let pb := if req pa1 pb1 then pb1 / WIDEN else pb1 in
    if negb (rlt pb pa) then Raise AssertionError else
    let* sa := rsqrt pa in let* sb := rsqrt pb in Ret (sa - sb, sb)
  | _, _, _, _ => Raise AssertionError
  end.
(** lines 415-514; yint, y, the two tokens of the pair and the sold token are given. *)
Definition from_carbon (yint y : R) (pa pb A B : option R) (tknb tknq tkn : string) (isdydx : bool) : res cpc :=
  if rlt yint y then Raise AssertionError else
  if rlt y 0 then Raise AssertionError else
  if negb (String.eqb tkn tknb || String.eqb tkn tknq) then Raise AssertionError else
  let other := if String.eqb tkn tknq then tknb else tknq in
  let* AB := carbon_AB pa pb A B isdydx (String.eqb tkn tknq) in
  let '(A, B) := AB in
  let* yasym := rdiv (yint * B) A in
  let* kappa := rdiv (yint ^ 2) (A ^ 2) in
  let* x := rdiv kappa (y + yasym) in
  make kappa x (Some 0) (Some y) other tkn.

(** lines 516-562: a new curve object; the recorded parameters are left out *)
Definition execute (c : cpc) (dx dy : option R) (ignorebounds : bool) : res cpc :=
  match dx, dy with
  | Some _, Some _ => Raise ValueError
  | None, Some dy =>
    if negb (rle (- y_act c) dy) && negb ignorebounds then Raise ValueError else
    let newy := y c + dy in
    let* newx := rdiv (k c) newy in
    make (k c) newx (Some (x_act c + newx - x c)) (Some (y_act c + newy - y c)) (tknx c) (tkny c)
  | _, None =>
    let dx := dflt dx 0 in
    if negb (rle (- x_act c) dx) && negb ignorebounds then Raise ValueError else
    let newx := x c + dx in
    let* newy := rdiv (k c) newx in
    make (k c) newx (Some (x_act c + newx - x c)) (Some (y_act c + newy - y c)) (tknx c) (tkny c)
  end.

(** lines 612-634, with incltkn=False *)
Definition tvl (c : cpc) (tkn : option string) (mult : R) (raiseonerror : bool) : res (option R) :=
  let tkn := match tkn with Some t => t | None => tkny c end in
  if negb (String.eqb tkn (tknx c) || String.eqb tkn (tkny c)) then fail raiseonerror ValueError else
  let q := (p c * x_act c + y_act c) * mult in
  if String.eqb tkn (tkny c) then Ret (Some q) else
  let* b := rdiv q (p c) in Ret (Some b).

(** lines 645-648 *)
Definition kbar (c : cpc) : res R := rsqrt (k c).
(** lines 650-653, 676-679 *)
Definition x_min (c : cpc) : R := x c - x_act c.
Definition y_min (c : cpc) : R := y c - y_act c.
(** lines 681-695 *)
Definition x_max (c : cpc) : option R := if rlt 0 (y_min c) then Some (k c / y_min c) else None.
Definition y_max (c : cpc) : option R := if rlt 0 (x_min c) then Some (k c / x_min c) else None.
(** lines 697-711; y_max is not None where it is used, as x_min > 0 *)
Definition p_max (c : cpc) : option R :=
  match y_max c with Some m => Some (m / x_min c) | None => None end.
Definition p_min (c : cpc) : option R :=
  match x_max c with Some m => if rlt 0 m then Some (y_min c / m) else None | None => None end.
(** lines 655-674 *)
Definition at_xmin (c : cpc) : bool :=
  if req (x_min c) 0 then false else rlt (Rabs (x c / x_min c - 1)) (/ 10 ^ 6).
Definition at_xmax (c : cpc) : res bool :=
  match x_max c with None => Ret false | Some m => let* q := rdiv (x c) m in Ret (rlt (Rabs (q - 1)) (/ 10 ^ 6)) end.
Definition at_boundary (c : cpc) : res bool := if at_xmin c then Ret true else at_xmax c.

(** "if x < bound: x = bound", with None for no bound *)
Definition atleast (o : option R) (v : R) : R := match o with Some b => if rlt v b then b else v | None => v end.
Definition atmost (o : option R) (v : R) : R := match o with Some b => if rlt b v then b else v | None => v end.
(** lines 731-763, without units *)
Definition xyfromp_f (c : cpc) (p0 : option R) (ignorebounds : bool) : res (R * R * R) :=
  let p := dflt p0 (p c) in
  let* sp := rsqrt p in
  let* sk := kbar c in
  let* x := rdiv sk sp in
  let y := sk * sp in
  if ignorebounds then Ret (x, y, p)
  else Ret (atmost (x_max c) (atleast (Some (x_min c)) x), atmost (y_max c) (atleast (Some (y_min c)) y), p).
(** lines 765-772 *)
Definition dxdyfromp_f (c : cpc) (p0 : option R) (ignorebounds : bool) : res (R * R * R) :=
  let* r := xyfromp_f c p0 ignorebounds in
  let '(x', y', p) := r in Ret (x' - x c, y' - y c, p).

(** lines 833-842 *)
Definition inrange (v : R) (minv maxv : option R) : bool :=
  match minv with Some m => if rlt v m then false else match maxv with Some m => negb (rlt m v) | None => true end
                | None => match maxv with Some m => negb (rlt m v) | None => true end end.
(** lines 775-805 *)
Definition yfromx_f (c : cpc) (x' : R) (ignorebounds : bool) : res (option R) :=
  let* y' := rdiv (k c) x' in
  if ignorebounds then Ret (Some y') else
  if inrange y' (Some (y_min c)) (y_max c) then Ret (Some y') else Ret None.
Definition xfromy_f (c : cpc) (y' : R) (ignorebounds : bool) : res (option R) :=
  let* x' := rdiv (k c) y' in
  if ignorebounds then Ret (Some x') else
  if inrange x' (Some (x_min c)) (x_max c) then Ret (Some x') else Ret None.
Definition dyfromdx_f (c : cpc) (dx : R) (ignorebounds : bool) : res (option R) :=
  let* o := yfromx_f c (x c + dx) ignorebounds in
  Ret (match o with Some y' => Some (y' - y c) | None => None end).
Definition dxfromdy_f (c : cpc) (dy : R) (ignorebounds : bool) : res (option R) :=
  let* o := xfromy_f c (y c + dy) ignorebounds in
  Ret (match o with Some x' => Some (x' - x c) | None => None end).
(** lines 807-831 *)
Definition dy_min (c : cpc) : R := - y_act c.
Definition dx_min (c : cpc) : R := - x_act c.
Definition dy_max (c : cpc) : res (option R) := if rlt (x_act c) (x c) then dyfromdx_f c (dx_min c) false else Ret None.
Definition dx_max (c : cpc) : res (option R) := if rlt (y_act c) (y c) then dxfromdy_f c (dy_min c) false else Ret None.

(** ** carbon_order_ui.py *)
(** carbon_order_ui.py:1123-1150 [as_cpc]; a disabled curve has p_marg = None *)
Definition as_cpc (c : curve) (tknb tknq : string) : res cpc :=
  let* pm := p_marg c in
  let* pe := pb c in
  let* kap := CurveModel.kappa c in
  match pm with
  | None => Raise TypeError
  | Some pm => if c_base c then from_pkpp pm kap (Some pm) (Some pe) tknb tknq
               else from_pkpp pm kap (Some pe) (Some pm) tknb tknq
  end.

(** ** CPCInverter: lines 1692-1850, a view of the curve with the two tokens exchanged. The
    object is the underlying curve; 1/None raises TypeError. *)
Definition inv_tknx (c : cpc) := tkny c.
Definition inv_tkny (c : cpc) := tknx c.
Definition inv_p (c : cpc) : res R := rdiv 1 (p c).
Definition inv_x (c : cpc) := y c.
Definition inv_y (c : cpc) := x c.
Definition inv_k (c : cpc) := k c.
Definition inv_x_min (c : cpc) := y_min c.
Definition inv_x_max (c : cpc) := y_max c.
Definition inv_y_min (c : cpc) := x_min c.
Definition inv_y_max (c : cpc) := x_max c.
Definition inv_x_act (c : cpc) := y_act c.
Definition inv_y_act (c : cpc) := x_act c.
Definition inv_p_min (c : cpc) : res R := match p_max c with Some m => rdiv 1 m | None => Raise TypeError end.
Definition inv_p_max (c : cpc) : res R := match p_min c with Some m => rdiv 1 m | None => Raise TypeError end.
Definition inv_yfromx_f (c : cpc) (x' : R) (ib : bool) := xfromy_f c x' ib.
Definition inv_xfromy_f (c : cpc) (y' : R) (ib : bool) := yfromx_f c y' ib.
Definition inv_dyfromdx_f (c : cpc) (dx : R) (ib : bool) := dxfromdy_f c dx ib.
Definition inv_dxfromdy_f (c : cpc) (dy : R) (ib : bool) := dyfromdx_f c dy ib.
(** lines 1835-1845 *)
Definition inv_arg (p0 : option R) : res (option R) :=
  match p0 with Some p => let* q := rdiv 1 p in Ret (Some q) | None => Ret None end.
Definition inv_swap (r : R * R * R) : res (R * R * R) := let '(a, b, p) := r in let* q := rdiv 1 p in Ret (b, a, q).
Definition inv_xyfromp_f (c : cpc) (p0 : option R) (ib : bool) : res (R * R * R) :=
  let* a := inv_arg p0 in let* r := xyfromp_f c a ib in inv_swap r.
Definition inv_dxdyfromp_f (c : cpc) (p0 : option R) (ib : bool) : res (R * R * R) :=
  let* a := inv_arg p0 in let* r := dxdyfromp_f c a ib in inv_swap r.
(** lines 1847-1850; the result is wrapped again *)
Definition inv_execute (c : cpc) (dx dy : option R) (ib : bool) : res cpc := execute c dy dx ib.

(** univ3calc.py:215-231 [cpc_params], passed to from_univ3 as the code's users do
    (CPC.from_univ3( ** u.cpc_params(...))); [None] of [papb] is the assertion at
    univ3calc.py:78 *)
Definition univ3_as_cpc (u : Univ3Model.univ3) (tkn0 tkn1 : string) : res cpc :=
  match Univ3Model.papb u with
  | Some (pa, pb) => from_univ3 (Univ3Model.p u) (Univ3Model.L u) pa pb tkn0 tkn1
  | None => Raise AssertionError
  end.
