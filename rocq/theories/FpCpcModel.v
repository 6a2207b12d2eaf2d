(** Model of ConstantProductCurve of carbon/tools/cpc.py as it runs: in IEEE 754 double precision
    (Python floats). CpcModel.v has the same functions over the real numbers.

    Left out: tokens, ids, parameters, what is printed; trades beyond the actual balances are
    either refused or (ignorebounds=True) not; [dyfromdx_f] and [dxfromdy_f] are those with
    ignorebounds=True. *)
From Coq Require Import ZArith Bool List.
From Flocq Require Import Core IEEE754.BinarySingleNaN IEEE754.Binary IEEE754.Bits.
From Verif Require Import CurveModel FpModel.
Import ListNotations.

(** cpc.py:205-208 *)
Record fcpc := mkFcpc { fc_k : fl; fc_x : fl; fc_xa : fl; fc_ya : fl }.
(** 602-605 *)
Definition fc_y (c : fcpc) : res fl := fdiv (fc_k c) (fc_x c).
(** 607-610 *)
Definition fc_p (c : fcpc) : res fl := let* y := fc_y c in fdiv y (fc_x c).
(** 217-247: x_act and y_act are those of the pool if not given; y is always computed *)
Definition fmake (k x : fl) (xa ya : option fl) : res fcpc :=
  let* y := fdiv k x in
  Ret (mkFcpc k x (match xa with Some a => a | None => x end) (match ya with Some a => a | None => y end)).
(** 308-336, x_act and y_act not given *)
Definition fc_from_kx (k x : fl) : res fcpc := fmake k x None None.
Definition fc_from_ky (k y : fl) : res fcpc := let* x := fdiv k y in fmake k x None None.
Definition fc_from_xy (x y : fl) : res fcpc := fmake (fmul x y) x None None.
Definition fc_from_pk (p k : fl) : res fcpc := let* q := fdiv k p in let* x := fsqrt q in fmake k x None None.
Definition fc_from_px (p x : fl) : res fcpc := fmake (fmul (fmul x x) p) x None None.
Definition fc_from_py (p y : fl) : res fcpc := let* k := fdiv (fmul y y) p in let* x := fdiv y p in fmake k x None None.
(** 775-806 with ignorebounds=True *)
Definition fc_dyfromdx (c : fcpc) (dx : fl) : res fl :=
  let* y' := fdiv (fc_k c) (fadd (fc_x c) dx) in
  let* y := fc_y c in Ret (fsub y' y).
Definition fc_dxfromdy (c : fcpc) (dy : fl) : res fl :=
  let* y := fc_y c in
  let* x' := fdiv (fc_k c) (fadd y dy) in Ret (fsub x' (fc_x c)).
(** a >= -b *)
Definition fge_neg (a b : fl) : bool := match b64_compare a (b64_opp b) with Some Gt | Some Eq => true | _ => false end.
(** 516-562 *)
Inductive trade := TradeX (dx : fl) | TradeY (dy : fl).
Definition fc_execute (c : fcpc) (t : trade) (ignorebounds : bool) : res fcpc :=
  match t with
  | TradeX dx =>
    if negb (fge_neg dx (fc_xa c)) && negb ignorebounds then Raise ValueError else
    let newx := fadd (fc_x c) dx in
    let* newy := fdiv (fc_k c) newx in
    let* y := fc_y c in
    fmake (fc_k c) newx (Some (fsub (fadd (fc_xa c) newx) (fc_x c))) (Some (fsub (fadd (fc_ya c) newy) y))
  | TradeY dy =>
    if negb (fge_neg dy (fc_ya c)) && negb ignorebounds then Raise ValueError else
    let* y := fc_y c in
    let newy := fadd y dy in
    let* newx := fdiv (fc_k c) newy in
    fmake (fc_k c) newx (Some (fsub (fadd (fc_xa c) newx) (fc_x c))) (Some (fsub (fadd (fc_ya c) newy) y))
  end.
(** several trades, one after the other *)
Fixpoint fc_run (c : fcpc) (ts : list (trade * bool)) : res fcpc :=
  match ts with [] => Ret c | (t, b) :: ts => let* c := fc_execute c t b in fc_run c ts end.
