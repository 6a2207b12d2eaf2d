(** Model of carbon/order.py (class Order).

    Decimals and floats are real numbers: the 128-digit Decimal context is not modelled, nor is
    the distinction between the two types. The power 0.25 is a square root of a square root.
    Names, ids and the deprecated alias C (lines 80-92, 212-213, 226-227, a warning only)
    are left out. *)
From Coq Require Import Reals Bool.
From Verif Require Import CurveModel.
Local Open Scope R_scope.

(** the constructor arguments that matter (lines 36-63); [i_rev] is _reverseq *)
Record order_in := mkIn { i_B : option R; i_S : option R; i_yint : option R; i_phigh : option R; i_plow : option R; i_pmarg : option R; i_y : option R; i_D : option R; i_rev : bool; i_adj : bool }.
(** a complete order object *)
Record order := mkOrder { o_B : option R; o_S : option R; o_yint : R; o_phigh : R; o_plow : R; o_y : R; o_adj : bool }.

(** lines 168-192: (B, S, p_low, p_high) after the first conversion; auto_convert_variables
    is True *)
Definition convert_prices (i : order_in) : res (option R * option R * option R * option R) :=
  match i_B i, i_S i with
  | Some B, Some W =>
    let pbr := B * B in let par := (W + B) ^ 2 in
    let* a := (if i_rev i then rdiv 1 par else Ret par) in
    let* b := (if i_rev i then rdiv 1 pbr else Ret pbr) in
    if rlt a b then Ret (Some B, Some W, Some a, Some b) else Ret (Some B, Some W, Some b, Some a)
  | _, _ =>
    match i_plow i, i_phigh i with
    | Some l, Some h =>
      let '(l, h) := if rlt h l then (h, l) else (l, h) in
      let* sl := rsqrt l in let* sh := rsqrt h in
      Ret (Some sl, Some (sh - sl), Some l, Some h)
    | _, _ => Ret (i_B i, i_S i, i_plow i, i_phigh i)
    end
  end.
(** lines 194-207: (y_int, D); missing prices or balance raise *)
Definition convert_yint (i : order_in) (l h : option R) : res (option R * option R) :=
  match i_yint i with
  | Some z => Ret (Some z, Some z)
  | None =>
    match i_pmarg i with
    | Some m =>
      match i_y i, l, h with
      | Some y, Some l, Some h =>
        let* sh := rsqrt h in let* sl := rsqrt l in let* sm := rsqrt m in
        let* z := rdiv (y * (sh - sl)) (sm - sl) in Ret (Some z, i_D i)
      | None, _, _ => Raise TypeError
      | _, _, _ => Raise AttributeError
      end
    | None => Ret (i_D i, i_D i)
    end
  end.
Definition opt_eqb (a b : option R) : bool := match a, b with Some a, Some b => req a b | None, None => true | _, _ => false end.
(** lines 150-231 *)
Definition make_order (i : order_in) : res order :=
  let* bslh := convert_prices i in
  let '(B, W, l, h) := bslh in
  let* zd := convert_yint i l h in
  let '(z, d) := zd in
  let adj := if opt_eqb h l then true else i_adj i in                       (* 209-210 *)
  let d := match d with Some d => Some d | None => z end in                 (* 215-216 *)
  let '(z, d) := match z with
                 | Some z => (Some z, d)
                 | None => match d with Some d => (Some d, Some d) | None => (i_y i, i_y i) end
                 end in                                                     (* 218-222 *)
  match i_y i, z, l, h with
  | Some y, Some z, Some l, Some h => if opt_eqb d (Some z) then Ret (mkOrder B W z h l y adj) else Raise AssertionError
  | _, _, _, _ => Raise AssertionError
  end.                                                                      (* 224-231 *)

(** lines 131-139 (1e-18) *)
Definition o_n (o : order) : res R :=
  if o_adj o then Ret (/ 10 ^ 18) else
  let* q := rdiv (o_plow o) (o_phigh o) in let* s := rsqrt q in let* s := rsqrt s in Ret (1 - s).
(** lines 94-98 *)
Definition o_p (o : order) : res R := rsqrt (o_phigh o * o_plow o).
(** lines 104, 126: max(y_int, 1) *)
Definition zmax (o : order) : R := if rlt (o_yint o) 1 then 1 else o_yint o.
(** lines 100-105 *)
Definition o_x0 (o : order) : res R := let* n := o_n o in let* p := o_p o in rdiv (zmax o * (1 - n)) (p * (2 - n)).
(** lines 125-129 *)
Definition o_y0 (o : order) : res R := let* n := o_n o in rdiv (zmax o * (1 - n)) (2 - n).

(** carbon/carbon_order_ui.py:243-263: from_order; the selling direction is that of the
    order's token *)
Definition from_order (base : bool) (o : order) : res curve :=
  match o_B o, o_S o with
  | Some B, Some W => construct base B W (o_yint o) (o_y o)
  | _, _ => Raise TypeError
  end.
