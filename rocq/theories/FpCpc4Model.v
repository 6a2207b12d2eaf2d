(** Model of trades of constant product curves inside of their ranges (carbon/tools/cpc.py), in double
    precision. FpCpcModel.v has the same functions with ignorebounds=True, FpCpc2Model.v the ends of
    the ranges. Left out: units. *)
From Coq Require Import ZArith Bool List.
From Flocq Require Import Core IEEE754.BinarySingleNaN IEEE754.Binary IEEE754.Bits.
From Verif Require Import CurveModel FpModel FpCpcModel FpCpc2Model.

(** cpc.py:833-842; the lower end is never None where this is used *)
Definition finrange (v m : fl) (M : option fl) : bool :=
  if flt v m then false else match M with Some M => negb (flt M v) | None => true end.
(** 775-782 *)
Definition fc_yfromx (c : fcpc) (x : fl) (ignorebounds : bool) : res (option fl) :=
  let* y := fdiv (fc_k c) x in
  if ignorebounds then Ret (Some y) else
  let* m := fc_y_min c in let* M := fc_y_max c in
  Ret (if finrange y m M then Some y else None).
(** 784-791 *)
Definition fc_xfromy (c : fcpc) (y : fl) (ignorebounds : bool) : res (option fl) :=
  let* x := fdiv (fc_k c) y in
  if ignorebounds then Ret (Some x) else
  let* M := fc_x_max c in
  Ret (if finrange x (fc_x_min c) M then Some x else None).
(** 793-798 *)
Definition fc_dy (c : fcpc) (dx : fl) (ignorebounds : bool) : res (option fl) :=
  let* r := fc_yfromx c (fadd (fc_x c) dx) ignorebounds in
  match r with Some y' => let* y := fc_y c in Ret (Some (fsub y' y)) | None => Ret None end.
(** 800-805 *)
Definition fc_dx (c : fcpc) (dy : fl) (ignorebounds : bool) : res (option fl) :=
  let* y := fc_y c in
  let* r := fc_xfromy c (fadd y dy) ignorebounds in
  match r with Some x' => Ret (Some (fsub x' (fc_x c))) | None => Ret None end.
(** 807-815 *)
Definition fc_dy_min (c : fcpc) : fl := b64_opp (fc_ya c).
Definition fc_dx_min (c : fcpc) : fl := b64_opp (fc_xa c).
(** 817-823 *)
Definition fc_dy_max (c : fcpc) : res (option fl) :=
  if flt (fc_xa c) (fc_x c) then fc_dy c (fc_dx_min c) false else Ret None.
(** 825-831 *)
Definition fc_dx_max (c : fcpc) : res (option fl) :=
  let* y := fc_y c in if flt (fc_ya c) y then fc_dx c (fc_dy_min c) false else Ret None.
(** 765-773 *)
Definition fc_dxdyfromp (c : fcpc) (p : option fl) (ignorebounds : bool) : res (fl * fl * fl) :=
  let* r := fc_xyfromp c p ignorebounds in
  let '(x, y, p) := r in
  let* y0 := fc_y c in Ret (fsub x (fc_x c), fsub y y0, p).
