(** Model of the curve parameters of an order of the simulator (carbon/order.py:150-192) as they
    are stored: [math.sqrt] turns Decimals into doubles, so B and S are doubles, while the prices
    and amounts stay Decimals (rational numbers here). OrderModel.v has the same class over the
    real numbers.

    Only orders made from two prices are modelled here; orders made from B and S store Decimals. *)
From Coq Require Import ZArith QArith.
From Flocq Require Import Core IEEE754.BinarySingleNaN IEEE754.Binary IEEE754.Bits.
From Verif Require Import TradeModel PairModel SimModel CurveModel FastModel FpModel.

(** float(d) for a positive quotient: correctly rounded (infinite if too large) *)
Definition fquot (s : bool) (n d : positive) : fl :=
  BSN2B 53 1024 default_nan_pl64
    (SF2B _ (proj1 (Bdiv_correct_aux 53 1024 (eq_refl _) (eq_refl _) mode_NE s n 0 false d 0))).
(** float(d) for a Decimal d *)
Definition fdec (q : Q) : fl :=
  match Qnum q with Z0 => fzero | Zpos n => fquot false n (Qden q) | Zneg n => fquot true n (Qden q) end.
(** Decimal(f) for a float f that is a number: exact *)
Definition todec (f : fl) : Q :=
  match f with
  | B754_finite _ _ s m e _ => if (0 <=? e)%Z then inject_Z (cond_Zopp s (Z.pos m) * 2 ^ e) else (cond_Zopp s (Z.pos m) # Z.to_pos (2 ^ (- e)))
  | _ => 0%Q
  end.

(** order.py:150-156, 183-192: (p_low, p_high, B, S) *)
Definition order_params (p_high p_low : Q) : res (Q * Q * fl * fl) :=
  let '(lo, hi) := if Qlt_bool p_high p_low then (p_high, p_low) else (p_low, p_high) in
  let* B := fsqrt (fdec lo) in
  let* sh := fsqrt (fdec hi) in
  let* sl := fsqrt (fdec lo) in
  Ret (lo, hi, B, fsub sh sl).
(** what fast_router.py:59, 81 reads from an order: [Decimal(order.S)], [Decimal(order.B)] *)
Definition read_order (y z : Q) (B S : fl) : forder := mkForder y z (todec S) (todec B).
