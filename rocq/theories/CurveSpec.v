(** Vocabulary for statements about CarbonOrderUI curves. *)
From Coq Require Import Reals Bool.
From Verif Require Import CurveModel.
Local Open Scope R_scope.

(** curves with a proper range (S = 0 is a single price) and a balance within the capacity *)
Definition valid (c : curve) : Prop := 0 < c_B c /\ 0 <= c_S c /\ 0 < c_yint c /\ 0 <= c_y c <= c_yint c.
(** price in tokens sold per token received when [y] tokens are left, and as quoted by the pair *)
Definition raw_price (c : curve) (y : R) : R := (c_B c + c_S c * (y / c_yint c)) ^ 2.
Definition in_quote (c : curve) (raw : R) : R := if c_base c then / raw else raw.
Definition price_at (c : curve) (y : R) : R := in_quote c (raw_price c y).
(** [p] lies on the way from price [q] to price [r] in the direction in which the quoted price
    moves when the curve sells *)
Definition moves (c : curve) (p q : R) : Prop := if c_base c then p < q else q < p.
(** curves that may be empty and of capacity zero, as a linked curve typically is *)
Definition sound (c : curve) : Prop := 0 < c_B c /\ 0 <= c_S c /\ 0 <= c_y c <= c_yint c.
Definition sound_opt (o : option curve) : Prop := match o with Some c => sound c | None => True end.
(** the curve after receiving [dx]: the balance grows, the capacity only if it has to *)
Definition received (dx : R) (c : curve) : curve := mkCurve (c_base c) (c_B c) (c_S c) (Rmax (c_yint c) (c_y c + dx)) (c_y c + dx).
Definition between (a b p : R) : Prop := a <= p <= b \/ b <= p <= a.
(** length of the part of [lo, hi] that lies between the prices p and q *)
Definition overlap (lo hi p q : R) : R := Rmax 0 (Rmin (Rmax p q) hi - Rmax (Rmin p q) lo).
(** the ends of the price range of a curve *)
Definition lowest (c : curve) : R := Rmin (price_at c 0) (price_at c (c_yint c)).
Definition highest (c : curve) : R := Rmax (price_at c 0) (price_at c (c_yint c)).
