(** Vocabulary for statements about trades that are carried out in parts. *)
From Coq Require Import Reals List Arith.
From Verif Require Import CurveModel ExactModel ExactSpec.
Import ListNotations.
Local Open Scope R_scope.

(** what is taken out of order [i], and what is paid into it, by the fills of a trade *)
Definition taken (acts : list action) (i : nat) : R := fold_right Rplus 0 (map (fun a => if Nat.eq_dec (ac_index a) i then - ac_output a else 0) acts).
Definition paid (acts : list action) (i : nat) : R := fold_right Rplus 0 (map (fun a => if Nat.eq_dec (ac_index a) i then ac_input a else 0) acts).
(** an order with another balance; the curve stays the same (carbon/order.py:100-139 does not
    read the balance) *)
Definition with_balance (o : xorder) (u : R) : xorder := mkX (xo_n o) (xo_x0 o) (xo_y0 o) u.
(** the book after a trade: each order has what is left (carbon_simulator.py:795) *)
Definition settled (os : list xorder) (acts : list action) : list xorder :=
  map (fun i => with_balance (nth i os (mkX 0 0 0 0)) (xo_y (nth i os (mkX 0 0 0 0)) - taken acts i)) (seq 0 (length os)).
(** the request of a trade of [A]: by target amounts are negative *)
Definition request_of (by_target : bool) (A : R) : R := if by_target then - A else A.
(** a trade carried out in parts: each part is matched against what the previous ones left *)
Inductive in_parts (fuel infuel : nat) (by_target check : bool) (level : list nat) (sp : bool) : list xorder -> list R -> list xorder -> (nat -> R) -> Prop :=
| parts_none os : in_parts fuel infuel by_target check level sp os [] os (fun _ => 0)
| parts_more os A acts As os' cost : exact_match fuel infuel os (request_of by_target A) by_target check level sp = Some (Ret acts) ->
    in_parts fuel infuel by_target check level sp (settled os acts) As os' cost ->
    in_parts fuel infuel by_target check level sp os (A :: As) os' (fun i => paid acts i + cost i).
(** some routing serves [A] *)
Definition servable (os : list xorder) (level : list nat) (by_target : bool) (A : R) : Prop :=
  exists l t, NoDup l /\ (forall i, In i l -> usable os level i /\ 0 <= t i <= xo_y (nth i os (mkX 0 0 0 0))) /\
    A <= total (fun i => if by_target then t i else payment (nth i os (mkX 0 0 0 0)) (t i)) l.
