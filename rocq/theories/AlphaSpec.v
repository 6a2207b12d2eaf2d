(** Vocabulary for statements about the alpha router. *)
From Coq Require Import Reals List Arith.
From Verif Require Import CurveModel OrderModel ExactModel ExactSpec.
Import ListNotations.
Local Open Scope R_scope.

(** an order given by two distinct positive prices, with a capacity of at least one unit (see
    C35 for smaller capacities) and a balance within it *)
Definition tradable (o : order) : Prop :=
  0 < o_plow o < o_phigh o /\ o_adj o = false /\ o_B o = Some (sqrt (o_plow o)) /\ o_S o = Some (sqrt (o_phigh o) - sqrt (o_plow o)) /\
  1 <= o_yint o /\ 0 <= o_y o <= o_yint o.
(** a choice of at most [k] of the [n] orders *)
Definition choice (n k : nat) (l : list nat) : Prop := NoDup l /\ (forall i, In i l -> (i < n)%nat) /\ (length l <= k)%nat.
(** a routing over the orders of [level], each within its balance *)
Definition feasible (os : list xorder) (level l : list nat) (t : nat -> R) : Prop :=
  NoDup l /\ forall i, In i l -> In i level /\ 0 <= t i <= xo_y (nth i os (mkX 0 0 0 0)).
Definition balance (os : list xorder) (i : nat) : R := xo_y (nth i os (mkX 0 0 0 0)).
(** the most an order can be paid: the price of its whole balance *)
Definition absorbs (os : list xorder) (i : nat) : R := payment (nth i os (mkX 0 0 0 0)) (balance os i).
(** what the router counts for an order when the source amount is [A]: the whole request if
    the order can absorb it, otherwise its balance at the reference price x0/y0 *)
Definition worth (os : list xorder) (A : R) (i : nat) : R :=
  let o := nth i os (mkX 0 0 0 0) in if Rlt_dec (absorbs os i) A then xo_x0 o / xo_y0 o * xo_y o else A.
(** the trader receives exactly [A] from the orders of [level], each within its balance and at the
    price of its curve, and no routing over [level] that delivers as much costs less *)
Definition served_target os level A acts : Prop :=
  NoDup (map ac_index acts) /\ (forall a, In a acts -> In (ac_index a) level /\ - balance os (ac_index a) <= ac_output a < 0 /\ ac_input a = payment (nth (ac_index a) os (mkX 0 0 0 0)) (- ac_output a)) /\ fold_right Rplus 0 (map ac_output acts) = - A /\
  forall l t, feasible os level l t -> A <= total t l -> fold_right Rplus 0 (map ac_input acts) <= total (fun i => payment (nth i os (mkX 0 0 0 0)) (t i)) l.
(** the trader pays exactly [A] to the orders of [level], each at the price of its curve, and no routing over [level] that costs
    at most as much delivers more *)
Definition served_source os level A acts : Prop :=
  NoDup (map ac_index acts) /\ (forall a, In a acts -> In (ac_index a) level /\ - balance os (ac_index a) <= ac_output a < 0 /\ ac_input a = payment (nth (ac_index a) os (mkX 0 0 0 0)) (- ac_output a)) /\ fold_right Rplus 0 (map ac_input acts) = A /\
  forall l t, feasible os level l t -> total (fun i => payment (nth i os (mkX 0 0 0 0)) (t i)) l <= A -> total t l <= - fold_right Rplus 0 (map ac_output acts).
