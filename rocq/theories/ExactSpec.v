(** Vocabulary for statements about the exact router. *)
From Coq Require Import Reals List Arith.
From Verif Require Import CurveModel ExactModel.
Import ListNotations.
Local Open Scope R_scope.

(** orders with a positive capacity and a proper (or, with the tiny width 1e-18, a single-price) range *)
Definition sane (o : xorder) : Prop := 0 < xo_n o < 1 /\ 0 < xo_x0 o /\ 0 < xo_y0 o /\ 0 <= xo_y o.
(** the quantity that stays positive inside the range of the curve, when the balance has changed by [v] *)
Definition depth (o : xorder) (v : R) : R := xo_n o * (xo_y o + v) + xo_y0 o * (1 - xo_n o).
(** tokens received per token paid at the margin, when the balance has changed by [v] *)
Definition price_after (o : xorder) (v : R) : R := depth o v ^ 2 / (xo_x0 o * xo_y0 o).
(** what a trader pays for the first [t] tokens of an order: the area under the reciprocal of
    the marginal price, in closed form *)
Definition payment (o : xorder) (t : R) : R := xo_x0 o * xo_y0 o * t / (depth o 0 * depth o (- t)).
(** sums over a list of order numbers *)
Definition total (f : nat -> R) (l : list nat) : R := fold_right Rplus 0 (map f l).
(** a subset of the orders of the book, each listed once and sane *)
Definition good_subset (os : list xorder) (sub : list nat) : Prop :=
  NoDup sub /\ forall i, In i sub -> (i < length os)%nat /\ sane (nth i os (mkX 0 0 0 0)).
(** the orders that may be used: the selection (everything if the selection is empty), minus empty orders *)
Definition usable (os : list xorder) (level : list nat) (i : nat) : Prop :=
  (i < length os)%nat /\ (level = [] \/ In i level) /\ xo_y (nth i os (mkX 0 0 0 0)) <> 0.
