(** Vocabulary for statements about the number of orders an alpha trade may use. *)
From Coq Require Import Reals List.
From Verif Require Import CurveModel ExactModel ExactSpec.
Import ListNotations.
Local Open Scope R_scope.

Definition paid (acts : list action) : R := fold_right Rplus 0 (map ac_input acts).
Definition received (acts : list action) : R := - fold_right Rplus 0 (map ac_output acts).
(** the same order holding [A] more *)
Definition topped (o : xorder) (A : R) : xorder := mkX (xo_n o) (xo_x0 o) (xo_y0 o) (xo_y o + A).
(** no order of a list has a larger [f] than a later one *)
Definition ascending (f : nat -> R) (l : list nat) : Prop := forall a b i j, l = a ++ i :: b -> In j b -> f i <= f j.
