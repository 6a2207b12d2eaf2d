(** Vocabulary for statements about parameter containers. *)
From Coq Require Import List String.
Import ListNotations.

(** [v] is the last value given for key [k] in a list of assignments *)
Definition last_value {V : Type} (k : string) (l : list (string * V)) (v : V) : Prop :=
  exists l1 l2, l = l1 ++ (k, v) :: l2 /\ ~ In k (map fst l2).
