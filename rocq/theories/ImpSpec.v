(** What the statements about ImpModel.v talk about. *)
From Coq Require Import Reals ZArith List Bool String.
From Verif Require Import PairModel CurveModel OrderModel UiModel ImpModel.
Import ListNotations.

(** the names of the entries of the table of decimals that are not tokens *)
Definition reserved (t : string) : Prop := t = "_TKNB"%string \/ t = "_TKNQ"%string \/ t = "_DIFFQB"%string.
(** the ids of the orders are below the next one, each order is stored under its own id *)
Definition orderly (s : sim) : Prop := forall i o, In (i, o) (s_orders s) -> (i < s_next s)%nat /\ so_id o = i.
