(** Vocabulary for statements about matching: totals, subsequences, rate order. *)
From Coq Require Import ZArith QArith List.
From Verif Require Import TradeModel MatchModel.
Import ListNotations.
Local Open Scope Z_scope.

Definition total_in (acts : list action) : Z := fold_right (fun a s => a_input a + s) 0 acts.
Definition total_out (acts : list action) : Z := fold_right (fun a s => a_output a + s) 0 acts.

(** [l] is obtained from [m] by deleting elements. *)
Inductive subseq {A : Type} : list A -> list A -> Prop :=
| sub_nil : forall m, subseq [] m
| sub_take : forall a l m, subseq l m -> subseq (a :: l) (a :: m)
| sub_skip : forall a l m, subseq l m -> subseq l (a :: m).

(** Output obtained per unit of input, as a rational number. *)
Definition unit_rate (r : rate) : Q := (inject_Z (r_output r) / inject_Z (r_input r))%Q.
