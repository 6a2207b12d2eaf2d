(** Vocabulary for aggregated price tables, independent of the model's functions: what a table
    must contain, said of the histories of the pairs. *)
From Coq Require Import ZArith QArith List String Permutation.
From Verif Require Import CcModel AggrModel.
Import ListNotations.

(** the numbers of one field, in the order in which the histories store them *)
Definition field_no (fld : string) (i : nat) : Prop := nth_error ["open"; "close"; "high"; "low"; "volumefrom"; "volumeto"]%string i = Some fld.
(** the cells of a column at the times [idx]: the field of the history, empty where it has none *)
Definition shows (h : history) (fld : string) (idx : list Z) (vs : list (option Q)) : Prop :=
  List.length vs = List.length idx /\
  forall k t c, nth_error idx k = Some t -> nth_error vs k = Some c ->
    (forall r i, In (t, r) h -> field_no fld i -> c = nth_error r i) /\ (~ In t (map fst h) -> c = None).
Definition title (dbl : bool) (fld : string) (p : pt) : cname :=
  match dbl with true => Two fld (fst p ++ "/" ++ snd p)%string | false => One (fst p ++ "/" ++ snd p)%string end.
(** the table of a field: every time of any history once; for every pair that was answered
    exactly one column, under the name of the pair *)
Definition table_for (ts : raws) (fld : string) (dbl : bool) (F : frame cname) : Prop :=
  NoDup (f_index F) /\ (forall t, In t (f_index F) <-> exists p h, In (p, Some h) ts /\ In t (map fst h)) /\
  exists ps, NoDup ps /\ (forall p, In p ps <-> exists h, In (p, Some h) ts) /\ map fst (f_cols F) = map (title dbl fld) ps /\
  forall k p vs nm, nth_error ps k = Some p -> nth_error (f_cols F) k = Some (nm, vs) -> forall h, In (p, Some h) ts -> shows h fld (f_index F) vs.
