(** Model of the edge lookups of carbon/tools/arbgraphs.py by token names. *)
From Coq Require Import Reals Bool String List Arith.
From Verif Require Import CurveModel GraphModel HelperModel.
Import ListNotations.
Local Open Scope R_scope.

(** lines 1207-1212; nodes are given by their token names, not as objects *)
Definition lookup (g : graph) (t : option string) : res (option nat) :=
  match t with Some t => let* n := node_by_tkn g t in Ret (Some n) | None => Ret None end.
(** lines 1207-1226 *)
Definition one_way (g : graph) (ti to tn : option string) : res (list edge) :=
  let* i := lookup g ti in let* o := lookup g to in let* n := lookup g tn in filter_edges g i o n false.
(** lines 1185-1226; fep (lines 1228-1230) gives the pair only *)
Definition find_edges (g : graph) (ti to tn : option string) (bothways : option bool) (pair : option string) : res (list edge) :=
  let* names := match pair with
                | None => Ret (ti, to)
                | Some s => match ti, to, tn with
                            | None, None, None => match parse_pair s with Some (a, b) => Ret (Some a, Some b) | None => Raise ValueError end
                            | _, _, _ => Raise AssertionError
                            end
                end in
  let (ti, to) := names : option string * option string in
  let both := match bothways with Some b => b | None => match pair with Some _ => true | None => false end end in
  if both then let* l1 := one_way g ti to tn in let* l2 := one_way g to ti tn in Ret (l1 ++ l2) else one_way g ti to tn.
