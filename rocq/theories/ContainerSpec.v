(** Specification vocabulary for curve containers (C82-C90). *)
From Coq Require Import Reals List String Permutation.
From Verif Require Import CurveModel PairModel PairProofs HelperModel CpcModel ContainerModel.
Import ListNotations.
Local Open Scope R_scope.

(** [r] is the last element of [l] having the property *)
Definition last_such {A} (P : A -> Prop) (l : list A) (r : A) : Prop :=
  exists l1 l2, l = l1 ++ r :: l2 /\ P r /\ forall r', In r' l2 -> ~ P r'.
(** [i] is the last position of an element having the property *)
Definition last_position {A} (P : A -> Prop) (l : list A) (i : nat) : Prop :=
  (exists r, nth_error l i = Some r /\ P r) /\ forall j r, (i < j)%nat -> nth_error l j = Some r -> ~ P r.
(** the curve behind a reference has the id *)
Definition has_cid (h : heap) (c : cid) (r : nat) : Prop := exists o, nth_error h r = Some o /\ c_cid o = Some c.
(** two references denote equal curves (same numbers, tokens, id, fee, description) *)
Definition equal_curves (h : heap) (r r' : nat) : Prop := exists o, nth_error h r = Some o /\ nth_error h r' = Some o.
(** a curve on two tokens, in either direction *)
Definition on_tokens (b q : string) (c : cpc) : Prop := (tknx c = b /\ tkny c = q) \/ (tknx c = q /\ tkny c = b).
Definition on_tokens_b (b q : string) (c : cpc) : bool :=
  (String.eqb (tknx c) b && String.eqb (tkny c) q) || (String.eqb (tknx c) q && String.eqb (tkny c) b).
(** what one unit of token [b] costs in the other token of the curve *)
Definition quote (b : string) (c : cpc) : R := if String.eqb (tknx c) b then k c / x c / x c else / (k c / x c / x c).
(** the curves of a container that trade the two tokens, in the order of the container *)
Definition trading (h : heap) (cc : container) (b q : string) : list cpc :=
  filter (on_tokens_b b q) (map (obj h) (curves cc)).
Definition total (l : list R) : R := fold_right Rplus 0 l.
Definition mean (l : list R) : R := total l / INR (List.length l).
(** a curve of which one side is (within a millionth) used up *)
Definition used_up (c : cpc) : Prop :=
  (x_min c <> 0 /\ Rabs (x c / x_min c - 1) < / 10 ^ 6) \/
  (exists m, x_max c = Some m /\ Rabs (x c / m - 1) < / 10 ^ 6).
(** [A] consists of the elements of [l] that are not used up, in the same order *)
Inductive active : list cpc -> list cpc -> Prop :=
| active_nil : active [] []
| active_keep c l A : ~ used_up c -> active l A -> active (c :: l) (c :: A)
| active_drop c l A : used_up c -> active l A -> active (c :: l) A.
(** weighted average of the quotes, the weights being the square roots of k *)
Definition weighted (b : string) (l : list cpc) : R := total (map (fun c => quote b c * sqrt (k c)) l) / total (map (fun c => sqrt (k c)) l).
(** the meaning of a condition of filter_pairs for the pair b/q *)
Definition cond_holds (kind : string) (ts : list string) (b q : string) : Prop :=
  match kind with
  | "bothin" => In b ts /\ In q ts
  | "contains" | "onein" => In b ts \/ In q ts
  | "notin" => ~ In b ts /\ ~ In q ts
  | "tknbin" => In b ts
  | "tknbnotin" => ~ In b ts
  | "tknqin" => In q ts
  | "tknqnotin" => ~ In q ts
  | _ => False
  end%string.
Definition kinds : list string := ["bothin"; "contains"; "onein"; "notin"; "tknbin"; "tknbnotin"; "tknqin"; "tknqnotin"]%string.
(** the name of a condition: its kind, possibly followed by an underscore and anything *)
Definition names_kind (name kind : string) : Prop :=
  (name = kind \/ exists rest, name = kind ++ "_" ++ rest)%string.
(** a pair of tokens that do not contain a slash *)
Definition slash_free (e : string * string) : Prop := no_slash (fst e) = true /\ no_slash (snd e) = true.
Definition str_of (e : string * string) : string := pair_str (fst e) (snd e).
(** a condition, given as name and tokens, for the pair b/q *)
Definition meets_cond (cond : string * list string) (b q : string) : Prop :=
  exists kind, In kind kinds /\ names_kind (fst cond) kind /\ cond_holds kind (snd cond) b q.
Definition known (cond : string * list string) : Prop := exists kind, In kind kinds /\ names_kind (fst cond) kind.
