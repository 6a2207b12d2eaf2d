(** Vocabulary for C131-C133. *)
From Coq Require Import ZArith QArith List Bool String.
From Verif Require Import CurveModel WidgetModel.
Import ListNotations.

(** a sequence argument has one element for each of n choices *)
Definition fits {A} (a : arg A) (n : nat) : Prop := forall l, a = AList l -> List.length l = n.
Definition fits_opt {A} (a : option (list A)) (n : nat) : Prop := forall l, a = Some l -> List.length l = n.
Definition number (c : choices) : nat := match c with Seq l => List.length l | Dict d => List.length d end.
(** the value an argument gives to position i *)
Definition given {A} (a : arg A) (default : A) (i : nat) : A := match a with ANone => default | AOne x => x | AList l => nth i l default end.
(** position i carries identifier x *)
Definition at_pos {A} (l : list A) (i : nat) (x : A) : Prop := nth_error l i = Some x.
(** the last action on position i, if any *)
Fixpoint last_on {A} (i : nat) (acts : list (nat * A)) (start : A) : A :=
  match acts with [] => start | (j, v) :: r => last_on i r (if Nat.eqb i j then v else start) end.
(** a state of the manager: constructed, then operated *)
Definition reached {O} c v o d acts (m : cbm O) : Prop := exists m0, new_cbm c v o d = Ret m0 /\ m = fold_left tick acts m0.
Definition positions {A} (p : A -> bool) (l : list A) : list nat :=
  filter (fun i => match nth_error l i with Some a => p a | None => false end) (seq 0 (List.length l)).

(** the range of slider i *)
Definition low (pm : arg bool) (r : range_arg) (i : nat) : Q := match r with RPair lo _ => lo | RList l => fst (nth i l (0, 1)%Q) | RNone => if given pm false i then (-1 # 1)%Q else 0%Q end.
Definition high (r : range_arg) (i : nat) : Q := match r with RPair _ hi => hi | RList l => snd (nth i l (0, 1)%Q) | RNone => 1%Q end.
(** v moved into lo..hi is w *)
Definition moved_into (lo hi v w : Q) : Prop := ((v < lo -> w == lo) /\ (hi < v -> w == hi) /\ (lo <= v <= hi -> w == v))%Q.
Definition range_given (r : range_arg) : Prop := r <> RNone.
Definition pm_given (pm : arg bool) : Prop := pm <> ANone.
Definition range_fits (r : range_arg) (n : nat) : Prop := forall l, r = RList l -> List.length l = n.
Definition in_01 (a : arg Q) : Prop := forall v, a = AOne v -> (0 <= v <= 1)%Q.
Definition compatible (pm : arg bool) (r : range_arg) : Prop := ~ (range_given r /\ pm_given pm).
(** arguments of the slider manager without a fault, except perhaps bounds out of order *)
Definition fine (c : choices) (values : arg Q) (pm : arg bool) (range : range_arg) (disabled : option (list bool)) : Prop :=
  compatible pm range /\ fits values (number c) /\ in_01 values /\ fits_opt disabled (number c) /\ fits pm (number c) /\ range_fits range (number c).

(** identifiers and captions of the choices *)
Definition idents (c : choices) : list string := match c with Seq l => l | Dict d => map fst d end.
Definition captions (c : choices) : list string := match c with Seq l => l | Dict d => map snd d end.
(** the value of a slider is within its bounds *)
Definition sane (s : slider) : Prop := (s_min s <= s_value s <= s_max s)%Q.
(** the labels of a dropdown *)
Definition labels_of (c : choices) (labels : option (list string)) : list string := match labels with None => captions c | Some l => l end.
Definition is_dict (c : choices) : Prop := exists d, c = Dict d.
(** a user selects an entry or code assigns a value; what is refused changes nothing *)
Inductive use := USelect (i : nat) | UAssign (v : string).
Definition operate (m : ddm) (u : use) : ddm := match (match u with USelect i => select m i | UAssign v => assign m v end) with Ret m' => m' | Raise _ => m end.
