(** Model of carbon/tools/params.py (class Params).

    Values are elements of an arbitrary type [V]. A Python dict is an association list in
    insertion order. Keyword arguments are association lists too; a keyword called "self"
    (a TypeError in Python) is not modelled. Every method returns the new state of the
    object together with its outcome, because reading methods can change the object. *)
From Coq Require Import List Bool Ascii String.
Import ListNotations.
Local Open Scope string_scope.

Definition dict (V : Type) := list (string * V).
Fixpoint dget {V : Type} (k : string) (d : dict V) : option V :=
  match d with
  | [] => None
  | (k', v) :: d => if String.eqb k' k then Some v else dget k d
  end.
Fixpoint dset {V : Type} (k : string) (v : V) (d : dict V) : dict V :=
  match d with
  | [] => [(k, v)]
  | (k', v') :: d => if String.eqb k' k then (k', v) :: d else (k', v') :: dset k v d
  end.
(** [for k, v in kwargs.items(): d[k] = v], also [dict(kwargs)] and [{**d}] *)
Definition dupdate {V : Type} (d : dict V) (kwargs : dict V) : dict V :=
  fold_left (fun d e => dset (fst e) (snd e) d) kwargs d.

(** params.py:40-42: the fields of the object *)
Record params (V : Type) := mkParams { p_params : dict V; p_defaults : option (dict V) }.
Arguments mkParams {V}. Arguments p_params {V}. Arguments p_defaults {V}.

(** outcomes *)
Inductive outcome (V : Type) :=
| Value (v : option V)    (* a value, [None] being Python's None *)
| Self                    (* the object itself *)
| Defaults                (* the dict of defaults *)
| ClassMember             (* a method or property of the class *)
| KeyErr | ValueErr | AttributeErr.
Arguments Value {V}. Arguments Self {V}. Arguments Defaults {V}. Arguments ClassMember {V}.
Arguments KeyErr {V}. Arguments ValueErr {V}. Arguments AttributeErr {V}.

(** params.py:40-42 [__init__] *)
Definition init {V : Type} (kwargs : dict V) : params V := mkParams (dupdate [] kwargs) None.

(** params.py:92-103 [set_default] *)
Definition set_default {V : Type} (p : params V) (kwargs : dict V) : params V * outcome V :=
  match p_defaults p with
  | None => (mkParams (p_params p) (Some []), Self)                        (* 98-99 *)
  | Some d => (mkParams (p_params p) (Some (dupdate d kwargs)), Self)      (* 100-102 *)
  end.

(** params.py:112-119 [defaults], and lines 85-86 *)
Definition ensure_defaults {V : Type} (p : params V) : params V :=
  match p_defaults p with
  | None => fst (set_default p [])
  | Some _ => p
  end.
Definition defaults {V : Type} (p : params V) : params V * outcome V := (ensure_defaults p, Defaults).

(** params.py:81-90 [get_default] *)
Definition get_default {V : Type} (p : params V) (item : string) (raiseonerror : bool) : params V * outcome V :=
  let p := ensure_defaults p in                                             (* 85-86 *)
  let d := match p_defaults p with Some d => d | None => [] end in
  match dget item d with
  | Some v => (p, Value (Some v))
  | None => (p, if raiseonerror then KeyErr else Value None)                (* 87-90 *)
  end.

(** params.py:121-134 [set] *)
Definition set {V : Type} (p : params V) (item : string) (value : V) (allowupdate : bool) : params V * outcome V :=
  if negb allowupdate && (match dget item (p_params p) with Some _ => true | None => false end)
  then (p, ValueErr)                                                        (* 130-132 *)
  else (mkParams (dset item value (p_params p)) (p_defaults p), Self).      (* 133-134 *)

(** params.py:136-140 [__getitem__] *)
Definition getitem {V : Type} (p : params V) (item : string) : params V * outcome V :=
  match dget item (p_params p) with
  | Some v => (p, Value (Some v))
  | None => get_default p item false
  end.

(** params.py:142-143 [__setitem__] *)
Definition setitem {V : Type} (p : params V) (item : string) (value : V) : params V * outcome V :=
  match set p item value false with
  | (p, Self) => (p, Value None)
  | r => r
  end.

(** the names defined by the class, which attribute access finds before [__getattr__] *)
Definition class_names : list string :=
  ["construct"; "add"; "get_default"; "set_default"; "params"; "defaults"; "set"].

(** params.py:145-154: attribute access [p.item] for a name that is no dunder name and not
    one of the two instance fields *)
Definition getattr {V : Type} (p : params V) (item : string) : params V * outcome V :=
  if existsb (String.eqb item) class_names then (p, ClassMember)
  else match item with
       | String c _ =>
         if Ascii.eqb c "_" then (p, AttributeErr)                           (* 149-150 *)
         else match dget item (p_params p) with
              | Some v => (p, Value (Some v))                               (* 152 *)
              | None => get_default p item true                             (* 153-154 *)
              end
       | EmptyString =>
         match dget item (p_params p) with
         | Some v => (p, Value (Some v))
         | None => get_default p item true
         end
       end.

(** params.py:71-79 [add] *)
Fixpoint add {V : Type} (p : params V) (kwargs : dict V) : params V * outcome V :=
  match kwargs with
  | [] => (p, Self)
  | (k, v) :: kwargs =>
    match setitem p k v with
    | (p, Value None) => add p kwargs
    | r => r
    end
  end.

(** params.py:44-69 [construct]: [dct] is None or {} ([FromNothing]), a Params object or a
    dict; [None] is the ValueError of line 63 *)
Inductive construct_arg (V : Type) := FromNothing | FromParams (p : params V) | FromDict (d : dict V).
Arguments FromNothing {V}. Arguments FromParams {V}. Arguments FromDict {V}.
Definition construct {V : Type} (dct : construct_arg V) (dflt : option (dict V)) : option (params V) :=
  let finish (p : params V) :=
    match dflt with
    | Some (e :: d) => Some (mkParams (p_params p) (Some (dupdate [] (e :: d))))   (* 67-68 *)
    | _ => Some p
    end in
  match dct with
  | FromNothing => finish (init [])                                                (* 58-59 *)
  | FromParams q =>
    match p_defaults q, dflt with
    | Some _, Some _ => None                                                       (* 62-63 *)
    | _, _ => finish (init (p_params q))                                           (* 61 *)
    end
  | FromDict d => finish (init d)                                                  (* 65 *)
  end.

(** histories: calls of the methods above *)
Inductive call (V : Type) :=
| GetItem (k : string) | GetAttr (k : string) | SetItem (k : string) (v : V)
| Set_ (k : string) (v : V) (allowupdate : bool) | Add (kwargs : dict V)
| SetDefault (kwargs : dict V) | GetDefault (k : string) (raiseonerror : bool) | ReadDefaults.
Arguments GetItem {V}. Arguments GetAttr {V}. Arguments SetItem {V}. Arguments Set_ {V}. Arguments Add {V}.
Arguments SetDefault {V}. Arguments GetDefault {V}. Arguments ReadDefaults {V}.
Definition step {V : Type} (p : params V) (c : call V) : params V * outcome V :=
  match c with
  | GetItem k => getitem p k
  | GetAttr k => getattr p k
  | SetItem k v => setitem p k v
  | Set_ k v a => set p k v a
  | Add kw => add p kw
  | SetDefault kw => set_default p kw
  | GetDefault k r => get_default p k r
  | ReadDefaults => defaults p
  end.
Definition run {V : Type} (p : params V) (cs : list (call V)) : params V :=
  fold_left (fun p c => fst (step p c)) cs p.
