(** Model of carbon/helpers/widgets.py: the managers of check boxes, percentage sliders and dropdowns.

    The ipywidgets library is modelled by the part of its documented behaviour that these classes
    use: a check box holds a bool; a FloatSlider refuses min > max and moves every value into its
    range; a Dropdown holds an index into its list of (label, value) and refuses what is not in it
    (both refusals are a TraitError). Display and layout are not modelled, numbers are rational. *)
From Coq Require Import ZArith QArith List Bool String.
From Verif Require Import CurveModel.
From Verif Require SdkModel.
Import ListNotations.
Local Open Scope Q_scope.

(** choices given as a sequence or as a dict, after [str] *)
Inductive choices := Seq (l : list string) | Dict (d : list (string * string)).
(** 27, 147, 281: iterating over a dict gives its keys *)
Definition ids (c : choices) : list string := match c with Seq l => l | Dict d => map fst d end.
(** 28-31, 148-151: a sequence has no method values() *)
Definition descrs (c : choices) : list string := match c with Seq l => l | Dict d => map snd d end.
(** an argument that is None, one value for all, or one value each *)
Inductive arg (A : Type) := ANone | AOne (a : A) | AList (l : list A).
Arguments ANone {A}. Arguments AOne {A}. Arguments AList {A}.
Definition same_len {A B} (a : list A) (b : list B) : bool := Nat.eqb (List.length a) (List.length b).
(** 49-55, 168-173 *)
Definition disabled_of (n : list string) (d : option (list bool)) : res (list bool) :=
  match d with None => Ret (repeat false (List.length n)) | Some l => if same_len l n then Ret l else Raise ValueError end.
(** replaces an element, as a user does by operating one of the widgets *)
Fixpoint upd {A} (i : nat) (v : A) (l : list A) : list A :=
  match l, i with [], _ => [] | _ :: r, O => v :: r | a :: r, S i => a :: upd i v r end.

(** ** CheckboxManager *)
(** the objects default to the descriptions *)
Record cbm (O : Type) := mkCbm { cb_ids : list string; cb_descr : list string; cb_objs : list (string + O); cb_init : list bool; cb_disabled : list bool; cb_boxes : list bool }.
Arguments mkCbm {O}. Arguments cb_ids {O}. Arguments cb_descr {O}. Arguments cb_objs {O}. Arguments cb_init {O}. Arguments cb_disabled {O}. Arguments cb_boxes {O}.
(** 25-65 *)
Definition new_cbm {O} (c : choices) (values : arg bool) (objects : option (list O)) (disabled : option (list bool)) : res (cbm O) :=
  let i := ids c in
  let* objs := match objects with None => Ret (map inl (descrs c)) | Some o => if same_len o i then Ret (map inr o) else Raise ValueError end in
  let* vals := match values with
               | ANone => Ret (repeat false (List.length i))
               | AOne b => Ret (repeat b (List.length i))
               | AList l => if same_len l i then Ret l else Raise ValueError
               end in
  let* dis := disabled_of i disabled in
  Ret (mkCbm i (descrs c) objs vals dis (map (fun x => fst (fst x)) (combine (combine vals (descrs c)) dis))).
(** 67-75: the keys and values of a dict *)
Definition from_idvdct {O} (d : list (string * bool)) (disabled : option (list bool)) : res (cbm O) :=
  new_cbm (Seq (map fst d)) (AList (map snd d)) None disabled.
(** 94-97: a dict, so the last box of an id counts *)
Definition cb_dct {O} (m : cbm O) : list (string * bool) := fold_left (fun d x => SdkModel.dset (fst x) (snd x) d) (combine (cb_ids m) (cb_boxes m)) [].
(** 99-102 *)
Definition cb_values {O} (m : cbm O) : list bool := cb_boxes m.
(** 108-116 *)
Definition checked {O} (m : cbm O) : list string := map fst (filter (fun x => Bool.eqb (snd x) true) (cb_dct m)).
Definition unchecked {O} (m : cbm O) : list string := map fst (filter (fun x => Bool.eqb (snd x) false) (cb_dct m)).
(** 118-120 *)
Definition objects {O} (m : cbm O) (b : option bool) : list (string + O) :=
  map fst (filter (fun x => Bool.eqb (snd x) (match b with None => true | Some b => b end)) (combine (cb_objs m) (cb_boxes m))).
(** a user (or code) sets the box at a position *)
Definition tick {O} (m : cbm O) (a : nat * bool) : cbm O := mkCbm (cb_ids m) (cb_descr m) (cb_objs m) (cb_init m) (cb_disabled m) (upd (fst a) (snd a) (cb_boxes m)).

(** ** PcSliderManager *)
(** one pair for all sliders, or a sequence of pairs *)
Inductive range_arg := RNone | RPair (lo hi : Q) | RList (l : list (Q * Q)).
(** ipywidgets FloatSlider: the bounds must be in order, values are moved into the range *)
Record slider := mkSlider { s_min : Q; s_max : Q; s_value : Q; s_disabled : bool }.
Definition into (lo hi v : Q) : Q := if Qle_bool lo v && Qle_bool v hi then v else let w := if Qle_bool lo v then v else lo in if Qle_bool w hi then w else hi.
Definition float_slider (v lo hi : Q) (dis : bool) : res slider :=
  if Qle_bool lo hi then Ret (mkSlider lo hi (into lo hi v) dis) else Raise TraitError.
Record psm := mkPsm { ps_ids : list string; ps_descr : list string; ps_init : list Q; ps_disabled : list bool; ps_pm : list bool;
                      ps_range : list (Q * Q); (* what iterating over self.range still gives: its generator is used up *)
                      ps_sliders : list slider }.
Fixpoint each {A B} (f : A -> res B) (l : list A) : res (list B) :=
  match l with [] => Ret [] | a :: l => let* b := f a in let* r := each f l in Ret (b :: r) end.
(** 142-215. A single value must be in 0..1. A sequence of ranges of the wrong length raises within
    a try with a bare except, hence is taken for a pair: its first two elements, pairs, are
    multiplied by 100 and refused by FloatSlider (or the second does not exist) *)
Definition new_psm (c : choices) (values : arg Q) (pm : arg bool) (range : range_arg) (disabled : option (list bool)) : res psm :=
  match range, pm with
  | RPair _ _, (AOne _ | AList _) | RList _, (AOne _ | AList _) => Raise ValueError
  | _, _ =>
    let i := ids c in let n := List.length i in
    let* vals := match values with
                 | ANone => Ret (repeat 0 n)
                 | AOne v => if Qle_bool 0 v && Qle_bool v 1 then Ret (repeat v n) else Raise ValueError
                 | AList l => if same_len l i then Ret l else Raise ValueError
                 end in
    let* dis := disabled_of i disabled in
    let* pms := match pm with
                | ANone => Ret (repeat false n)
                | AOne b => Ret (repeat b n)
                | AList l => if same_len l i then Ret l else Raise ValueError
                end in
    let ranges : res (list (Q * Q)) := match range with
                  | RNone => Ret (map (fun b : bool => if b then (- (1), 1) else (0, 1)) pms)
                  | RPair lo hi => Ret (repeat (lo, hi) n)
                  | RList l => if same_len l i then Ret l
                               else if Nat.eqb n 0 then Ret []
                               else Raise (if Nat.leb (List.length l) 1 then IndexError else TraitError)
                  end in
    let* rgs := ranges in
    let* sl := each (fun x : Q * string * bool * (Q * Q) => let '(v, _, d, (lo, hi)) := x in float_slider (v * 100) (lo * 100) (hi * 100) d)
                    (combine (combine (combine vals (descrs c)) dis) rgs) in
    Ret (mkPsm i (descrs c) vals dis pms (match range with RNone => [] | _ => rgs end) sl)
  end.
(** 244-252 *)
Definition ps_values (m : psm) : list Q := map (fun s => s_value s / 100) (ps_sliders m).
Definition ps_dct (m : psm) : list (string * Q) := fold_left (fun d x => SdkModel.dset (fst x) (snd x / 100) d) (combine (ps_ids m) (map s_value (ps_sliders m))) [].
(** a user (or code) moves the slider at a position *)
Definition slide (m : psm) (a : nat * Q) : psm :=
  mkPsm (ps_ids m) (ps_descr m) (ps_init m) (ps_disabled m) (ps_pm m) (ps_range m)
        (match nth_error (ps_sliders m) (fst a) with
         | None => ps_sliders m
         | Some s => upd (fst a) (mkSlider (s_min s) (s_max s) (into (s_min s) (s_max s) (snd a)) (s_disabled s)) (ps_sliders m)
         end).

(** ** DropdownManager *)
(** a default value: a string, or any object that is not one and so never equals an option *)
Inductive defval := DStr (s : string) | DOther.
(** the dropdown: its entries (label, value) and the selected index *)
Record ddm := mkDdm { dd_options : list string; dd_labels : list string; dd_defaultix : option Z; dd_defaultval : option defval; dd_entries : list (string * string); dd_index : nat }.
Fixpoint index_of (v : string) (l : list (string * string)) : option nat :=
  match l with [] => None | (_, o) :: r => if String.eqb o v then Some O else option_map S (index_of v r) end.
(** 276-319; 310 tests [(not ix >= 0) and ix < len] *)
Definition new_ddm (c : choices) (labels : option (list string)) (defaultval : option defval) (defaultix : option Z) : res ddm :=
  match defaultval, defaultix with
  | Some _, Some _ => Raise ValueError
  | _, _ =>
    let o := ids c in
    let* ls := match c, labels with
               | Dict d, None => Ret (map snd d)
               | Dict _, Some _ => Raise ValueError
               | Seq l, None => Ret l
               | Seq _, Some l => Ret l
               end in
    let entries := combine ls o in
    match defaultval with
    | Some v => match v with
                | DStr s => match index_of s entries with Some i => Ret (mkDdm o ls None defaultval entries i) | None => Raise TraitError end
                | DOther => Raise TraitError
                end
    | None =>
      let ix := match defaultix with None => 0%Z | Some i => i end in
      if negb (Z.leb 0 ix) && Z.ltb ix (Z.of_nat (List.length o)) then Raise ValueError
      else if Z.leb 0 ix && Z.ltb ix (Z.of_nat (List.length entries)) then Ret (mkDdm o ls (Some ix) None entries (Z.to_nat ix))
      else Raise TraitError
    end
  end.
(** 326-339 *)
Definition dd_result (m : ddm) : string * string := let e := nth (dd_index m) (dd_entries m) (""%string, ""%string) in (snd e, fst e).
(** a user selects the entry at a position; code assigns a value (ipywidgets keeps the index if
    its value is the assigned one, else takes the first) *)
Definition select (m : ddm) (i : nat) : res ddm :=
  if Nat.ltb i (List.length (dd_entries m)) then Ret (mkDdm (dd_options m) (dd_labels m) (dd_defaultix m) (dd_defaultval m) (dd_entries m) i) else Raise TraitError.
Definition assign (m : ddm) (v : string) : res ddm :=
  if String.eqb v (fst (dd_result m)) then Ret m
  else match index_of v (dd_entries m) with None => Raise TraitError | Some i => select m i end.
