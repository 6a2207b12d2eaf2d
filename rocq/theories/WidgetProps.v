(** Properties C131-C133 of carbon/helpers/widgets.py. *)
From Coq Require Import ZArith QArith List Bool String Lia.
From Verif Require Import CurveModel WidgetModel WidgetSpec WidgetProofs.
Import ListNotations.
Local Open Scope string_scope.
Local Open Scope nat_scope.

(** ** C131: check boxes *)
Theorem C131_new {O} c v (o : option (list O)) d : fits v (number c) -> fits_opt o (number c) -> fits_opt d (number c) ->
  exists m, new_cbm c v o d = Ret m /\ cb_ids m = idents c /\ cb_descr m = captions c /\ cb_objs m = match o with None => map inl (captions c) | Some l => map inr l end /\ cb_disabled m = match d with None => repeat false (number c) | Some l => l end /\ cb_values m = cb_init m /\ List.length (cb_values m) = number c /\ forall i, i < number c -> at_pos (cb_values m) i (given v false i).
Proof. exact (cbm_new c v o d). Qed.
Print Assumptions C131_new.
Theorem C131_wrong {O} c v (o : option (list O)) d : ~ (fits v (number c) /\ fits_opt o (number c) /\ fits_opt d (number c)) -> new_cbm c v o d = Raise ValueError.
Proof. exact (cbm_bad c v o d). Qed.
Print Assumptions C131_wrong.
(** a box shows what was done to it last *)
Theorem C131_history {O} c v (o : option (list O)) d acts m i : reached c v o d acts m -> i < number c -> at_pos (cb_values m) i (last_on i acts (given v false i)).
Proof. exact (cb_history c v o d acts m i). Qed.
Print Assumptions C131_history.
Theorem C131_checked {O} c v (o : option (list O)) d acts m : reached c v o d acts m -> NoDup (cb_ids m) -> exists f : string -> bool,
  (forall i x b, at_pos (cb_ids m) i x -> at_pos (cb_values m) i b -> f x = b) /\ checked m = filter f (cb_ids m) /\ unchecked m = filter (fun x => negb (f x)) (cb_ids m).
Proof. exact (checked_distinct c v o d acts m). Qed.
Print Assumptions C131_checked.
(** if an identifier occurs twice its last box counts *)
Theorem C131_last {O} c v (o : option (list O)) d acts m x : reached c v o d acts m ->
  (In x (checked m) <-> exists i, at_pos (cb_ids m) i x /\ at_pos (cb_values m) i true /\ forall j, i < j -> ~ at_pos (cb_ids m) j x) /\
  (In x (unchecked m) <-> exists i, at_pos (cb_ids m) i x /\ at_pos (cb_values m) i false /\ forall j, i < j -> ~ at_pos (cb_ids m) j x) /\
  NoDup (checked m) /\ NoDup (unchecked m).
Proof. exact (checked_in c v o d acts m x). Qed.
Print Assumptions C131_last.
(** the objects are those at the positions of the (un)checked boxes, in order *)
Theorem C131_objects {O} c v (o : option (list O)) d acts m q : reached c v o d acts m ->
  map Some (objects m (Some q)) = map (nth_error (cb_objs m)) (positions (Bool.eqb q) (cb_values m)) /\ objects m None = objects m (Some true) /\ List.length (objects m (Some true)) + List.length (objects m (Some false)) = number c.
Proof. exact (objects_spec c v o d acts m q). Qed.
Print Assumptions C131_objects.
Theorem C131_dict {O} dct disabled : NoDup (map fst dct) -> fits_opt disabled (List.length dct) -> exists m : cbm O, from_idvdct dct disabled = Ret m /\ cb_dct m = dct /\ cb_ids m = map fst dct /\ cb_values m = map snd dct.
Proof. exact (idvdct_spec dct disabled). Qed.
Print Assumptions C131_dict.
Example C131_ex : exists m, @reached nat (Dict [("a", "first"); ("b", "second"); ("c", "third")]) (AOne true) (Some [10; 20; 30]) None [(1, false); (2, false); (2, true)] m /\ checked m = ["a"; "c"] /\ unchecked m = ["b"] /\ objects m None = [inr 10; inr 30].
Proof. eexists. split; [eexists; split; reflexivity|]. repeat split. Qed.
(** "every checked box is among the checked" is false if an identifier occurs twice *)
Theorem C131_twice_refuted : exists m x i, @reached nat (Seq ["a"; "a"]) (AList [true; false]) None None [] m /\ at_pos (cb_ids m) i x /\ at_pos (cb_values m) i true /\ ~ In x (checked m).
Proof. do 2 eexists. exists 0. split; [eexists; split; reflexivity|]. split; [reflexivity|]. split; [reflexivity|]. intros []. Qed.
Print Assumptions C131_twice_refuted.

(** ** C132: sliders *)
Theorem C132_new c values pm range disabled : fine c values pm range disabled -> (forall i, i < number c -> (low pm range i <= high range i)%Q) -> exists m, new_psm c values pm range disabled = Ret m.
Proof. exact (psm_ok c values pm range disabled). Qed.
Print Assumptions C132_new.
Theorem C132_errors c values pm range disabled :
  (range_given range -> pm_given pm -> new_psm c values pm range disabled = Raise ValueError) /\
  (compatible pm range -> ~ (fits values (number c) /\ in_01 values /\ fits_opt disabled (number c) /\ fits pm (number c)) -> new_psm c values pm range disabled = Raise ValueError) /\
  (forall i, fine c values pm range disabled -> i < number c -> (high range i < low pm range i)%Q -> new_psm c values pm range disabled = Raise TraitError).
Proof. exact (conj (psm_both c values pm range disabled) (conj (psm_wrong c values pm range disabled) (fun i => psm_order c values pm range disabled i))). Qed.
Print Assumptions C132_errors.
(** a wrong number of ranges is not reported as such *)
Theorem C132_ranges c values l disabled : fits values (number c) -> in_01 values -> fits_opt disabled (number c) -> List.length l <> number c -> 0 < number c ->
  new_psm c values ANone (RList l) disabled = Raise (if Nat.leb (List.length l) 1 then IndexError else TraitError).
Proof. exact (psm_ranges c values l disabled). Qed.
Print Assumptions C132_ranges.
(** without names there are no sliders, whatever the ranges *)
Theorem C132_none c values pm range disabled : number c = 0 -> compatible pm range -> fits values 0 -> in_01 values -> fits_opt disabled 0 -> fits pm 0 -> exists m, new_psm c values pm range disabled = Ret m /\ ps_ids m = [] /\ ps_sliders m = [].
Proof. exact (psm_none c values pm range disabled). Qed.
Print Assumptions C132_none.
Example C132_none_ex : number (Seq []) = 0 /\ compatible ANone (RList [(0, 1)%Q; (2, 3)%Q]) /\ fits (@ANone Q) 0 /\ in_01 ANone /\ fits_opt (@None (list bool)) 0 /\ fits (@ANone bool) 0.
Proof. repeat split; try discriminate; try reflexivity; unfold compatible, fits, fits_opt, in_01; try (intros; discriminate); intros [A B]; apply B; reflexivity. Qed.
Theorem C132_start c values pm range disabled m : new_psm c values pm range disabled = Ret m ->
  ps_ids m = idents c /\ List.length (ps_sliders m) = number c /\
  forall i, i < number c -> (low pm range i <= high range i)%Q /\ exists s, nth_error (ps_sliders m) i = Some s /\ s_min s = (low pm range i * 100)%Q /\ s_max s = (high range i * 100)%Q /\ sane s /\ moved_into (low pm range i) (high range i) (given values 0%Q i) (s_value s / 100).
Proof. exact (psm_start c values pm range disabled m). Qed.
Print Assumptions C132_start.
Theorem C132_inside c values pm range disabled m0 acts : new_psm c values pm range disabled = Ret m0 -> let m := fold_left slide acts m0 in
  List.length (ps_values m) = number c /\ forall i v, at_pos (ps_values m) i v -> (low pm range i <= v <= high range i)%Q.
Proof. exact (psm_inside c values pm range disabled m0 acts). Qed.
Print Assumptions C132_inside.
Theorem C132_move c values pm range disabled m0 acts i x : new_psm c values pm range disabled = Ret m0 -> i < number c -> let m := fold_left slide acts m0 in let m' := slide m (i, x) in
  (forall j, j <> i -> nth_error (ps_values m') j = nth_error (ps_values m) j) /\ exists v, at_pos (ps_values m') i v /\ moved_into (low pm range i) (high range i) (x / 100)%Q v.
Proof. exact (psm_move c values pm range disabled m0 acts i x). Qed.
Print Assumptions C132_move.
Theorem C132_dict m : List.length (ps_ids m) = List.length (ps_sliders m) -> NoDup (ps_ids m) -> ps_dct m = combine (ps_ids m) (ps_values m).
Proof. exact (psm_dct m). Qed.
Print Assumptions C132_dict.
(** unless given, the ranges cannot be read from the attribute *)
Theorem C132_attribute c values pm disabled m : new_psm c values pm RNone disabled = Ret m -> ps_range m = [].
Proof. exact (psm_range_attr c values pm disabled m). Qed.
Print Assumptions C132_attribute.
Example C132_ex : exists m, new_psm (Seq ["a"; "b"]) (AList [(1 # 2)%Q; (-1 # 2)%Q]) (AList [false; true]) RNone None = Ret m /\ map Qred (ps_values m) = [(1 # 2)%Q; (-1 # 2)%Q] /\ map Qred (ps_values (slide (slide m (0, (-30 # 1)%Q)) (1, (-30 # 1)%Q))) = [0%Q; (-3 # 10)%Q].
Proof. eexists. split; [reflexivity|]. split; reflexivity. Qed.
(** "a plus-minus slider starts with any value in -1..1" is false for one value for all *)
Theorem C132_scalar_refuted : exists v, (-1 <= v <= 1)%Q /\ new_psm (Seq ["a"]) (AOne v) (AOne true) RNone None = Raise ValueError /\ exists m, new_psm (Seq ["a"]) (AList [v]) (AOne true) RNone None = Ret m.
Proof. exists (-1 # 2)%Q. split; [split; discriminate|]. split; [reflexivity|]. eexists. reflexivity. Qed.
Print Assumptions C132_scalar_refuted.
(** "wrong numbers of ranges raise ValueError" is false *)
Theorem C132_ranges_refuted : exists l, List.length l <> 1 /\ new_psm (Seq ["a"]) ANone ANone (RList l) None <> Raise ValueError.
Proof. exists [(0, 1)%Q; (0, 1)%Q]. split; discriminate. Qed.
Print Assumptions C132_ranges_refuted.

(** ** C133: dropdowns *)
Theorem C133_errors c labels dv ix : (dv <> None -> ix <> None -> new_ddm c labels dv ix = Raise ValueError) /\ (is_dict c -> labels <> None -> new_ddm c labels dv ix = Raise ValueError).
Proof. exact (ddm_errors c labels dv ix). Qed.
Print Assumptions C133_errors.
Theorem C133_index c labels ix : (labels = None \/ ~ is_dict c) -> let k := match ix with None => 0%Z | Some i => i end in let n := Nat.min (List.length (labels_of c labels)) (List.length (idents c)) in
  ((k < 0)%Z -> new_ddm c labels None ix = Raise ValueError) /\ ((Z.of_nat n <= k)%Z -> new_ddm c labels None ix = Raise TraitError) /\
  ((0 <= k < Z.of_nat n)%Z -> exists m, new_ddm c labels None ix = Ret m /\ at_pos (idents c) (Z.to_nat k) (fst (dd_result m)) /\ at_pos (labels_of c labels) (Z.to_nat k) (snd (dd_result m))).
Proof. exact (ddm_index c labels ix). Qed.
Print Assumptions C133_index.
Theorem C133_value c labels v : (labels = None \/ ~ is_dict c) ->
  (forall s i, v = DStr s -> at_pos (idents c) i s -> (forall j, j < i -> ~ at_pos (idents c) j s) -> i < List.length (labels_of c labels) -> exists m, new_ddm c labels (Some v) None = Ret m /\ fst (dd_result m) = s /\ at_pos (labels_of c labels) i (snd (dd_result m))) /\
  ((forall s i, v = DStr s -> at_pos (idents c) i s -> List.length (labels_of c labels) <= i) -> new_ddm c labels (Some v) None = Raise TraitError).
Proof. exact (ddm_value c labels v). Qed.
Print Assumptions C133_value.
(** whatever was selected or assigned, the result is an option with its own label *)
Theorem C133_always c labels dv ix m0 acts : new_ddm c labels dv ix = Ret m0 -> let m := fold_left operate acts m0 in exists i, at_pos (idents c) i (fst (dd_result m)) /\ at_pos (labels_of c labels) i (snd (dd_result m)).
Proof. exact (ddm_always c labels dv ix m0 acts). Qed.
Print Assumptions C133_always.
Theorem C133_assign c labels dv ix m0 acts v : new_ddm c labels dv ix = Ret m0 -> let m := fold_left operate acts m0 in ((exists i, at_pos (idents c) i v /\ i < List.length (labels_of c labels)) -> exists m', assign m v = Ret m' /\ fst (dd_result m') = v) /\ ((forall i, at_pos (idents c) i v -> List.length (labels_of c labels) <= i) -> assign m v = Raise TraitError).
Proof. exact (ddm_assign c labels dv ix m0 acts v). Qed.
Print Assumptions C133_assign.
Example C133_ex : exists m, new_ddm (Dict [("eth", "Ether"); ("usd", "Dollar")]) None None (Some 1%Z) = Ret m /\ dd_result m = ("usd", "Dollar") /\ dd_result (operate m (UAssign "eth")) = ("eth", "Ether") /\ dd_result (operate m (UAssign "btc")) = ("usd", "Dollar").
Proof. eexists. split; [reflexivity|]. repeat split. Qed.
(** "an index that is out of range raises ValueError" and "the default index always exists" are false *)
Theorem C133_index_refuted : exists c ix, (Z.of_nat (List.length (idents c)) <= ix)%Z /\ new_ddm c None None (Some ix) <> Raise ValueError.
Proof. exists (Seq ["a"]), 1%Z. split; [cbn; lia|discriminate]. Qed.
Print Assumptions C133_index_refuted.
Theorem C133_labels_refuted : exists c labels ix, (0 <= ix < Z.of_nat (List.length (idents c)))%Z /\ new_ddm c (Some labels) None (Some ix) = Raise TraitError.
Proof. exists (Seq ["a"; "b"]), ["first"], 1%Z. split; [cbn; lia|reflexivity]. Qed.
Print Assumptions C133_labels_refuted.
