(** C57: the parameter container (carbon/tools/params.py). *)
From Coq Require Import List Bool Ascii String.
From Verif Require Import ParamsModel ParamsSpec ParamsProofs.
Import ListNotations.
Local Open Scope string_scope.

(** Item lookup: the explicit value, else the default, else None; it never raises and
    changes neither an explicit value nor a default. *)
Theorem C57_lookup : forall V (p : params V) k,
  (forall v, dget k (p_params p) = Some v -> getitem p k = (p, Value (Some v))) /\
  (forall d v, dget k (p_params p) = None -> p_defaults p = Some d -> dget k d = Some v ->
     getitem p k = (p, Value (Some v))) /\
  (dget k (p_params p) = None -> (forall d, p_defaults p = Some d -> dget k d = None) -> snd (getitem p k) = Value None) /\
  (forall j, snd (getitem (fst (getitem p k)) j) = snd (getitem p j)).
Proof.
  intros V p k. split; [|split; [|split]].
  - intros v H. unfold getitem. rewrite H. reflexivity.
  - intros d v H Hd Hv. unfold getitem. rewrite H, get_default_eq. unfold dflt, ensure_defaults. rewrite Hd, Hv. reflexivity.
  - intros H Hd. rewrite getitem_eq, H. unfold dflt. destruct (p_defaults p) as [d|]; [rewrite Hd by reflexivity|]; reflexivity.
  - intros j. rewrite !getitem_eq. destruct (getitem_view p k) as [-> ->]. reflexivity.
Qed.

(** Attribute access gives the same value as item lookup if there is one, and raises
    KeyError (not AttributeError) if there is none; names starting with an underscore raise
    AttributeError and the names of the class members are not looked up. *)
Theorem C57_attribute : forall V (p : params V) c k, let name := String c k in
  ~ In name ["construct"; "add"; "get_default"; "set_default"; "params"; "defaults"; "set"] ->
  (c = "_"%char -> getattr p name = (p, AttributeErr)) /\
  (c <> "_"%char -> forall v, snd (getitem p name) = Value (Some v) -> snd (getattr p name) = Value (Some v)) /\
  (c <> "_"%char -> snd (getitem p name) = Value None -> snd (getattr p name) = KeyErr).
Proof.
  intros V p c k name Hn. assert (E : existsb (String.eqb name) class_names = false).
  { destruct (existsb (String.eqb name) class_names) eqn:E; [|reflexivity]. exfalso. apply Hn.
    apply existsb_exists in E as (x & H1 & H2). apply String.eqb_eq in H2. subst x. exact H1. }
  unfold getattr. rewrite E. unfold name. destruct (Ascii.eqb_spec c "_") as [->|Hc].
  - split; [reflexivity|]. split; intros H; congruence.
  - split; [congruence|]. rewrite getitem_eq. fold name. destruct (dget name (p_params p)).
    + split; [intros _ v0 H; cbn; congruence|intros _ H; congruence].
    + rewrite get_default_eq. cbn. destruct (dflt p name); split.
      * intros _ v0 H. congruence.
      * intros _ H. congruence.
      * intros _ v0 H. congruence.
      * reflexivity.
Qed.

(** Item assignment: a new key is stored and nothing else changes; assignment to a key that
    has an explicit value is refused and changes nothing. *)
Theorem C57_assign : forall V (p : params V) k v,
  (dget k (p_params p) = None ->
     snd (setitem p k v) = Value None /\ snd (getitem (fst (setitem p k v)) k) = Value (Some v) /\
     forall j, j <> k -> snd (getitem (fst (setitem p k v)) j) = snd (getitem p j)) /\
  (dget k (p_params p) <> None -> setitem p k v = (p, ValueErr)).
Proof.
  intros V p k v. split.
  - intros H. rewrite (setitem_fresh _ _ _ H). split; [reflexivity|]. split.
    + rewrite getitem_eq. cbn. rewrite dget_dset, String.eqb_refl. reflexivity.
    + intros j Hj. rewrite !getitem_eq. cbn. rewrite dget_dset. destruct (String.eqb_spec k j); [congruence|reflexivity].
  - intros H. destruct (dget k (p_params p)) as [w|] eqn:E; [|congruence]. apply (setitem_refused _ _ _ _ E).
Qed.

(** set() with permission to update always stores the value. *)
Theorem C57_set : forall V (p : params V) k v,
  snd (set p k v true) = Self /\ snd (getitem (fst (set p k v true)) k) = Value (Some v) /\
  (forall j, j <> k -> snd (getitem (fst (set p k v true)) j) = snd (getitem p j)) /\
  (dget k (p_params p) <> None -> set p k v false = (p, ValueErr)).
Proof.
  intros V p k v. split; [reflexivity|]. split; [|split].
  - rewrite getitem_eq. cbn. rewrite dget_dset, String.eqb_refl. reflexivity.
  - intros j Hj. rewrite !getitem_eq. cbn. rewrite dget_dset. destruct (String.eqb_spec k j); [congruence|reflexivity].
  - intros H. unfold set. destruct (dget k (p_params p)); [reflexivity|congruence].
Qed.

(** Write once: whatever calls are made, an explicit value stays until set() is called for
    that key with permission to update. *)
Theorem C57_write_once : forall V (p : params V) cs k v, dget k (p_params p) = Some v ->
  (forall w, ~ In (Set_ k w true) cs) -> snd (getitem (run p cs) k) = Value (Some v).
Proof. intros V p cs k v H Hc. rewrite getitem_eq, (run_keeps cs p k v Hc H). reflexivity. Qed.

(** add() with new, distinct keys stores them all; if one of the keys exists already, it
    fails, and the keys before it stay stored. *)
Theorem C57_add : forall V (p : params V) a, NoDup (map fst a) ->
  (forall j, In j (map fst a) -> dget j (p_params p) = None) ->
  (snd (add p a) = Self /\ forall j v, In (j, v) a -> snd (getitem (fst (add p a)) j) = Value (Some v)) /\
  (forall k v b, dget k (p_params p) <> None ->
     snd (add p (a ++ (k, v) :: b)%list) = ValueErr /\
     fst (add p (a ++ (k, v) :: b)%list) = fst (add p a)).
Proof.
  intros V p a Hn Hf. split.
  - rewrite add_all by assumption. split; [reflexivity|]. intros j v Hj. rewrite getitem_eq. cbn.
    destruct (dget_dupdate a (p_params p) j) as [I1 _]. rewrite (I1 v); [reflexivity|].
    apply in_split in Hj as (l1 & l2 & ->). exists l1, l2. split; [reflexivity|].
    rewrite map_app in Hn. apply NoDup_remove_2 in Hn. intros H. apply Hn, in_or_app. right. exact H.
  - intros k v b Hk. destruct (dget k (p_params p)) as [w|] eqn:E; [|congruence].
    rewrite (add_collision a k v b p w Hn Hf E). rewrite add_all by assumption. split; reflexivity.
Qed.
Theorem C57_add_atomic_refuted : exists (p : params nat) kw, snd (add p kw) = ValueErr /\ fst (add p kw) <> p.
Proof. exists (init [("b", 2)]), [("a", 1); ("b", 3)]. split; [reflexivity|]. vm_compute. discriminate. Qed.

(** The first set_default on a fresh object drops its arguments: whatever calls follow,
    defaults come only from later set_default calls. *)
Theorem C57_first_default_dropped : forall V (kw first : dict V) cs k,
  dget k (p_params (run (init kw) (SetDefault first :: cs))) = None ->
  (forall e, In (SetDefault e) cs -> ~ In k (map fst e)) ->
  snd (getitem (run (init kw) (SetDefault first :: cs)) k) = Value None.
Proof.
  intros V kw first cs k H Hc. rewrite getitem_eq, H. unfold dflt. cbn [run fold_left].
  change (fold_left (fun p c => fst (step p c)) cs (fst (step (init kw) (SetDefault first)))) with
    (run (fst (step (init kw) (SetDefault first))) cs).
  rewrite (run_defaults cs _ []) by reflexivity.
  destruct (dget_dupdate (given_defaults cs) [] k) as [_ ->]; [reflexivity|].
  induction cs as [|c cs IH]; [tauto|]. assert (IH' : ~ In k (map fst (given_defaults cs))).
  { revert Hc. clear. induction cs as [|c' cs IH]; intros Hc; [tauto|].
    assert (G : ~ In k (map fst (given_defaults cs))). { apply IH. intros e [He|He]; apply (Hc e); [left; exact He|right; right; exact He]. }
    destruct c'; cbn; try exact G. rewrite map_app, in_app_iff. intros [Hk|Hk]; [|tauto].
    apply (Hc kwargs); [right; left; reflexivity|exact Hk]. }
  destruct c; cbn; try exact IH'. rewrite map_app, in_app_iff. intros [Hk|Hk]; [|tauto].
  apply (Hc kwargs); [left; reflexivity|exact Hk].
Qed.

(** A later set_default works: its values are found unless the key has an explicit value. *)
Theorem C57_second_default : forall V (p : params V) kw k v, p_defaults p <> None ->
  last_value k kw v -> dget k (p_params p) = None ->
  snd (getitem (fst (set_default p kw)) k) = Value (Some v).
Proof.
  intros V p kw k v Hd Hl H. unfold set_default. destruct (p_defaults p) as [d|]; [|congruence].
  rewrite getitem_eq. cbn. rewrite H. unfold dflt. cbn. destruct (dget_dupdate kw d k) as [I1 _]. rewrite (I1 v Hl). reflexivity.
Qed.

(** Reading matters: looking up a missing key of a fresh object makes the following
    set_default effective. *)
Theorem C57_read_matters : forall V (kw dfl : dict V) missing k v,
  dget missing (p_params (init kw)) = None -> dget k (p_params (init kw)) = None -> last_value k dfl v ->
  snd (getitem (run (init kw) [SetDefault dfl]) k) = Value None /\
  snd (getitem (run (init kw) [GetItem missing; SetDefault dfl]) k) = Value (Some v).
Proof.
  intros V kw dfl missing k v Hm Hk Hl. split.
  - rewrite getitem_eq. cbn [run fold_left]. change (dget k (p_params (fst (step (init kw) (SetDefault dfl))))) with (dget k (p_params (init kw))).
    rewrite Hk. reflexivity.
  - cbn [run fold_left step]. apply C57_second_default; [|exact Hl|].
    + rewrite getitem_state, Hm. discriminate.
    + rewrite getitem_state, Hm, ensure_params. exact Hk.
Qed.
Theorem C57_defaults_refuted : exists (kw dfl : dict nat) k v, dget k kw = None /\ last_value k dfl v /\
  snd (getitem (fst (set_default (init kw) dfl)) k) <> Value (Some v).
Proof.
  exists [("a", 1); ("b", 2)], [("b", 20); ("c", 3)], "c", 3. split; [reflexivity|]. split.
  - exists [("b", 20)], []. split; [reflexivity|]. cbn. tauto.
  - vm_compute. discriminate.
Qed.

(** Building an object from another one copies the explicit values but not the defaults:
    the new defaults are the given ones only. *)
Theorem C57_construct : forall V (q : params V) dfl p k, construct (FromParams q) dfl = Some p ->
  (dget k (p_params q) <> None -> NoDup (map fst (p_params q)) -> snd (getitem p k) = snd (getitem q k)) /\
  (dget k (p_params q) = None -> snd (getitem p k) = Value (match dfl with Some d => dget k (dupdate [] d) | None => None end)).
Proof.
  intros V q dfl p k H.
  assert (HP : p_params p = dupdate [] (p_params q) /\
               dflt p k = match dfl with Some d => dget k (dupdate [] d) | None => None end).
  { revert H. unfold construct. destruct (p_defaults q), dfl as [[|e dd]|]; intros H; try discriminate H; injection H as <-; split; reflexivity. }
  destruct HP as [HP HD]. rewrite !getitem_eq, HP. destruct (dget_dupdate (p_params q) [] k) as [I1 I2]. split.
  - intros Hk Hn. destruct (dget k (p_params q)) as [v|] eqn:E; [|congruence].
    rewrite (I1 v); [reflexivity|]. clear - E Hn. induction (p_params q) as [|(k0, v0) l IH]; [discriminate|]. cbn in *.
    inversion Hn; subst. destruct (String.eqb_spec k0 k) as [->|].
    + injection E as ->. exists [], l. split; [reflexivity|exact H1].
    + destruct (IH E H2) as (l1 & l2 & -> & Hl). exists ((k0, v0) :: l1), l2. split; [reflexivity|exact Hl].
  - intros Hk. rewrite I2, HD; [reflexivity|]. clear - Hk. induction (p_params q) as [|(k0, v0) l IH]; cbn in *; [tauto|].
    destruct (String.eqb_spec k0 k); [discriminate|]. intros [?|?]; [congruence|]. apply IH; assumption.
Qed.
Theorem C57_replicate_refuted : exists (q : params nat) k p, construct (FromParams q) None = Some p /\
  snd (getitem p k) <> snd (getitem q k).
Proof.
  exists (mkParams [("a", 1)] (Some [("b", 2)])), "b", (mkParams [("a", 1)] None).
  split; [reflexivity|]. vm_compute. discriminate.
Qed.

(** Giving defaults for an object that was read with a missing key fails. *)
Theorem C57_construct_after_read : forall V (kw : dict V) missing d,
  dget missing (p_params (init kw)) = None ->
  (exists p, construct (FromParams (init kw)) (Some d) = Some p) /\
  construct (FromParams (fst (getitem (init kw) missing))) (Some d) = None.
Proof.
  intros V kw missing d H. split.
  - cbn. destruct d; eexists; reflexivity.
  - rewrite getitem_state, H. reflexivity.
Qed.

Example C57_ex : let p := init [("a", 1); ("b", 2)] in
  getitem p "b" = (p, Value (Some 2)) /\ setitem p "b" 3 = (p, ValueErr) /\ snd (getattr p "c") = KeyErr /\
  snd (getitem (run p [SetDefault [("c", 1)]; SetDefault [("c", 2)]]) "c") = Value (Some 2) /\
  snd (getitem (run p [SetDefault [("c", 1)]]) "c") = Value None /\
  NoDup (map fst (p_params p)).
Proof. repeat split; try reflexivity. repeat constructor; cbn; intuition discriminate. Qed.

Print Assumptions C57_lookup. Print Assumptions C57_attribute. Print Assumptions C57_assign. Print Assumptions C57_set.
Print Assumptions C57_write_once. Print Assumptions C57_add. Print Assumptions C57_add_atomic_refuted.
Print Assumptions C57_first_default_dropped. Print Assumptions C57_second_default. Print Assumptions C57_read_matters.
Print Assumptions C57_defaults_refuted. Print Assumptions C57_construct. Print Assumptions C57_replicate_refuted.
Print Assumptions C57_construct_after_read.
