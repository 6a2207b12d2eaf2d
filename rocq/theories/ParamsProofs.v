From Coq Require Import List Bool Ascii String.
From Verif Require Import ParamsModel ParamsSpec.
Import ListNotations.
Local Open Scope string_scope.

Lemma dget_dset {V} k k' (v : V) d : dget k' (dset k v d) = if String.eqb k k' then Some v else dget k' d.
Proof.
  induction d as [|(k0, v0) d IH]; cbn; [reflexivity|].
  destruct (String.eqb_spec k0 k) as [->|H]; cbn.
  - destruct (String.eqb k k'); reflexivity.
  - destruct (String.eqb_spec k0 k') as [->|H']; [|exact IH].
    destruct (String.eqb_spec k k'); [congruence|reflexivity].
Qed.
Lemma dget_dupdate {V} kw (d : dict V) k :
  (forall v, last_value k kw v -> dget k (dupdate d kw) = Some v) /\
  (~ In k (map fst kw) -> dget k (dupdate d kw) = dget k d).
Proof.
  revert d. induction kw as [|(k0, v0) kw IH]; intros d; cbn.
  - split; [|reflexivity]. intros v (l1 & l2 & E & _). destruct l1; discriminate.
  - destruct (IH (dset k0 v0 d)) as [I1 I2]. split.
    + intros v ([|e l1] & l2 & E & Hn); cbn in E.
      * injection E as -> -> ->. unfold dupdate in *. cbn. rewrite I2 by exact Hn. rewrite dget_dset, String.eqb_refl. reflexivity.
      * injection E as _ E2. apply I1. exists l1, l2. tauto.
    + intros Hn. unfold dupdate in *. cbn. rewrite I2 by tauto. rewrite dget_dset.
      destruct (String.eqb_spec k0 k); [tauto|reflexivity].
Qed.
Lemma last_value_or {V} k (l : dict V) : (exists v, last_value k l v) \/ ~ In k (map fst l).
Proof.
  induction l as [|(k0, v0) l [[v (l1 & l2 & -> & Hn)]|IH]]; cbn.
  - right. tauto.
  - left. exists v, ((k0, v0) :: l1), l2. split; [reflexivity|exact Hn].
  - destruct (String.eqb_spec k0 k) as [->|H]; [left|right; tauto].
    exists v0, [], l. split; [reflexivity|exact IH].
Qed.

(** the default a lookup finds *)
Definition dflt {V} (p : params V) (k : string) : option V :=
  match p_defaults p with Some d => dget k d | None => None end.

Lemma ensure_params {V} (p : params V) : p_params (ensure_defaults p) = p_params p.
Proof. unfold ensure_defaults, set_default. destruct (p_defaults p) eqn:E; [reflexivity|reflexivity]. Qed.
Lemma ensure_dflt {V} (p : params V) k : dflt (ensure_defaults p) k = dflt p k.
Proof. unfold ensure_defaults, set_default, dflt. destruct (p_defaults p) eqn:E; [rewrite E; reflexivity|reflexivity]. Qed.
Lemma ensure_some {V} (p : params V) : exists d, p_defaults (ensure_defaults p) = Some d.
Proof. unfold ensure_defaults, set_default. destruct (p_defaults p) eqn:E; cbn; [rewrite E|]; eauto. Qed.
Lemma get_default_eq {V} (p : params V) k r : get_default p k r =
  (ensure_defaults p, match dflt p k with Some v => Value (Some v) | None => if r then KeyErr else Value None end).
Proof.
  unfold get_default. cbv zeta. rewrite <- (ensure_dflt p k). unfold dflt.
  destruct (ensure_some p) as [d ->]. destruct (dget k d); reflexivity.
Qed.

Lemma getitem_eq {V} (p : params V) k : snd (getitem p k) =
  Value (match dget k (p_params p) with Some v => Some v | None => dflt p k end).
Proof.
  unfold getitem. destruct (dget k (p_params p)); [reflexivity|]. rewrite get_default_eq. cbn.
  destruct (dflt p k); reflexivity.
Qed.
Lemma getitem_state {V} (p : params V) k : fst (getitem p k) =
  match dget k (p_params p) with Some v => p | None => ensure_defaults p end.
Proof. unfold getitem. destruct (dget k (p_params p)); [reflexivity|]. rewrite get_default_eq. reflexivity. Qed.
Lemma getitem_view {V} (p : params V) k : p_params (fst (getitem p k)) = p_params p /\ forall j, dflt (fst (getitem p k)) j = dflt p j.
Proof.
  rewrite getitem_state. destruct (dget k (p_params p)); [tauto|]. split; [apply ensure_params|intros j; apply ensure_dflt].
Qed.

Lemma setitem_fresh {V} (p : params V) k v : dget k (p_params p) = None ->
  setitem p k v = (mkParams (dset k v (p_params p)) (p_defaults p), Value None).
Proof. intros H. unfold setitem, set. rewrite H. reflexivity. Qed.
Lemma setitem_refused {V} (p : params V) k v w : dget k (p_params p) = Some w -> setitem p k v = (p, ValueErr).
Proof. intros H. unfold setitem, set. rewrite H. reflexivity. Qed.

(** writing never removes, and overwrites only with permission *)
Lemma add_keeps {V} (kw : dict V) p k v : dget k (p_params p) = Some v -> dget k (p_params (fst (add p kw))) = Some v.
Proof.
  revert p. induction kw as [|(k0, v0) kw IH]; intros p H; [exact H|]. cbn.
  destruct (dget k0 (p_params p)) as [w|] eqn:E.
  - rewrite (setitem_refused _ _ _ _ E). exact H.
  - rewrite (setitem_fresh _ _ _ E). apply IH. cbn. rewrite dget_dset.
    destruct (String.eqb_spec k0 k) as [->|]; [congruence|exact H].
Qed.
Lemma getattr_params {V} (p : params V) k : p_params (fst (getattr p k)) = p_params p.
Proof.
  unfold getattr. destruct (existsb _ _); [reflexivity|].
  assert (G : p_params (fst (get_default p k true)) = p_params p) by (rewrite get_default_eq; apply ensure_params).
  destruct k as [|c k].
  - destruct (dget "" (p_params p)); [reflexivity|exact G].
  - destruct (Ascii.eqb c "_"); [reflexivity|]. destruct (dget (String c k) (p_params p)); [reflexivity|exact G].
Qed.
Lemma step_keeps {V} (p : params V) c k v : (forall w, c <> Set_ k w true) ->
  dget k (p_params p) = Some v -> dget k (p_params (fst (step p c))) = Some v.
Proof.
  intros Hc H. destruct c as [j|j|j w|j w a|kw|kw|j r|]; cbn.
  - destruct (getitem_view p j) as [-> _]. exact H.
  - rewrite getattr_params. exact H.
  - destruct (dget j (p_params p)) as [x|] eqn:E.
    + rewrite (setitem_refused _ _ _ _ E). exact H.
    + rewrite (setitem_fresh _ _ _ E). cbn. rewrite dget_dset. destruct (String.eqb_spec j k) as [->|]; [congruence|exact H].
  - unfold set. destruct a; cbn.
    + rewrite dget_dset. destruct (String.eqb_spec j k) as [->|]; [|exact H]. exfalso. apply (Hc w). reflexivity.
    + destruct (dget j (p_params p)) eqn:E; cbn; [exact H|]. rewrite dget_dset.
      destruct (String.eqb_spec j k) as [->|]; [congruence|exact H].
  - apply add_keeps. exact H.
  - unfold set_default. destruct (p_defaults p); exact H.
  - rewrite get_default_eq. cbn. rewrite ensure_params. exact H.
  - rewrite ensure_params. exact H.
Qed.
Lemma run_keeps {V} cs (p : params V) k v : (forall w, ~ In (Set_ k w true) cs) ->
  dget k (p_params p) = Some v -> dget k (p_params (run p cs)) = Some v.
Proof.
  revert p. induction cs as [|c cs IH]; intros p Hc H; [exact H|]. cbn. apply IH.
  - intros w Hw. apply (Hc w). right. exact Hw.
  - apply step_keeps; [|exact H]. intros w ->. apply (Hc w). left. reflexivity.
Qed.

(** once the dict of defaults exists it stays *)
Lemma step_defaults {V} (p : params V) c d : p_defaults p = Some d ->
  p_defaults (fst (step p c)) = Some (match c with SetDefault kw => dupdate d kw | _ => d end).
Proof.
  intros H.
  assert (En : ensure_defaults p = p) by (unfold ensure_defaults; rewrite H; reflexivity).
  assert (Gd : forall j r, fst (get_default p j r) = p) by (intros j r; rewrite get_default_eq; exact En).
  destruct c as [j|j|j w|j w a|kw|kw|j r|]; cbn.
  - rewrite getitem_state, En. destruct (dget j (p_params p)); exact H.
  - unfold getattr. destruct (existsb _ _); [exact H|]. destruct j as [|c j].
    + destruct (dget "" (p_params p)); [exact H|]. rewrite Gd. exact H.
    + destruct (Ascii.eqb c "_"); [exact H|]. destruct (dget (String c j) (p_params p)); [exact H|]. rewrite Gd. exact H.
  - destruct (dget j (p_params p)) eqn:E; [rewrite (setitem_refused _ _ _ _ E)|rewrite (setitem_fresh _ _ _ E)]; exact H.
  - unfold set. destruct (negb a && _); exact H.
  - revert p H En Gd. induction kw as [|(k0, v0) kw IH]; intros p H En Gd; [exact H|]. cbn.
    destruct (dget k0 (p_params p)) as [w|] eqn:E.
    + rewrite (setitem_refused _ _ _ _ E). exact H.
    + rewrite (setitem_fresh _ _ _ E). apply IH; cbn; [exact H|..].
      * unfold ensure_defaults. cbn. rewrite H. reflexivity.
      * intros j r. rewrite get_default_eq. cbn. unfold ensure_defaults. cbn. rewrite H. reflexivity.
  - unfold set_default. rewrite H. reflexivity.
  - rewrite Gd. exact H.
  - rewrite En. exact H.
Qed.

Fixpoint given_defaults {V} (cs : list (call V)) : dict V :=
  match cs with
  | [] => []
  | SetDefault kw :: cs => (kw ++ given_defaults cs)%list
  | _ :: cs => given_defaults cs
  end.
Lemma dupdate_app {V} (d a b : dict V) : dupdate d (a ++ b)%list = dupdate (dupdate d a) b.
Proof. unfold dupdate. apply fold_left_app. Qed.
Lemma run_defaults {V} cs (p : params V) d : p_defaults p = Some d ->
  p_defaults (run p cs) = Some (dupdate d (given_defaults cs)).
Proof.
  revert p d. induction cs as [|c cs IH]; intros p d H; [exact H|]. cbn [run fold_left].
  change (fold_left (fun p c => fst (step p c)) cs (fst (step p c))) with (run (fst (step p c)) cs).
  rewrite (IH _ _ (step_defaults p c d H)). destruct c; cbn [given_defaults]; try reflexivity. rewrite dupdate_app. reflexivity.
Qed.

Lemma add_all {V} (kw : dict V) p : NoDup (map fst kw) -> (forall k, In k (map fst kw) -> dget k (p_params p) = None) ->
  add p kw = (mkParams (dupdate (p_params p) kw) (p_defaults p), Self).
Proof.
  revert p. induction kw as [|(k0, v0) kw IH]; intros p Hn Hf; [destruct p; reflexivity|]. cbn [add].
  inversion Hn; subst. rewrite setitem_fresh by (apply Hf; left; reflexivity).
  rewrite IH; [reflexivity|assumption|]. intros k Hk. cbn. rewrite dget_dset.
  destruct (String.eqb_spec k0 k) as [->|]; [contradiction|]. apply Hf. right. exact Hk.
Qed.
Lemma add_collision {V} (a : dict V) k v b p w : NoDup (map fst a) ->
  (forall j, In j (map fst a) -> dget j (p_params p) = None) -> dget k (p_params p) = Some w ->
  add p (a ++ (k, v) :: b)%list = (mkParams (dupdate (p_params p) a) (p_defaults p), ValueErr).
Proof.
  revert p. induction a as [|(k0, v0) a IH]; intros p Hn Hf Hk.
  - cbn. rewrite (setitem_refused _ _ _ _ Hk). destruct p; reflexivity.
  - cbn [app add]. inversion Hn; subst. rewrite setitem_fresh by (apply Hf; left; reflexivity).
    rewrite IH; [reflexivity|assumption| |].
    + intros j Hj. cbn. rewrite dget_dset. destruct (String.eqb_spec k0 j) as [->|]; [contradiction|]. apply Hf. right. exact Hj.
    + cbn. rewrite dget_dset. destruct (String.eqb_spec k0 k) as [->|]; [|exact Hk].
      rewrite Hf in Hk by (left; reflexivity). discriminate.
Qed.
