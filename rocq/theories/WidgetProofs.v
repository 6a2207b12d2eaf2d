(** Proofs for C131-C133 (widgets). *)
From Coq Require Import ZArith QArith List Bool String Lia Lqa.
From Verif Require Import CurveModel WidgetModel WidgetSpec.
From Verif Require SdkModel SdkProofs2.
Import ListNotations.
Local Open Scope nat_scope.

Lemma same_len_true {A B} (a : list A) (b : list B) : same_len a b = true <-> List.length a = List.length b.
Proof. apply Nat.eqb_eq. Qed.
Lemma ids_len c : List.length (ids c) = number c. Proof. destruct c; cbn; rewrite ?map_length; reflexivity. Qed.
Lemma descrs_len c : List.length (descrs c) = number c. Proof. destruct c; cbn; rewrite ?map_length; reflexivity. Qed.
Lemma repeat_nth {A} (a : A) n i d : i < n -> nth i (repeat a n) d = a.
Proof. revert i. induction n; intros i H; [lia|]. destruct i; cbn; [reflexivity|]. apply IHn. lia. Qed.
Lemma disabled_ok c d : fits_opt d (number c) -> exists l, disabled_of (ids c) d = Ret l /\ List.length l = number c /\ l = match d with None => repeat false (number c) | Some l => l end.
Proof.
  intros F. unfold disabled_of. destruct d as [l|].
  - specialize (F l eq_refl). rewrite (proj2 (same_len_true l (ids c))) by (rewrite ids_len; exact F). eauto.
  - eexists. split; [rewrite ids_len; reflexivity|]. rewrite repeat_length. auto.
Qed.
Lemma disabled_bad c d : ~ fits_opt d (number c) -> disabled_of (ids c) d = Raise ValueError.
Proof.
  intros F. unfold disabled_of. destruct d as [l|]; [|exfalso; apply F; intros l E; discriminate]. destruct (same_len l (ids c)) eqn:E; [|reflexivity]. apply same_len_true in E. rewrite ids_len in E. exfalso. apply F. intros l' [= <-]. exact E.
Qed.
Lemma map_fst_combine {A B} (a : list A) (b : list B) : List.length a = List.length b -> map fst (combine a b) = a.
Proof. revert b. induction a as [|x a IH]; intros [|y b] H; try discriminate; [reflexivity|]. cbn. f_equal. apply IH. cbn in H. lia. Qed.
Lemma map_snd_combine {A B} (a : list A) (b : list B) : List.length a = List.length b -> map snd (combine a b) = b.
Proof. revert b. induction a as [|x a IH]; intros [|y b] H; try discriminate; [reflexivity|]. cbn. f_equal. apply IH. cbn in H. lia. Qed.
Lemma boxes_eq {A} (v : list A) (s : list string) (d : list bool) : List.length v = List.length s -> List.length d = List.length v -> map (fun x => fst (fst x)) (combine (combine v s) d) = v.
Proof.
  intros H1 H2. rewrite <- (map_map fst fst). rewrite map_fst_combine by (rewrite combine_length; lia). apply map_fst_combine, H1.
Qed.
Definition vals_of {A} (a : arg A) (d : A) n : list A := match a with ANone => repeat d n | AOne b => repeat b n | AList l => l end.
Lemma vals_of_len {A} (a : arg A) d n : fits a n -> List.length (vals_of a d n) = n.
Proof. intros F. destruct a; cbn; rewrite ?repeat_length; auto. Qed.
Lemma vals_of_nth {A} (a : arg A) d n i : i < n -> nth i (vals_of a d n) d = given a d i.
Proof. intros F. destruct a; cbn; rewrite ?repeat_nth; auto. Qed.

(** ** check boxes *)
Lemma cbm_ok {O} c v (o : option (list O)) d : fits v (number c) -> fits_opt o (number c) -> fits_opt d (number c) ->
  exists m, new_cbm c v o d = Ret m /\ cb_ids m = ids c /\ cb_descr m = descrs c /\ cb_objs m = match o with None => map inl (descrs c) | Some l => map inr l end /\ cb_boxes m = vals_of v false (number c) /\ cb_init m = vals_of v false (number c) /\ cb_disabled m = match d with None => repeat false (number c) | Some l => l end.
Proof.
  intros Fv Fo Fd. destruct (disabled_ok c d Fd) as [dl [D1 [D2 D3]]]. unfold new_cbm.
  assert (X : (match o with None => Ret (map inl (descrs c)) | Some o0 => if same_len o0 (ids c) then Ret (map inr o0) else Raise ValueError end : res (list (string + O))) = Ret (match o with None => map inl (descrs c) | Some l => map inr l end)).
  { destruct o as [l|]; [|reflexivity]. rewrite (proj2 (same_len_true l (ids c))) by (rewrite ids_len; apply Fo; reflexivity). reflexivity. }
  rewrite X. cbn [rbind].
  assert (Y : (match v with ANone => Ret (repeat false (List.length (ids c))) | AOne b => Ret (repeat b (List.length (ids c))) | AList l => if same_len l (ids c) then Ret l else Raise ValueError end) = Ret (vals_of v false (number c))).
  { rewrite ids_len. destruct v as [|b|l]; cbn; try reflexivity. rewrite (proj2 (same_len_true l (ids c))) by (rewrite ids_len; apply Fv; reflexivity). reflexivity. }
  rewrite Y. cbn [rbind]. rewrite D1. cbn [rbind]. eexists. split; [reflexivity|]. cbn. pose proof (vals_of_len v false _ Fv) as L. rewrite boxes_eq; [auto 10| |]; rewrite ?descrs_len; congruence.
Qed.
Lemma cbm_bad {O} c v (o : option (list O)) d : ~ (fits v (number c) /\ fits_opt o (number c) /\ fits_opt d (number c)) -> new_cbm c v o d = Raise ValueError.
Proof.
  intros H. unfold new_cbm.
  destruct o as [lo|].
  - destruct (same_len lo (ids c)) eqn:E; [|reflexivity]. apply same_len_true in E. rewrite ids_len in E. cbn [rbind].
    destruct v as [|b|l]; cbn [rbind].
    + rewrite disabled_bad; [reflexivity|]. intros F. apply H. repeat split; [intros ? X; discriminate|intros ? [= <-]; exact E|exact F].
    + rewrite disabled_bad; [reflexivity|]. intros F. apply H. repeat split; [intros ? X; discriminate|intros ? [= <-]; exact E|exact F].
    + destruct (same_len l (ids c)) eqn:E2; [|reflexivity]. apply same_len_true in E2. rewrite ids_len in E2. cbn [rbind]. rewrite disabled_bad; [reflexivity|]. intros F. apply H. repeat split; [intros ? [= <-]; exact E2|intros ? [= <-]; exact E|exact F].
  - cbn [rbind]. destruct v as [|b|l]; cbn [rbind].
    + rewrite disabled_bad; [reflexivity|]. intros F. apply H. repeat split; [intros ? X; discriminate|intros ? X; discriminate|exact F].
    + rewrite disabled_bad; [reflexivity|]. intros F. apply H. repeat split; [intros ? X; discriminate|intros ? X; discriminate|exact F].
    + destruct (same_len l (ids c)) eqn:E2; [|reflexivity]. apply same_len_true in E2. rewrite ids_len in E2. cbn [rbind]. rewrite disabled_bad; [reflexivity|]. intros F. apply H. repeat split; [intros ? [= <-]; exact E2|intros ? X; discriminate|exact F].
Qed.
Lemma cbm_inv {O} c v (o : option (list O)) d m : new_cbm c v o d = Ret m -> fits v (number c) /\ fits_opt o (number c) /\ fits_opt d (number c).
Proof.
  intros E. assert (Dv : fits v (number c) \/ ~ fits v (number c)).
  { destruct v as [|b|l]; [left; intros ? X; discriminate|left; intros ? X; discriminate|]. destruct (Nat.eq_dec (List.length l) (number c)) as [e|e]; [left; intros ? [= <-]; exact e|right; intros F; apply e, F; reflexivity]. }
  assert (Do : forall A (o : option (list A)), fits_opt o (number c) \/ ~ fits_opt o (number c)).
  { intros A [l|]; [|left; intros ? X; discriminate]. destruct (Nat.eq_dec (List.length l) (number c)) as [e|e]; [left; intros ? [= <-]; exact e|right; intros F; apply e, F; reflexivity]. }
  destruct Dv as [Dv|Dv]; [|rewrite cbm_bad in E; [discriminate|tauto]]. destruct (Do _ o) as [Eo|Eo]; [|rewrite cbm_bad in E; [discriminate|tauto]]. destruct (Do _ d) as [Ed|Ed]; [tauto|rewrite cbm_bad in E; [discriminate|tauto]].
Qed.
Lemma upd_len {A} i (v : A) l : List.length (upd i v l) = List.length l.
Proof. revert i. induction l as [|a l IH]; intros [|i]; cbn; auto. Qed.
Lemma upd_nth {A} i (v : A) l j : nth_error (upd i v l) j = if Nat.eqb j i then (if Nat.ltb j (List.length l) then Some v else None) else nth_error l j.
Proof.
  revert i j. induction l as [|a l IH]; intros [|i] [|j]; cbn; try reflexivity.
  - destruct (Nat.eqb j i); reflexivity.
  - rewrite IH. reflexivity.
Qed.
Lemma ticks_fixed {O} acts (m : cbm O) : let m' := fold_left tick acts m in cb_ids m' = cb_ids m /\ cb_descr m' = cb_descr m /\ cb_objs m' = cb_objs m /\ cb_init m' = cb_init m /\ cb_disabled m' = cb_disabled m /\ List.length (cb_boxes m') = List.length (cb_boxes m).
Proof.
  revert m. induction acts as [|[i v] acts IH]; intros m; cbn; [auto 10|]. destruct (IH (tick m (i, v))) as (A & B & C & D & E & F). cbn in *. rewrite upd_len in F. auto 10.
Qed.
Lemma ticks_nth {O} acts (m : cbm O) i b : nth_error (cb_boxes m) i = Some b -> nth_error (cb_boxes (fold_left tick acts m)) i = Some (last_on i acts b).
Proof.
  revert m b. induction acts as [|[j v] acts IH]; intros m b E; cbn; [exact E|]. apply IH. cbn. rewrite upd_nth. destruct (Nat.eqb_spec i j) as [->|N]; [|exact E]. rewrite (proj2 (Nat.ltb_lt j (List.length (cb_boxes m)))); [reflexivity|]. apply nth_error_Some. congruence.
Qed.
Lemma cb_history {O} c v (o : option (list O)) d acts m i : reached c v o d acts m -> i < number c -> at_pos (cb_values m) i (last_on i acts (given v false i)).
Proof.
  intros (m0 & E & ->) H. destruct (cbm_inv _ _ _ _ _ E) as (F1 & F2 & F3). destruct (cbm_ok c v o d F1 F2 F3) as (m1 & E1 & _ & _ & _ & B & _). rewrite E in E1. injection E1 as <-. apply ticks_nth. rewrite B. rewrite <- (vals_of_nth v false (number c) i H). apply nth_error_nth'. rewrite vals_of_len by exact F1. exact H.
Qed.
Lemma cb_shape {O} c v (o : option (list O)) d acts m : reached c v o d acts m -> cb_ids m = ids c /\ List.length (cb_values m) = number c /\ cb_objs m = match o with None => map inl (descrs c) | Some l => map inr l end /\ List.length (cb_objs m) = number c.
Proof.
  intros (m0 & E & ->). destruct (cbm_inv _ _ _ _ _ E) as (F1 & F2 & F3). destruct (cbm_ok c v o d F1 F2 F3) as (m1 & E1 & I & _ & Ob & B & _). rewrite E in E1. injection E1 as <-. destruct (ticks_fixed acts m0) as (A1 & _ & A3 & _ & _ & A6). unfold cb_values. rewrite A1, A3, A6, B, vals_of_len, Ob by exact F1. split; [exact I|split; [reflexivity|split; [reflexivity|]]]. destruct o as [l|]; rewrite map_length; [apply F2; reflexivity|apply descrs_len].
Qed.
(** the dict of the values *)
Definition ins {V} (d : list (string * V)) (x : string * V) := SdkModel.dset (fst x) (snd x) d.
Lemma dset_fst_in {V} k (v : V) l x : In x (map fst (SdkModel.dset k v l)) <-> x = k \/ In x (map fst l).
Proof.
  induction l as [|[k' y] l IH]; cbn; [intuition congruence|]. destruct (String.eqb_spec k k') as [->|E]; cbn; [intuition congruence|]. rewrite IH. intuition congruence.
Qed.
Lemma dset_fst_nodup {V} k (v : V) l : NoDup (map fst l) -> NoDup (map fst (SdkModel.dset k v l)).
Proof.
  induction l as [|[k' y] l IH]; intros N; cbn; [repeat constructor; intros []|]. inversion N as [|? ? B C]; subst. destruct (String.eqb_spec k k') as [E|E]; cbn; [constructor; assumption|]. constructor; [|apply IH, C]. intros X. apply dset_fst_in in X as [X|X]; [congruence|contradiction].
Qed.
Lemma build_nodup {V} (l : list (string * V)) d : NoDup (map fst d) -> NoDup (map fst (fold_left ins l d)).
Proof. revert d. induction l as [|x l IH]; intros d N; cbn; [exact N|]. apply IH, dset_fst_nodup, N. Qed.
Lemma build_get {V} (l : list (string * V)) k : SdkModel.dget k (fold_left ins l []) = fold_left (fun r x => if String.eqb k (fst x) then Some (snd x) else r) l None.
Proof.
  assert (G : forall (l : list (string * V)) (d : list (string * V)), SdkModel.dget k (fold_left ins l d) = fold_left (fun r x => if String.eqb k (fst x) then Some (snd x) else r) l (SdkModel.dget k d)).
  { clear. induction l as [|x l IH]; intros d; cbn; [reflexivity|]. rewrite IH. unfold ins. rewrite SdkProofs2.dget_dset. reflexivity. }
  apply G.
Qed.
Lemma last_fold {V} (l : list (string * V)) k : forall r, fold_left (fun r x => if String.eqb k (fst x) then Some (snd x) else r) l r = match fold_left (fun r x => if String.eqb k (fst x) then Some (snd x) else r) l None with Some v => Some v | None => r end.
Proof.
  induction l as [|x l IH]; intros r; cbn; [reflexivity|]. rewrite IH. rewrite (IH (if String.eqb k (fst x) then Some (snd x) else None)). destruct (fold_left _ l None); [reflexivity|]. destruct (String.eqb k (fst x)); reflexivity.
Qed.
Lemma last_get {V} (a : list string) : forall (b : list V) k v, List.length a = List.length b ->
  (fold_left (fun r x => if String.eqb k (fst x) then Some (snd x) else r) (combine a b) None = Some v <-> exists i, nth_error a i = Some k /\ nth_error b i = Some v /\ forall j, i < j -> nth_error a j <> Some k).
Proof.
  induction a as [|x a IH]; intros [|y b] k v L; try discriminate; cbn [combine fold_left fst snd].
  - split; [discriminate|]. intros (i & X & _). destruct i; discriminate.
  - cbn in L. rewrite last_fold. destruct (fold_left _ (combine a b) None) as [w|] eqn:E.
    + split.
      * intros [= ->]. apply IH in E; [|lia]. destruct E as (i & A & B & C). exists (S i). split; [exact A|split; [exact B|]]. intros [|j] J; [lia|]. cbn. apply C. lia.
      * intros (i & A & B & C). apply IH in E; [|lia]. destruct E as (i' & A' & B' & C'). destruct i as [|i]; [exfalso; apply (C (S i')); [lia|exact A']|]. cbn in A, B. destruct (Nat.lt_trichotomy i i') as [T|[T|T]].
        -- exfalso. apply (C (S i')); [lia|exact A'].
        -- subst i'. congruence.
        -- exfalso. apply (C' i T A).
    + destruct (String.eqb_spec k x) as [->|N].
      * split; [intros [= <-]; exists 0|].
        -- split; [reflexivity|split; [reflexivity|]]. intros [|j] J X; [lia|]. cbn in X.
           assert (exists w, nth_error b j = Some w) as [w W]. { destruct (nth_error b j) eqn:B; [eauto|]. apply nth_error_None in B. assert (j < List.length a) by (apply nth_error_Some; congruence). lia. }
           clear IH. revert E. assert (G : forall (a : list string) (b : list V) j w, nth_error a j = Some x -> nth_error b j = Some w -> fold_left (fun r z => if String.eqb x (fst z) then Some (snd z) else r) (combine a b) None <> None).
           { clear. induction a as [|x' a IH]; intros [|y b] [|j] w A B; try discriminate; cbn in A, B.
             - injection A as ->. cbn. rewrite String.eqb_refl. rewrite last_fold. destruct (fold_left _ _ None); discriminate.
             - cbn. rewrite last_fold. specialize (IH b j w A B). destruct (fold_left _ (combine a b) None); [discriminate|congruence]. }
           apply (G a b j w X W).
        -- intros (i & A & B & C). destruct i as [|i]; [cbn in B; congruence|]. cbn in A, B.
           exfalso. assert (Lab : List.length a = List.length b) by lia. clear -E A B IH Lab.
           assert (G : forall (a : list string) (b : list V) j w, nth_error a j = Some x -> nth_error b j = Some w -> fold_left (fun r z => if String.eqb x (fst z) then Some (snd z) else r) (combine a b) None <> None).
           { clear. induction a as [|x' a IH]; intros [|y b] [|j] w A B; try discriminate; cbn in A, B.
             - injection A as ->. cbn. rewrite String.eqb_refl. rewrite last_fold. destruct (fold_left _ _ None); discriminate.
             - cbn. rewrite last_fold. specialize (IH b j w A B). destruct (fold_left _ (combine a b) None); [discriminate|congruence]. }
           exact (G a b i v A B E).
      * split; [discriminate|]. intros (i & A & B & C). destruct i as [|i]; [cbn in A; congruence|]. assert (Z : None = Some v); [|discriminate]. rewrite <- E. apply IH; [lia|]. exists i. split; [exact A|split; [exact B|]]. intros j J. apply (C (S j)). lia.
Qed.
Lemma dget_in {V} (d : list (string * V)) k v : NoDup (map fst d) -> (In (k, v) d <-> SdkModel.dget k d = Some v).
Proof.
  induction d as [|[k' w] d IH]; cbn; intros N; [split; [intros []|discriminate]|]. inversion N as [|? ? A B]; subst. destruct (String.eqb_spec k k') as [->|E].
  - split; [intros [X|X]; [congruence|exfalso; apply A, in_map_iff; exists (k', v); auto]|intros [= ->]; auto].
  - rewrite <- IH by exact B. split; [intros [X|X]; [congruence|exact X]|auto].
Qed.
Lemma dct_in {O} (m : cbm O) k v : List.length (cb_ids m) = List.length (cb_boxes m) -> (In (k, v) (cb_dct m) <-> exists i, at_pos (cb_ids m) i k /\ at_pos (cb_boxes m) i v /\ forall j, i < j -> ~ at_pos (cb_ids m) j k).
Proof.
  intros L. unfold cb_dct. change (fun d x => SdkModel.dset (fst x) (snd x) d) with (@ins bool). rewrite dget_in by (apply build_nodup; constructor). rewrite build_get. apply last_get, L.
Qed.
Lemma dct_nodup {O} (m : cbm O) : NoDup (map fst (cb_dct m)).
Proof. unfold cb_dct. change (fun d x => SdkModel.dset (fst x) (snd x) d) with (@ins bool). apply build_nodup. constructor. Qed.
Lemma checked_in {O} c v (o : option (list O)) d acts m x : reached c v o d acts m ->
  (In x (checked m) <-> exists i, at_pos (cb_ids m) i x /\ at_pos (cb_values m) i true /\ forall j, i < j -> ~ at_pos (cb_ids m) j x) /\
  (In x (unchecked m) <-> exists i, at_pos (cb_ids m) i x /\ at_pos (cb_values m) i false /\ forall j, i < j -> ~ at_pos (cb_ids m) j x) /\
  NoDup (checked m) /\ NoDup (unchecked m).
Proof.
  intros R. destruct (cb_shape _ _ _ _ _ _ R) as (A & B & _). assert (L : List.length (cb_ids m) = List.length (cb_boxes m)) by (rewrite A, ids_len; symmetry; exact B).
  assert (G : forall b, In x (map fst (filter (fun x => Bool.eqb (snd x) b) (cb_dct m))) <-> In (x, b) (cb_dct m)).
  { intros b. rewrite in_map_iff. split.
    - intros ([k w] & <- & F). apply filter_In in F as [F E]. apply eqb_prop in E. cbn in *. subst. exact F.
    - intros F. exists (x, b). split; [reflexivity|]. apply filter_In. split; [exact F|apply eqb_reflx]. }
  assert (N : forall (p : string * bool -> bool) l, NoDup (map fst l) -> NoDup (map fst (filter p l))).
  { clear. induction l as [|a l IH]; cbn; intros N; [constructor|]. inversion N as [|? ? X Y]; subst. destruct (p a); cbn; [|auto]. constructor; [|auto]. intros I. apply X. apply in_map_iff in I as (z & E & F). apply filter_In in F as [F _]. apply in_map_iff. eauto. }
  unfold checked, unchecked. rewrite !G. rewrite !dct_in by exact L. split; [tauto|split; [tauto|]]. split; apply N, dct_nodup.
Qed.
Lemma dset_new {V} k (v : V) l : ~ In k (map fst l) -> SdkModel.dset k v l = (l ++ [(k, v)])%list.
Proof. induction l as [|[k' w] l IH]; intros N; [reflexivity|]. cbn. destruct (String.eqb_spec k k') as [->|E]; [exfalso; apply N; left; reflexivity|]. f_equal. apply IH. intros X. apply N. right. exact X. Qed.
Lemma build_distinct {V} (l : list (string * V)) : forall d, NoDup (map fst (d ++ l)%list) -> fold_left ins l d = (d ++ l)%list.
Proof.
  induction l as [|[k v] l IH]; intros d N; cbn [fold_left]; [symmetry; apply app_nil_r|]. unfold ins at 2. cbn [fst snd]. rewrite dset_new.
  - rewrite IH by (rewrite <- app_assoc; exact N). rewrite <- app_assoc. reflexivity.
  - rewrite map_app in N. cbn in N. apply NoDup_remove_2 in N. intros X. apply N, in_or_app. auto.
Qed.
Lemma dct_distinct {O} (m : cbm O) : List.length (cb_ids m) = List.length (cb_boxes m) -> NoDup (cb_ids m) -> cb_dct m = combine (cb_ids m) (cb_boxes m).
Proof. intros L N. unfold cb_dct. change (fun d x => SdkModel.dset (fst x) (snd x) d) with (@ins bool). apply build_distinct. cbn. rewrite map_fst_combine by exact L. exact N. Qed.
Lemma filter_combine (a : list string) : forall (b : list bool), List.length a = List.length b -> NoDup a -> exists f : string -> bool,
  (forall i x v, nth_error a i = Some x -> nth_error b i = Some v -> f x = v) /\ (forall q, map fst (filter (fun x => Bool.eqb (snd x) q) (combine a b)) = filter (fun x => Bool.eqb (f x) q) a).
Proof.
  induction a as [|x a IH]; intros [|y b] L N; try discriminate.
  - exists (fun _ => true). split; [intros [|i]; discriminate|reflexivity].
  - inversion N as [|? ? X Y]; subst. destruct (IH b) as (f & F1 & F2); [cbn in L; lia|exact Y|]. exists (fun z => if String.eqb z x then y else f z).
    assert (C : forall q, filter (fun z => Bool.eqb (if String.eqb z x then y else f z) q) a = filter (fun z => Bool.eqb (f z) q) a).
    { intros q. apply filter_ext_in. intros z Z. destruct (String.eqb_spec z x) as [->|]; [contradiction|reflexivity]. }
    split.
    + intros [|i] z v A B; cbn in A, B; [injection A as <-; injection B as <-; rewrite String.eqb_refl; reflexivity|]. destruct (String.eqb_spec z x) as [->|E]; [exfalso; apply X; eapply nth_error_In, A|eauto].
    + intros q. cbn [combine filter snd]. rewrite String.eqb_refl. destruct (Bool.eqb y q); cbn [map fst]; rewrite F2, C; reflexivity.
Qed.
Lemma checked_distinct {O} c v (o : option (list O)) d acts m : reached c v o d acts m -> NoDup (cb_ids m) -> exists f : string -> bool,
  (forall i x b, at_pos (cb_ids m) i x -> at_pos (cb_values m) i b -> f x = b) /\ checked m = filter f (cb_ids m) /\ unchecked m = filter (fun x => negb (f x)) (cb_ids m).
Proof.
  intros R N. destruct (cb_shape _ _ _ _ _ _ R) as (A & B & _). assert (L : List.length (cb_ids m) = List.length (cb_boxes m)) by (rewrite A, ids_len; symmetry; exact B).
  destruct (filter_combine _ _ L N) as (f & F1 & F2). exists f. split; [exact F1|]. unfold checked, unchecked. rewrite dct_distinct by assumption. rewrite !F2. split; apply filter_ext; intros z; destruct (f z); reflexivity.
Qed.
Lemma positions_cons {A} p (a : A) l : positions p (a :: l) = (if p a then [0] else []) ++ map S (positions p l).
Proof.
  unfold positions. cbn [List.length seq filter nth_error]. rewrite <- seq_shift. assert (X : filter (fun i => match nth_error (a :: l) i with Some a0 => p a0 | None => false end) (map S (seq 0 (List.length l))) = map S (filter (fun i => match nth_error l i with Some a0 => p a0 | None => false end) (seq 0 (List.length l)))).
  { induction (seq 0 (List.length l)) as [|i s IH]; [reflexivity|]. cbn [map filter]. replace (nth_error (a :: l) (S i)) with (nth_error l i) by reflexivity. destruct (nth_error l i) as [w|]; [destruct (p w)|]; cbn [map]; rewrite IH; reflexivity. }
  rewrite X. destruct (p a); reflexivity.
Qed.
Lemma objects_positions {A} (a : list A) : forall (b : list bool) q, List.length a = List.length b ->
  map Some (map fst (filter (fun x => Bool.eqb (snd x) q) (combine a b))) = map (nth_error a) (positions (Bool.eqb q) b).
Proof.
  induction a as [|x a IH]; intros [|y b] q L; try discriminate; [reflexivity|]. cbn in L. rewrite positions_cons. cbn [combine filter snd].
  assert (E : Bool.eqb y q = Bool.eqb q y) by (destruct y, q; reflexivity). rewrite E. rewrite map_app. destruct (Bool.eqb q y); cbn [map app fst]; rewrite IH by lia; rewrite map_map; reflexivity.
Qed.
Lemma objects_spec {O} c v (o : option (list O)) d acts m q : reached c v o d acts m -> map Some (objects m (Some q)) = map (nth_error (cb_objs m)) (positions (Bool.eqb q) (cb_values m)) /\ objects m None = objects m (Some true) /\ List.length (objects m (Some true)) + List.length (objects m (Some false)) = number c.
Proof.
  intros R. destruct (cb_shape _ _ _ _ _ _ R) as (A & B & C & D). split; [apply objects_positions; exact (eq_trans D (eq_sym B))|split; [reflexivity|]]. unfold objects. rewrite !map_length. unfold cb_values in B. rewrite <- D. assert (L : List.length (cb_objs m) = List.length (cb_boxes m)) by exact (eq_trans D (eq_sym B)). clear -L. revert L. generalize (cb_boxes m). induction (cb_objs m) as [|x a IH]; intros [|y b] L; try discriminate; [reflexivity|]. cbn. specialize (IH b). cbn in L. destruct y; cbn; lia.
Qed.
Lemma idvdct_spec {O} dct disabled : NoDup (map fst dct) -> fits_opt disabled (List.length dct) -> exists m : cbm O, from_idvdct dct disabled = Ret m /\ cb_dct m = dct /\ cb_ids m = map fst dct /\ cb_values m = map snd dct.
Proof.
  intros N F. unfold from_idvdct. destruct (@cbm_ok O (Seq (map fst dct)) (AList (map snd dct)) None disabled) as (m & E & I & _ & _ & B & _).
  - intros l [= <-]. cbn. rewrite !map_length. reflexivity.
  - intros l X. discriminate.
  - cbn. rewrite map_length. exact F.
  - exists m. cbn in I, B. split; [exact E|]. rewrite dct_distinct; [|rewrite I, B, !map_length; reflexivity|rewrite I; exact N]. rewrite I. unfold cb_values. rewrite B. split; [|auto]. clear. induction dct as [|[k w] d IH]; [reflexivity|]. cbn. f_equal. exact IH.
Qed.

(** ** sliders *)
Lemma into_spec lo hi v : (lo <= hi)%Q -> (lo <= into lo hi v <= hi)%Q /\ moved_into lo hi v (into lo hi v).
Proof.
  intros H. unfold into, moved_into. destruct (Qle_bool lo v) eqn:A, (Qle_bool v hi) eqn:B; cbn [andb].
  - apply Qle_bool_iff in A, B. split; [lra|]. repeat split; intros; lra.
  - apply Qle_bool_iff in A. rewrite ?B. assert (~ v <= hi)%Q by (intros X; apply Qle_bool_iff in X; congruence). split; [lra|]. repeat split; intros; lra.
  - apply Qle_bool_iff in B. assert (~ lo <= v)%Q by (intros X; apply Qle_bool_iff in X; congruence). rewrite (proj2 (Qle_bool_iff lo hi) H). split; [lra|]. repeat split; intros; lra.
  - assert (~ lo <= v)%Q by (intros X; apply Qle_bool_iff in X; congruence). rewrite (proj2 (Qle_bool_iff lo hi) H). split; [lra|]. assert (~ v <= hi)%Q by (intros X; apply Qle_bool_iff in X; congruence). repeat split; intros; lra.
Qed.
Lemma each_ret {A B} (f : A -> res B) l r : each f l = Ret r -> List.length r = List.length l /\ forall i a, nth_error l i = Some a -> exists b, nth_error r i = Some b /\ f a = Ret b.
Proof.
  revert r. induction l as [|a l IH]; intros r E; cbn in E; [injection E as <-; split; [reflexivity|intros [|i]; discriminate]|]. destruct (f a) as [b|] eqn:F; [|discriminate]. cbn in E. destruct (each f l) as [t|]; [|discriminate]. cbn in E. injection E as <-. destruct (IH t eq_refl) as [L G]. split; [cbn; lia|]. intros [|i] x X; cbn in *; [injection X as <-; eauto|eauto].
Qed.
Lemma each_total {A B} (f : A -> res B) l : (forall a, In a l -> exists b, f a = Ret b) -> exists r, each f l = Ret r.
Proof. induction l as [|a l IH]; intros H; [exists []; reflexivity|]. destruct (H a (or_introl eq_refl)) as [b B0]. destruct IH as [r R]; [intros; apply H; right; assumption|]. exists (b :: r). cbn. rewrite B0. cbn. rewrite R. reflexivity. Qed.
Lemma each_raise {A B} (f : A -> res B) e l : (forall a, In a l -> f a = Raise e \/ exists b, f a = Ret b) -> (exists a, In a l /\ f a = Raise e) -> each f l = Raise e.
Proof.
  induction l as [|a l IH]; intros H (x & I & X); [destruct I|]. cbn. destruct (H a (or_introl eq_refl)) as [F|[b F]]; rewrite F; [reflexivity|]. cbn. destruct I as [->|I]; [congruence|]. rewrite IH; [reflexivity|intros; apply H; right; assumption|eauto].
Qed.
Definition rgs_of (pm : arg bool) (r : range_arg) n : list (Q * Q) := match r with RNone => map (fun b : bool => if b then (- (1), 1)%Q else (0, 1)%Q) (vals_of pm false n) | RPair lo hi => repeat (lo, hi) n | RList l => l end.
Lemma rgs_len pm r n : fits pm n -> range_fits r n -> List.length (rgs_of pm r n) = n.
Proof. intros F1 F2. destruct r; cbn; [rewrite map_length; apply vals_of_len, F1|apply repeat_length|apply F2; reflexivity]. Qed.
Lemma rgs_nth pm r n i : fits pm n -> range_fits r n -> i < n -> exists x, nth_error (rgs_of pm r n) i = Some x /\ fst x = low pm r i /\ snd x = high r i.
Proof.
  intros F1 F2 H. pose proof (rgs_len pm r n F1 F2) as L. exists (nth i (rgs_of pm r n) (0, 1)%Q). split; [apply nth_error_nth'; lia|]. destruct r; cbn.
  - set (g := fun b : bool => if b then (- (1), 1)%Q else (0, 1)%Q). change (0, 1)%Q with (g false). rewrite map_nth. rewrite vals_of_nth by exact H. destruct (given pm false i); split; reflexivity.
  - rewrite repeat_nth by exact H. split; reflexivity.
  - split; reflexivity.
Qed.
Lemma comb_nth {A B} (a : list A) : forall (b : list B) i x y, nth_error a i = Some x -> nth_error b i = Some y -> nth_error (combine a b) i = Some (x, y).
Proof. induction a as [|z a IH]; intros [|w b] [|i] x y X Y; try discriminate; cbn in *; [congruence|]. apply IH; assumption. Qed.
Definition mk_slider (x : Q * string * bool * (Q * Q)) : res slider := let '(v, _, d, (lo, hi)) := x in float_slider (v * 100) (lo * 100) (hi * 100) d.
Definition row vals c dis rgs : list (Q * string * bool * (Q * Q)) := combine (combine (combine vals (descrs c)) dis) rgs.
Lemma psm_unfold c values pm range disabled dis : compatible pm range -> fits values (number c) -> in_01 values -> fits pm (number c) -> range_fits range (number c) -> disabled_of (ids c) disabled = Ret dis ->
  new_psm c values pm range disabled = let vals := vals_of values 0%Q (number c) in let rgs := rgs_of pm range (number c) in
    let* sl := each mk_slider (row vals c dis rgs) in Ret (mkPsm (ids c) (descrs c) vals dis (vals_of pm false (number c)) (match range with RNone => [] | _ => rgs end) sl).
Proof.
  intros C F1 I F2 F3 D. unfold new_psm. rewrite D.
  assert (V : (match values with ANone => Ret (repeat 0%Q (List.length (ids c))) | AOne v => if Qle_bool 0 v && Qle_bool v 1 then Ret (repeat v (List.length (ids c))) else Raise ValueError | AList l => if same_len l (ids c) then Ret l else Raise ValueError end) = Ret (vals_of values 0%Q (number c))).
  { rewrite ids_len. destruct values as [|v|l]; cbn; [reflexivity| |].
    - destruct (I v eq_refl) as [I1 I2]. rewrite (proj2 (Qle_bool_iff _ _) I1), (proj2 (Qle_bool_iff _ _) I2). reflexivity.
    - rewrite (proj2 (same_len_true l (ids c))) by (rewrite ids_len; apply F1; reflexivity). reflexivity. }
  rewrite V. cbn [rbind].
  assert (P : (match pm with ANone => Ret (repeat false (List.length (ids c))) | AOne b => Ret (repeat b (List.length (ids c))) | AList l => if same_len l (ids c) then Ret l else Raise ValueError end) = Ret (vals_of pm false (number c))).
  { rewrite ids_len. destruct pm as [|b|l]; cbn; try reflexivity. rewrite (proj2 (same_len_true l (ids c))) by (rewrite ids_len; apply F2; reflexivity). reflexivity. }
  rewrite P. cbn [rbind].
  destruct range as [|lo hi|l].
  - destruct pm; reflexivity.
  - destruct pm; [|exfalso; apply C; split; discriminate..]. cbn [rbind]. rewrite ids_len. reflexivity.
  - destruct pm; [|exfalso; apply C; split; discriminate..]. rewrite (proj2 (same_len_true l (ids c))) by (rewrite ids_len; apply F3; reflexivity). reflexivity.
Qed.
Lemma row_len vals c dis rgs : List.length vals = number c -> List.length dis = number c -> List.length rgs = number c -> List.length (row vals c dis rgs) = number c.
Proof. intros. unfold row. rewrite !combine_length, descrs_len. lia. Qed.
Lemma row_nth values c dis pm range i : fits values (number c) -> fits pm (number c) -> range_fits range (number c) -> List.length dis = number c -> i < number c ->
  exists s d, nth_error (row (vals_of values 0%Q (number c)) c dis (rgs_of pm range (number c))) i = Some (given values 0%Q i, s, d, (low pm range i, high range i)).
Proof.
  intros F1 F2 F3 L H. destruct (rgs_nth pm range (number c) i F2 F3 H) as ([a b] & E & X & Y). cbn in X, Y. subst a b. exists (nth i (descrs c) EmptyString), (nth i dis false). unfold row. apply comb_nth; [|exact E]. apply comb_nth; [|apply nth_error_nth'; lia]. apply comb_nth; [|apply nth_error_nth'; rewrite descrs_len; exact H]. rewrite <- (vals_of_nth values 0%Q (number c)) by exact H. apply nth_error_nth'. rewrite vals_of_len; assumption.
Qed.
Lemma psm_ok c values pm range disabled : fine c values pm range disabled -> (forall i, i < number c -> (low pm range i <= high range i)%Q) -> exists m, new_psm c values pm range disabled = Ret m.
Proof.
  intros (C & F1 & I & F2 & F3 & F4) H. destruct (disabled_ok c disabled F2) as (dis & D & L & _). rewrite (psm_unfold c values pm range disabled dis C F1 I F3 F4 D). cbv zeta.
  destruct (each_total mk_slider (row (vals_of values 0%Q (number c)) c dis (rgs_of pm range (number c)))) as [sl E].
  - intros a A. apply In_nth_error in A as [i A]. assert (Hi : i < number c). { rewrite <- (row_len (vals_of values 0%Q (number c)) c dis (rgs_of pm range (number c))); [apply nth_error_Some; congruence|apply vals_of_len, F1|exact L|apply rgs_len; assumption]. }
    destruct (row_nth values c dis pm range i F1 F3 F4 L Hi) as (s & d & X). rewrite X in A. injection A as <-. cbn. unfold float_slider. specialize (H i Hi). rewrite (proj2 (Qle_bool_iff _ _)) by lra. eauto.
  - rewrite E. eexists. reflexivity.
Qed.
Lemma psm_order c values pm range disabled i : fine c values pm range disabled -> i < number c -> (high range i < low pm range i)%Q -> new_psm c values pm range disabled = Raise TraitError.
Proof.
  intros (C & F1 & I & F2 & F3 & F4) Hi H. destruct (disabled_ok c disabled F2) as (dis & D & L & _). rewrite (psm_unfold c values pm range disabled dis C F1 I F3 F4 D). cbv zeta.
  rewrite (each_raise mk_slider TraitError); [reflexivity| |].
  - intros [[[v s] d] [lo hi]] _. cbn. unfold float_slider. destruct (Qle_bool (lo * 100) (hi * 100)); eauto.
  - destruct (row_nth values c dis pm range i F1 F3 F4 L Hi) as (s & d & X). eexists. split; [eapply nth_error_In, X|]. cbn. unfold float_slider. destruct (Qle_bool (low pm range i * 100) (high range i * 100)) eqn:E; [apply Qle_bool_iff in E; lra|reflexivity].
Qed.
Lemma psm_both c values pm range disabled : range_given range -> pm_given pm -> new_psm c values pm range disabled = Raise ValueError.
Proof. intros A B. unfold range_given, pm_given in *. unfold new_psm. destruct range; [congruence| |]; destruct pm; try congruence; reflexivity. Qed.
Ltac sp := split; [|split; [|split]]; intros ? X; inversion X; subst; auto.
Lemma psm_wrong c values pm range disabled : compatible pm range -> ~ (fits values (number c) /\ in_01 values /\ fits_opt disabled (number c) /\ fits pm (number c)) -> new_psm c values pm range disabled = Raise ValueError.
Proof.
  intros C H. unfold new_psm.
  assert (M : forall X : res psm, (X = Raise ValueError) -> match range, pm with RPair _ _, (AOne _ | AList _) | RList _, (AOne _ | AList _) => Raise ValueError | _, _ => X end = Raise ValueError) by (intros X ->; destruct range, pm; reflexivity).
  apply M. clear M.
  destruct values as [|v|l].
  - cbn [rbind]. destruct disabled as [dl|].
    + unfold disabled_of. destruct (same_len dl (ids c)) eqn:E; [|reflexivity]. apply same_len_true in E. rewrite ids_len in E. cbn [rbind]. destruct pm as [|b|pl]; [exfalso; apply H|exfalso; apply H|].
      1,2: sp.
      destruct (same_len pl (ids c)) eqn:E2; [|reflexivity]. apply same_len_true in E2. rewrite ids_len in E2. exfalso. apply H. sp.
    + cbn [disabled_of rbind]. destruct pm as [|b|pl]; [exfalso; apply H|exfalso; apply H|].
      1,2: sp.
      destruct (same_len pl (ids c)) eqn:E2; [|reflexivity]. apply same_len_true in E2. rewrite ids_len in E2. exfalso. apply H. sp.
  - destruct (Qle_bool 0 v) eqn:A, (Qle_bool v 1) eqn:B; cbn [andb]; try reflexivity. apply Qle_bool_iff in A, B. cbn [rbind]. assert (J : in_01 (AOne v)) by (intros w [= <-]; auto). destruct disabled as [dl|].
    + unfold disabled_of. destruct (same_len dl (ids c)) eqn:E; [|reflexivity]. apply same_len_true in E. rewrite ids_len in E. cbn [rbind]. destruct pm as [|b|pl]; [exfalso; apply H|exfalso; apply H|].
      1,2: sp.
      destruct (same_len pl (ids c)) eqn:E2; [|reflexivity]. apply same_len_true in E2. rewrite ids_len in E2. exfalso. apply H. sp.
    + cbn [disabled_of rbind]. destruct pm as [|b|pl]; [exfalso; apply H|exfalso; apply H|].
      1,2: sp.
      destruct (same_len pl (ids c)) eqn:E2; [|reflexivity]. apply same_len_true in E2. rewrite ids_len in E2. exfalso. apply H. sp.
  - destruct (same_len l (ids c)) eqn:A; [|reflexivity]. apply same_len_true in A. rewrite ids_len in A. cbn [rbind]. destruct disabled as [dl|].
    + unfold disabled_of. destruct (same_len dl (ids c)) eqn:E; [|reflexivity]. apply same_len_true in E. rewrite ids_len in E. cbn [rbind]. destruct pm as [|b|pl]; [exfalso; apply H|exfalso; apply H|].
      1,2: sp.
      destruct (same_len pl (ids c)) eqn:E2; [|reflexivity]. apply same_len_true in E2. rewrite ids_len in E2. exfalso. apply H. sp.
    + cbn [disabled_of rbind]. destruct pm as [|b|pl]; [exfalso; apply H|exfalso; apply H|].
      1,2: sp.
      destruct (same_len pl (ids c)) eqn:E2; [|reflexivity]. apply same_len_true in E2. rewrite ids_len in E2. exfalso. apply H. sp.
Qed.
Lemma psm_ranges c values l disabled : fits values (number c) -> in_01 values -> fits_opt disabled (number c) -> List.length l <> number c -> 0 < number c ->
  new_psm c values ANone (RList l) disabled = Raise (if Nat.leb (List.length l) 1 then IndexError else TraitError).
Proof.
  intros F1 I F2 N P. destruct (disabled_ok c disabled F2) as (dis & D & L & _). unfold new_psm. rewrite D.
  assert (V : (match values with ANone => Ret (repeat 0%Q (List.length (ids c))) | AOne v => if Qle_bool 0 v && Qle_bool v 1 then Ret (repeat v (List.length (ids c))) else Raise ValueError | AList l => if same_len l (ids c) then Ret l else Raise ValueError end) = Ret (vals_of values 0%Q (number c))).
  { rewrite ids_len. destruct values as [|v|vl]; cbn; [reflexivity| |].
    - destruct (I v eq_refl) as [I1 I2]. rewrite (proj2 (Qle_bool_iff _ _) I1), (proj2 (Qle_bool_iff _ _) I2). reflexivity.
    - rewrite (proj2 (same_len_true vl (ids c))) by (rewrite ids_len; apply F1; reflexivity). reflexivity. }
  rewrite V. cbn [rbind]. destruct (same_len l (ids c)) eqn:E; [apply same_len_true in E; rewrite ids_len in E; congruence|]. rewrite ids_len. destruct (Nat.eqb_spec (number c) 0); [lia|]. reflexivity.
Qed.

Lemma psm_inv c values pm range disabled m : new_psm c values pm range disabled = Ret m -> compatible pm range /\ fits values (number c) /\ in_01 values /\ fits_opt disabled (number c) /\ fits pm (number c) /\ (number c = 0 \/ range_fits range (number c)).
Proof.
  intros E. assert (C : compatible pm range).
  { intros [A B]. rewrite psm_both in E by assumption. discriminate. }
  assert (D : forall A (a : arg A), fits a (number c) \/ ~ fits a (number c)).
  { intros A [|b|l]; [left; intros ? X; discriminate|left; intros ? X; discriminate|]. destruct (Nat.eq_dec (List.length l) (number c)) as [e|e]; [left; intros ? [= <-]; exact e|right; intros F; apply e, F; reflexivity]. }
  assert (Do : fits_opt disabled (number c) \/ ~ fits_opt disabled (number c)).
  { destruct disabled as [l|]; [|left; intros ? X; discriminate]. destruct (Nat.eq_dec (List.length l) (number c)) as [e|e]; [left; intros ? [= <-]; exact e|right; intros F; apply e, F; reflexivity]. }
  assert (Di : in_01 values \/ ~ in_01 values).
  { destruct values as [|v|l]; [left; intros ? X; discriminate| |left; intros ? X; discriminate]. destruct (Qlt_le_dec v 0) as [A|A]; [right; intros F; destruct (F v eq_refl); lra|]. destruct (Qlt_le_dec 1 v) as [B|B]; [right; intros F; destruct (F v eq_refl); lra|]. left. intros w [= <-]. auto. }
  assert (G : fits values (number c) /\ in_01 values /\ fits_opt disabled (number c) /\ fits pm (number c)).
  { destruct (D _ values) as [D1|D1]; [|rewrite psm_wrong in E; [discriminate|exact C|tauto]]. destruct (D _ pm) as [D2|D2]; [|rewrite psm_wrong in E; [discriminate|exact C|tauto]]. destruct Do as [D3|D3]; [|rewrite psm_wrong in E; [discriminate|exact C|tauto]]. destruct Di as [D4|D4]; [tauto|rewrite psm_wrong in E; [discriminate|exact C|tauto]]. }
  destruct G as (G1 & G2 & G3 & G4). split; [exact C|]. split; [exact G1|]. split; [exact G2|]. split; [exact G3|]. split; [exact G4|].
  destruct (Nat.eq_dec (number c) 0) as [Z|Z]; [left; exact Z|]. right. intros l ->. destruct (Nat.eq_dec (List.length l) (number c)) as [e|e]; [exact e|]. destruct pm as [|b|pl]; [|exfalso; apply C; split; discriminate..]. rewrite psm_ranges in E; [discriminate|assumption..|lia].
Qed.
Lemma empty_row vals c dis rgs : number c = 0 -> row vals c dis rgs = [].
Proof. intros Z. assert (L : descrs c = []) by (apply length_zero_iff_nil; rewrite descrs_len; exact Z). unfold row. rewrite L. destruct vals; destruct dis, rgs; reflexivity. Qed.
Lemma psm_empty c values pm range disabled m : number c = 0 -> new_psm c values pm range disabled = Ret m -> ps_sliders m = [] /\ ps_ids m = ids c.
Proof.
  intros Z E. pose proof (psm_inv _ _ _ _ _ _ E) as (C & _). unfold new_psm in E. assert (M : forall X : res psm, match range, pm with RPair _ _, (AOne _ | AList _) | RList _, (AOne _ | AList _) => Raise ValueError | _, _ => X end = Ret m -> X = Ret m) by (intros X; destruct range, pm; try discriminate; auto).
  apply M in E. clear M.
  destruct (match values with ANone => _ | AOne _ => _ | AList _ => _ end) as [vals|]; [|discriminate]. cbn [rbind] in E. destruct (disabled_of (ids c) disabled) as [dis|]; [|discriminate]. cbn [rbind] in E. destruct (match pm with ANone => _ | AOne _ => _ | AList _ => _ end) as [pms|]; [|discriminate]. cbn [rbind] in E. destruct (match range with RNone => _ | RPair _ _ => _ | RList _ => _ end) as [rgs|]; [|discriminate]. cbn [rbind] in E. change (combine (combine (combine vals (descrs c)) dis) rgs) with (row vals c dis rgs) in E. rewrite empty_row in E by exact Z. cbn in E. injection E as <-. auto.
Qed.
Lemma psm_none c values pm range disabled : number c = 0 -> compatible pm range -> fits values 0 -> in_01 values -> fits_opt disabled 0 -> fits pm 0 -> exists m, new_psm c values pm range disabled = Ret m /\ ps_ids m = [] /\ ps_sliders m = [].
Proof.
  intros Z C F1 I F2 F3. rewrite <- Z in F1, F2, F3. destruct (disabled_ok c disabled F2) as (dis & D & L & _).
  assert (N : List.length (ids c) = 0) by (rewrite ids_len; exact Z). assert (Ni : ids c = []) by (apply length_zero_iff_nil; exact N).
  assert (Rd : exists rgs, match range with RNone => Ret (map (fun b : bool => if b then (- (1), 1)%Q else (0, 1)%Q) (match pm with ANone => [] | AOne b => [] | AList l => l end)) | RPair lo hi => Ret [] | RList l => if same_len l (ids c) then Ret l else if Nat.eqb 0 0 then Ret [] else Raise (if Nat.leb (List.length l) 1 then IndexError else TraitError) end = Ret rgs).
  { destruct range as [| |l]; [eexists; reflexivity..|]. destruct (same_len l (ids c)); eexists; reflexivity. }
  destruct Rd as (rgs & Rd).
  assert (V : exists vals, (match values with ANone => Ret (repeat 0%Q (List.length (ids c))) | AOne v => if Qle_bool 0 v && Qle_bool v 1 then Ret (repeat v (List.length (ids c))) else Raise ValueError | AList l => if same_len l (ids c) then Ret l else Raise ValueError end) = Ret vals).
  { destruct values as [|v|vl]; [eexists; reflexivity| |].
    - destruct (I v eq_refl) as [I1 I2]. rewrite (proj2 (Qle_bool_iff _ _) I1), (proj2 (Qle_bool_iff _ _) I2). eexists. reflexivity.
    - rewrite (proj2 (same_len_true vl (ids c))) by (rewrite ids_len; apply F1; reflexivity). eexists. reflexivity. }
  destruct V as (vals & V).
  assert (P : (match pm with ANone => Ret (repeat false (List.length (ids c))) | AOne b => Ret (repeat b (List.length (ids c))) | AList l => if same_len l (ids c) then Ret l else Raise ValueError end) = Ret (match pm with ANone => [] | AOne b => [] | AList l => l end)).
  { rewrite N. destruct pm as [| |pl]; [reflexivity..|]. rewrite (proj2 (same_len_true pl (ids c))) by (rewrite ids_len; apply F3; reflexivity). reflexivity. }
  assert (G : exists m, new_psm c values pm range disabled = Ret m).
  { unfold new_psm. rewrite D, V, P. rewrite N. cbn [rbind repeat].
    assert (M : forall X : res psm, (exists m, X = Ret m) -> exists m, match range, pm with RPair _ _, (AOne _ | AList _) | RList _, (AOne _ | AList _) => Raise ValueError | _, _ => X end = Ret m).
    { intros X HX. destruct range, pm; auto; exfalso; apply C; split; discriminate. }
    apply M. rewrite Rd. cbn [rbind]. change (combine (combine (combine vals (descrs c)) dis) rgs) with (row vals c dis rgs). rewrite empty_row by exact Z. cbn. eexists. reflexivity. }
  destruct G as (m & E). exists m. split; [exact E|]. destruct (psm_empty _ _ _ _ _ _ Z E) as [A B]. split; [rewrite B; exact Ni|exact A].
Qed.
Lemma psm_start c values pm range disabled m : new_psm c values pm range disabled = Ret m ->
  ps_ids m = ids c /\ List.length (ps_sliders m) = number c /\
  forall i, i < number c -> (low pm range i <= high range i)%Q /\ exists s, nth_error (ps_sliders m) i = Some s /\ s_min s = (low pm range i * 100)%Q /\ s_max s = (high range i * 100)%Q /\ sane s /\ moved_into (low pm range i) (high range i) (given values 0%Q i) (s_value s / 100).
Proof.
  intros E. pose proof (psm_inv _ _ _ _ _ _ E) as (C & F1 & I & F2 & F3 & [Z|F4]).
  - destruct (psm_empty _ _ _ _ _ _ Z E) as [A B]. rewrite A, B, Z. repeat split; intros; lia.
  - destruct (disabled_ok c disabled F2) as (dis & D & L & _). rewrite (psm_unfold c values pm range disabled dis C F1 I F3 F4 D) in E. cbv zeta in E. destruct (each mk_slider _) as [sl|] eqn:R; [|discriminate]. cbn [rbind] in E. injection E as <-. cbn [ps_ids ps_sliders]. apply each_ret in R as [R1 R2]. split; [reflexivity|]. split; [rewrite R1; apply row_len; [apply vals_of_len, F1|exact L|apply rgs_len; assumption]|].
    intros i H. destruct (row_nth values c dis pm range i F1 F3 F4 L H) as (s & d & X). destruct (R2 i _ X) as (sd & S1 & S2). cbn in S2. unfold float_slider in S2. destruct (Qle_bool (low pm range i * 100) (high range i * 100)) eqn:O; [|discriminate]. apply Qle_bool_iff in O. injection S2 as <-. split; [lra|]. eexists. split; [exact S1|]. cbn. split; [reflexivity|split; [reflexivity|]].
    destruct (into_spec (low pm range i * 100) (high range i * 100) (given values 0%Q i * 100) O) as [P (Q1 & Q2 & Q3)]. unfold sane. cbn. split; [exact P|]. set (w := into _ _ _) in *. assert (W : (w / 100 == w * (1 # 100))%Q) by (unfold Qdiv; reflexivity). split; [|split]; intros HH; rewrite W.
    + specialize (Q1 ltac:(lra)). lra.
    + specialize (Q2 ltac:(lra)). lra.
    + specialize (Q3 ltac:(lra)). lra.
Qed.
Lemma slide_one m i x : ps_ids (slide m (i, x)) = ps_ids m /\ ps_range (slide m (i, x)) = ps_range m /\ List.length (ps_sliders (slide m (i, x))) = List.length (ps_sliders m) /\
  (forall j, j <> i -> nth_error (ps_sliders (slide m (i, x))) j = nth_error (ps_sliders m) j) /\
  (forall s, nth_error (ps_sliders m) i = Some s -> nth_error (ps_sliders (slide m (i, x))) i = Some (mkSlider (s_min s) (s_max s) (into (s_min s) (s_max s) x) (s_disabled s))).
Proof.
  unfold slide. cbn [fst snd ps_ids ps_range ps_sliders]. destruct (nth_error (ps_sliders m) i) as [s|] eqn:E.
  - split; [reflexivity|split; [reflexivity|split; [apply upd_len|]]]. split.
    + intros j J. rewrite upd_nth. destruct (Nat.eqb_spec j i); [congruence|reflexivity].
    + intros s' [= <-]. rewrite upd_nth, Nat.eqb_refl. rewrite (proj2 (Nat.ltb_lt _ _)); [reflexivity|]. apply nth_error_Some. congruence.
  - repeat split; try reflexivity. intros s X. discriminate.
Qed.
Lemma slides_inv acts : forall m, (forall s, In s (ps_sliders m) -> sane s) -> let m' := fold_left slide acts m in ps_ids m' = ps_ids m /\ List.length (ps_sliders m') = List.length (ps_sliders m) /\ forall i s, nth_error (ps_sliders m) i = Some s -> exists s', nth_error (ps_sliders m') i = Some s' /\ s_min s' = s_min s /\ s_max s' = s_max s /\ sane s'.
Proof.
  induction acts as [|[i x] acts IH]; intros m H; cbn [fold_left]; [split; [reflexivity|split; [reflexivity|]]; intros i s E; exists s; repeat split; try exact E; apply (H s); eapply nth_error_In, E|].
  destruct (slide_one m i x) as (A & _ & B & C & D). assert (G : forall s, In s (ps_sliders (slide m (i, x))) -> sane s).
  { intros s S. apply In_nth_error in S as [j S]. destruct (Nat.eq_dec j i) as [->|N].
    - assert (exists s0, nth_error (ps_sliders m) i = Some s0) as [s0 S0]. { destruct (nth_error (ps_sliders m) i) eqn:E; [eauto|]. apply nth_error_None in E. assert (i < List.length (ps_sliders (slide m (i, x)))) by (apply nth_error_Some; congruence). lia. }
      rewrite (D s0 S0) in S. injection S as <-. unfold sane. cbn. assert (K : sane s0) by (apply H; eapply nth_error_In, S0). destruct K as [K1 K2]. destruct (into_spec (s_min s0) (s_max s0) x); [lra|assumption].
    - rewrite C in S by exact N. apply H. eapply nth_error_In, S. }
  destruct (IH (slide m (i, x)) G) as (P & Q1 & R). cbv zeta. rewrite P, Q1, A, B. split; [reflexivity|split; [reflexivity|]]. intros j s S. destruct (Nat.eq_dec j i) as [->|N].
  - destruct (R i _ (D s S)) as (s' & S' & T1 & T2 & T3). exists s'. auto.
  - apply R. rewrite C by exact N. exact S.
Qed.
Lemma psm_inside c values pm range disabled m0 acts : new_psm c values pm range disabled = Ret m0 -> let m := fold_left slide acts m0 in
  List.length (ps_values m) = number c /\ forall i v, at_pos (ps_values m) i v -> (low pm range i <= v <= high range i)%Q.
Proof.
  intros E. destruct (psm_start _ _ _ _ _ _ E) as (_ & L & G).
  assert (S0 : forall s, In s (ps_sliders m0) -> sane s). { intros s S. apply In_nth_error in S as [j S]. assert (H : j < number c) by (rewrite <- L; apply nth_error_Some; congruence). destruct (G j H) as (_ & s' & X & _ & _ & Y & _). congruence. }
  destruct (slides_inv acts m0 S0) as (_ & B & C). cbv zeta. unfold ps_values. rewrite map_length, B. split; [exact L|]. intros i v. unfold at_pos. rewrite nth_error_map. intros X. destruct (nth_error (ps_sliders (fold_left slide acts m0)) i) as [s|] eqn:Y; [|discriminate]. cbn in X. injection X as <-.
  assert (H : i < number c) by (rewrite <- L, <- B; apply nth_error_Some; congruence). destruct (G i H) as (_ & s0 & X0 & M1 & M2 & _). destruct (C i s0 X0) as (s' & X1 & N1 & N2 & [N3 N4]). rewrite Y in X1. injection X1 as <-. rewrite N1, M1 in N3. rewrite N2, M2 in N4. unfold Qdiv. change (/ 100)%Q with (1 # 100)%Q. lra.
Qed.
Lemma psm_move c values pm range disabled m0 acts i x : new_psm c values pm range disabled = Ret m0 -> i < number c -> let m := fold_left slide acts m0 in let m' := slide m (i, x) in
  (forall j, j <> i -> nth_error (ps_values m') j = nth_error (ps_values m) j) /\ exists v, at_pos (ps_values m') i v /\ moved_into (low pm range i) (high range i) (x / 100)%Q v.
Proof.
  intros E H. destruct (psm_start _ _ _ _ _ _ E) as (_ & L & G).
  assert (S0 : forall s, In s (ps_sliders m0) -> sane s). { intros s S. apply In_nth_error in S as [j S]. assert (H' : j < number c) by (rewrite <- L; apply nth_error_Some; congruence). destruct (G j H') as (_ & s' & X & _ & _ & Y & _). congruence. }
  destruct (slides_inv acts m0 S0) as (_ & B & C). cbv zeta. set (m := fold_left slide acts m0) in *. destruct (slide_one m i x) as (_ & _ & _ & D1 & D2). unfold ps_values. split.
  - intros j J. rewrite !nth_error_map, D1 by exact J. reflexivity.
  - destruct (G i H) as (O & s0 & X0 & M1 & M2 & _). destruct (C i s0 X0) as (s' & X1 & N1 & N2 & _). exists (into (s_min s') (s_max s') x / 100)%Q. unfold at_pos. rewrite nth_error_map, (D2 s' X1). split; [reflexivity|]. rewrite N1, N2, M1, M2. destruct (into_spec (low pm range i * 100) (high range i * 100) x) as [_ (Q1 & Q2 & Q3)]; [lra|]. set (w := into _ _ _) in *. unfold Qdiv. change (/ 100)%Q with (1 # 100)%Q. split; [|split]; intros HH.
    + specialize (Q1 ltac:(lra)). lra.
    + specialize (Q2 ltac:(lra)). lra.
    + specialize (Q3 ltac:(lra)). lra.
Qed.
Lemma psm_dct m : List.length (ps_ids m) = List.length (ps_sliders m) -> NoDup (ps_ids m) -> ps_dct m = combine (ps_ids m) (ps_values m).
Proof.
  intros L N. unfold ps_dct, ps_values.
  assert (G : forall (l : list (string * Q)) d, fold_left (fun d x => SdkModel.dset (fst x) (snd x / 100)%Q d) l d = fold_left ins (map (fun x => (fst x, (snd x / 100)%Q)) l) d) by (induction l as [|x l IH]; intros d; cbn; [reflexivity|apply IH]).
  rewrite G. assert (K : map (fun x : string * Q => (fst x, (snd x / 100)%Q)) (combine (ps_ids m) (map s_value (ps_sliders m))) = combine (ps_ids m) (map (fun s => (s_value s / 100)%Q) (ps_sliders m))).
  { clear. revert m. intros m. generalize (ps_sliders m). induction (ps_ids m) as [|a l IH]; intros [|s t]; cbn; [reflexivity..|]. f_equal. apply IH. }
  rewrite K. rewrite build_distinct; [reflexivity|]. cbn. rewrite map_fst_combine by (rewrite map_length; exact L). exact N.
Qed.
Lemma psm_range_attr c values pm disabled m : new_psm c values pm RNone disabled = Ret m -> ps_range m = [].
Proof.
  intros E. pose proof (psm_inv _ _ _ _ _ _ E) as (C & F1 & I & F2 & F3 & _). destruct (disabled_ok c disabled F2) as (dis & D & _). rewrite (psm_unfold c values pm RNone disabled dis C F1 I F3 ltac:(intros l X; discriminate) D) in E. cbv zeta in E. destruct (each mk_slider _); [|discriminate]. cbn in E. injection E as <-. reflexivity.
Qed.

(** ** dropdowns *)
Lemma index_of_spec v l i : index_of v l = Some i <-> (exists a, nth_error l i = Some (a, v)) /\ forall j x, j < i -> nth_error l j = Some x -> snd x <> v.
Proof.
  revert i. induction l as [|[a o] l IH]; intros i; cbn; [split; [discriminate|intros [[b X] _]; destruct i; discriminate]|]. destruct (String.eqb_spec o v) as [->|N].
  - split; [intros [= <-]; split; [exists a; reflexivity|intros; lia]|]. intros [_ H]. destruct i as [|i]; [reflexivity|]. exfalso. apply (H 0 (a, v)); [lia|reflexivity|reflexivity].
  - destruct i as [|i].
    + split; [destruct (index_of v l); discriminate|]. intros [[b X] _]. cbn in X. congruence.
    + destruct (index_of v l) as [k|] eqn:E; cbn.
      * split.
        -- intros [= <-]. destruct (proj1 (IH k) eq_refl) as [A B]. split; [exact A|]. intros [|j] x J X; cbn in X; [injection X as <-; exact N|apply (B j x); [lia|exact X]].
        -- intros [A B]. assert (Y : Some k = Some i). { apply IH. split; [exact A|]. intros j x J X. apply (B (S j) x); [lia|exact X]. } congruence.
      * split; [discriminate|]. intros [A B]. assert (Y : None = Some i). { apply IH. split; [exact A|]. intros j x J X. apply (B (S j) x); [lia|exact X]. } discriminate.
Qed.
Lemma index_of_none v l : index_of v l = None <-> ~ In v (map snd l).
Proof.
  induction l as [|[a o] l IH]; cbn; [tauto|]. destruct (String.eqb_spec o v) as [->|N]; [split; [discriminate|tauto]|]. destruct (index_of v l); cbn; [split; [discriminate|]|]; [intros H; exfalso; assert (Some n = None) by (apply IH; tauto); discriminate|]. split; [|reflexivity]. intros _ [X|X]; [congruence|]. apply IH in X; [exact X|reflexivity].
Qed.
Lemma ddm_unfold c labels dv ix : (dv = None \/ ix = None) -> (labels = None \/ ~ is_dict c) ->
  new_ddm c labels dv ix = let o := ids c in let ls := labels_of c labels in let entries := combine ls o in
    match dv with
    | Some (DStr s) => match index_of s entries with Some i => Ret (mkDdm o ls None dv entries i) | None => Raise TraitError end
    | Some DOther => Raise TraitError
    | None => let ix := match ix with None => 0%Z | Some i => i end in
      if negb (Z.leb 0 ix) && Z.ltb ix (Z.of_nat (List.length o)) then Raise ValueError
      else if Z.leb 0 ix && Z.ltb ix (Z.of_nat (List.length entries)) then Ret (mkDdm o ls (Some ix) None entries (Z.to_nat ix))
      else Raise TraitError
    end.
Proof.
  intros A B. unfold new_ddm, labels_of. destruct c as [l|d].
  - destruct labels, dv as [[]|], ix; destruct A; try discriminate; reflexivity.
  - destruct labels; [destruct B as [B|B]; [discriminate|exfalso; apply B; exists d; reflexivity]|]. destruct dv as [[]|], ix; destruct A; try discriminate; reflexivity.
Qed.
Lemma ddm_both c labels v i : new_ddm c labels (Some v) (Some i) = Raise ValueError. Proof. reflexivity. Qed.
Lemma ddm_dict d l dv ix : new_ddm (Dict d) (Some l) dv ix = Raise ValueError. Proof. destruct dv, ix; reflexivity. Qed.
Lemma dd_entry c labels i e : nth_error (combine (labels_of c labels) (ids c)) i = Some e -> nth_error (labels_of c labels) i = Some (fst e) /\ nth_error (ids c) i = Some (snd e).
Proof.
  generalize (labels_of c labels) (ids c). intros a. revert i. induction a as [|x a IH]; intros i b E; [destruct i; discriminate|]. destruct b as [|y b]; [destruct i; discriminate|]. destruct i as [|i]; cbn in *; [injection E as <-; auto|]. apply IH, E.
Qed.
Lemma ddm_index c labels ix : (labels = None \/ ~ is_dict c) -> let k := match ix with None => 0%Z | Some i => i end in let n := Nat.min (List.length (labels_of c labels)) (List.length (ids c)) in
  ((k < 0)%Z -> new_ddm c labels None ix = Raise ValueError) /\ ((Z.of_nat n <= k)%Z -> new_ddm c labels None ix = Raise TraitError) /\
  ((0 <= k < Z.of_nat n)%Z -> exists m, new_ddm c labels None ix = Ret m /\ at_pos (ids c) (Z.to_nat k) (fst (dd_result m)) /\ at_pos (labels_of c labels) (Z.to_nat k) (snd (dd_result m))).
Proof.
  intros B. cbv zeta. rewrite ddm_unfold by auto. cbv zeta. rewrite combine_length. set (k := match ix with None => 0%Z | Some i => i end). set (n := Nat.min _ _). split; [|split]; intros H.
  - rewrite (proj2 (Z.leb_gt 0 k)) by lia. rewrite (proj2 (Z.ltb_lt k _)) by lia. reflexivity.
  - rewrite (proj2 (Z.leb_le 0 k)) by lia. cbn [negb andb]. rewrite (proj2 (Z.ltb_ge k _)) by lia. reflexivity.
  - rewrite (proj2 (Z.leb_le 0 k)) by lia. cbn [negb andb]. rewrite (proj2 (Z.ltb_lt k _)) by lia. eexists. split; [reflexivity|]. unfold dd_result. cbn [dd_index dd_entries fst snd]. set (e := nth _ _ _). assert (E : nth_error (combine (labels_of c labels) (ids c)) (Z.to_nat k) = Some e) by (apply nth_error_nth'; rewrite combine_length; fold n; lia). destruct (dd_entry c labels _ _ E). auto.
Qed.
Lemma ddm_value c labels v : (labels = None \/ ~ is_dict c) ->
  (forall s i, v = DStr s -> at_pos (ids c) i s -> (forall j, j < i -> ~ at_pos (ids c) j s) -> i < List.length (labels_of c labels) -> exists m, new_ddm c labels (Some v) None = Ret m /\ fst (dd_result m) = s /\ at_pos (labels_of c labels) i (snd (dd_result m))) /\
  ((forall s i, v = DStr s -> at_pos (ids c) i s -> List.length (labels_of c labels) <= i) -> new_ddm c labels (Some v) None = Raise TraitError).
Proof.
  intros B. rewrite ddm_unfold by auto. cbv zeta. split.
  - intros s i -> A N H. assert (H2 : i < List.length (ids c)) by (apply nth_error_Some; unfold at_pos in A; congruence).
    assert (E : index_of s (combine (labels_of c labels) (ids c)) = Some i).
    { apply index_of_spec. split.
      - exists (nth i (labels_of c labels) EmptyString). apply comb_nth; [apply nth_error_nth', H|exact A].
      - intros j x J X Y. apply dd_entry in X as [_ X]. rewrite Y in X. apply (N j J X). }
    rewrite E. eexists. split; [reflexivity|]. unfold dd_result. cbn [dd_index dd_entries fst snd]. apply index_of_spec in E as [[a E] _]. erewrite nth_error_nth by exact E. apply dd_entry in E as [E _]. auto.
  - intros H. destruct v as [s|]; [|reflexivity]. destruct (index_of s _) as [i|] eqn:E; [|reflexivity]. apply index_of_spec in E as [[a E] _]. apply dd_entry in E as [E1 E2]. specialize (H s i eq_refl E2). assert (i < List.length (labels_of c labels)) by (apply nth_error_Some; cbn in E1; congruence). lia.
Qed.
Lemma ddm_good c labels dv ix m : new_ddm c labels dv ix = Ret m -> (labels = None \/ ~ is_dict c) /\ dd_entries m = combine (labels_of c labels) (ids c) /\ dd_index m < List.length (dd_entries m).
Proof.
  intros E. assert (B : labels = None \/ ~ is_dict c). { destruct labels as [l|]; [|auto]. right. intros [d ->]. rewrite ddm_dict in E. discriminate. }
  assert (A : dv = None \/ ix = None). { destruct dv, ix; auto. rewrite ddm_both in E. discriminate. }
  split; [exact B|]. rewrite ddm_unfold in E by assumption. cbv zeta in E. destruct dv as [[s|]|]; [|discriminate|].
  - destruct (index_of s _) as [i|] eqn:I; [|discriminate]. injection E as <-. cbn [dd_entries dd_index]. split; [reflexivity|]. apply index_of_spec in I as [[a I] _]. apply nth_error_Some. congruence.
  - set (k := match ix with None => 0%Z | Some i => i end) in *. destruct (negb (0 <=? k)%Z && _); [discriminate|]. destruct ((0 <=? k)%Z && (k <? Z.of_nat _)%Z) eqn:G; [|discriminate]. injection E as <-. cbn [dd_entries dd_index]. split; [reflexivity|]. apply andb_prop in G as [G1 G2]. apply Z.leb_le in G1. apply Z.ltb_lt in G2. lia.
Qed.
Lemma operate_good m u : dd_index m < List.length (dd_entries m) -> dd_entries (operate m u) = dd_entries m /\ dd_index (operate m u) < List.length (dd_entries m).
Proof.
  intros H. unfold operate. destruct u as [i|v].
  - unfold select. destruct (Nat.ltb_spec i (List.length (dd_entries m))); cbn; auto.
  - unfold assign. destruct (String.eqb v (fst (dd_result m))); [auto|]. destruct (index_of v (dd_entries m)) as [i|]; [|auto]. unfold select. destruct (Nat.ltb_spec i (List.length (dd_entries m))); cbn; auto.
Qed.
Lemma ddm_always c labels dv ix m0 acts : new_ddm c labels dv ix = Ret m0 -> let m := fold_left operate acts m0 in exists i, at_pos (ids c) i (fst (dd_result m)) /\ at_pos (labels_of c labels) i (snd (dd_result m)).
Proof.
  intros E. destruct (ddm_good _ _ _ _ _ E) as (_ & A & B). assert (G : dd_entries (fold_left operate acts m0) = dd_entries m0 /\ dd_index (fold_left operate acts m0) < List.length (dd_entries m0)).
  { clear -B. revert m0 B. induction acts as [|u acts IH]; intros m B; cbn; [auto|]. destruct (operate_good m u B) as [X Y]. destruct (IH (operate m u)) as [P Q]; [rewrite X; exact Y|]. rewrite P, X in *. auto. }
  cbv zeta. destruct G as [G1 G2]. set (m := fold_left operate acts m0) in *. exists (dd_index m). unfold dd_result. cbn [fst snd]. rewrite G1, A. rewrite A in G2. set (e := nth _ _ _). assert (N : nth_error (combine (labels_of c labels) (ids c)) (dd_index m) = Some e) by (apply nth_error_nth'; exact G2). apply dd_entry in N as [X Y]. auto.
Qed.
Lemma ddm_assign c labels dv ix m0 acts v : new_ddm c labels dv ix = Ret m0 -> let m := fold_left operate acts m0 in ((exists i, at_pos (ids c) i v /\ i < List.length (labels_of c labels)) -> exists m', assign m v = Ret m' /\ fst (dd_result m') = v) /\ ((forall i, at_pos (ids c) i v -> List.length (labels_of c labels) <= i) -> assign m v = Raise TraitError).
Proof.
  intros E. destruct (ddm_good _ _ _ _ _ E) as (_ & A & B). destruct (ddm_always c labels dv ix m0 acts E) as (i0 & I1 & I2).
  assert (G : dd_entries (fold_left operate acts m0) = dd_entries m0).
  { clear -B. revert m0 B. induction acts as [|u acts IH]; intros m B; cbn; [reflexivity|]. destruct (operate_good m u B) as [X Y]. rewrite IH; [exact X|rewrite X; exact Y]. }
  cbv zeta in *. set (m := fold_left operate acts m0) in *. unfold assign. split.
  - intros (i & P & Q). destruct (String.eqb_spec v (fst (dd_result m))) as [->|N]; [eauto|]. destruct (index_of v (dd_entries m)) as [k|] eqn:K.
    + apply index_of_spec in K as [[a K] _]. unfold select. assert (L : k < List.length (dd_entries m)) by (apply nth_error_Some; congruence). rewrite (proj2 (Nat.ltb_lt _ _) L). eexists. split; [reflexivity|]. unfold dd_result. cbn [dd_index dd_entries fst]. erewrite nth_error_nth by exact K. reflexivity.
    + exfalso. apply index_of_none in K. apply K. rewrite G, A. apply in_map_iff. exists (nth i (labels_of c labels) EmptyString, v). split; [reflexivity|]. eapply nth_error_In. apply comb_nth; [apply nth_error_nth', Q|exact P].
  - intros H. destruct (String.eqb_spec v (fst (dd_result m))) as [->|N].
    + specialize (H i0 I1). assert (i0 < List.length (labels_of c labels)) by (apply nth_error_Some; unfold at_pos in I2; congruence). lia.
    + destruct (index_of v (dd_entries m)) as [k|] eqn:K; [|reflexivity]. exfalso. apply index_of_spec in K as [[a K] _]. rewrite G, A in K. apply dd_entry in K as [K1 K2]. cbn in K1, K2. specialize (H k K2). assert (k < List.length (labels_of c labels)) by (apply nth_error_Some; congruence). lia.
Qed.
Lemma ddm_errors c labels dv ix : (dv <> None -> ix <> None -> new_ddm c labels dv ix = Raise ValueError) /\ (is_dict c -> labels <> None -> new_ddm c labels dv ix = Raise ValueError).
Proof.
  split; [intros A B; destruct dv, ix; try congruence; reflexivity|]. intros [d ->] B. destruct labels; [apply ddm_dict|congruence].
Qed.
Lemma cbm_new {O} c v (o : option (list O)) d : fits v (number c) -> fits_opt o (number c) -> fits_opt d (number c) ->
  exists m, new_cbm c v o d = Ret m /\ cb_ids m = idents c /\ cb_descr m = captions c /\ cb_objs m = match o with None => map inl (captions c) | Some l => map inr l end /\ cb_disabled m = match d with None => repeat false (number c) | Some l => l end /\ cb_values m = cb_init m /\ List.length (cb_values m) = number c /\ forall i, i < number c -> at_pos (cb_values m) i (given v false i).
Proof.
  intros A B C. destruct (cbm_ok c v o d A B C) as (m & E & M1 & M2 & M3 & M4 & M5 & M6). exists m. unfold cb_values. rewrite M4, M5, M1, M2, M3, M6. repeat split; auto; [apply vals_of_len, A|]. intros i H. unfold at_pos. rewrite <- (vals_of_nth v false (number c) i H). apply nth_error_nth'. rewrite vals_of_len; assumption.
Qed.
