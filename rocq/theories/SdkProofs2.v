(** Tokens and token containers. *)
From Coq Require Import ZArith QArith List Bool Ascii String Lia Arith.
From Verif Require Import PairModel CurveModel SdkModel SdkSpec.
Import ListNotations.
Local Open Scope string_scope.

(** ** case *)
Lemma upper_ascii_idem c : upper_ascii (upper_ascii c) = upper_ascii c. Proof. destruct c as [[] [] [] [] [] [] [] []]; reflexivity. Qed.
Lemma lower_ascii_idem c : lower_ascii (lower_ascii c) = lower_ascii c. Proof. destruct c as [[] [] [] [] [] [] [] []]; reflexivity. Qed.
Lemma upper_lower_ascii c : upper_ascii (lower_ascii c) = upper_ascii c. Proof. destruct c as [[] [] [] [] [] [] [] []]; reflexivity. Qed.
Lemma upper_idem s : upper (upper s) = upper s. Proof. induction s as [|c s IH]; [reflexivity|]. cbn [upper]. rewrite upper_ascii_idem, IH. reflexivity. Qed.
Lemma lower_idem s : lower (lower s) = lower s. Proof. induction s as [|c s IH]; [reflexivity|]. cbn [lower]. rewrite lower_ascii_idem, IH. reflexivity. Qed.
Lemma upper_lower s : upper (lower s) = upper s. Proof. induction s as [|c s IH]; [reflexivity|]. cbn [upper lower]. rewrite upper_lower_ascii, IH. reflexivity. Qed.
Lemma lower_upper_ascii c : lower_ascii (upper_ascii c) = lower_ascii c. Proof. destruct c as [[] [] [] [] [] [] [] []]; reflexivity. Qed.
Lemma lower_upper s : lower (upper s) = lower s. Proof. induction s as [|c s IH]; [reflexivity|]. cbn [upper lower]. rewrite lower_upper_ascii, IH. reflexivity. Qed.

(** ** dictionaries *)
Lemma dget_dset {A} k k' (v : A) l : dget k (dset k' v l) = if String.eqb k k' then Some v else dget k l.
Proof.
  induction l as [|[j w] l IH]; cbn [dset dget]; [reflexivity|]. destruct (String.eqb_spec k' j) as [->|N]; cbn [dget].
  - destruct (String.eqb k j); reflexivity.
  - rewrite IH. destruct (String.eqb_spec k j) as [->|]; [|reflexivity]. destruct (String.eqb_spec j k'); [congruence|reflexivity].
Qed.
Lemma last_with_app key k l m : last_with key k (l ++ m)%list = match last_with key k m with Some t => Some t | None => last_with key k l end.
Proof. induction l as [|t l IH]; cbn [last_with app]; [destruct (last_with key k m); reflexivity|]. rewrite IH. destruct (last_with key k m); reflexivity. Qed.
Lemma dict_of_snoc key l t : dict_of key (l ++ [t])%list = dset (key t) t (dict_of key l). Proof. unfold dict_of. rewrite fold_left_app. reflexivity. Qed.
Lemma dict_get key k l : dget k (dict_of key l) = last_with key k l.
Proof.
  induction l as [|t l IH] using rev_ind; [reflexivity|]. rewrite dict_of_snoc, dget_dset, IH, last_with_app. cbn [last_with].
  rewrite String.eqb_sym. destruct (String.eqb (key t) k); reflexivity.
Qed.
Definition keys (l : list (string * token)) : list string := map fst l.
Lemma dset_keys_in k v l : In k (keys l) -> keys (dset k v l) = keys l.
Proof.
  induction l as [|[j w] l IH]; cbn [keys map fst dset]; [intros []|]. intros H. destruct (String.eqb_spec k j) as [->|N]; [reflexivity|]. cbn [map fst]. f_equal. apply IH. destruct H; [congruence|assumption].
Qed.
Lemma dset_keys_new k v l : ~ In k (keys l) -> dset k v l = (l ++ [(k, v)])%list.
Proof.
  induction l as [|[j w] l IH]; cbn [keys map fst dset app]; [reflexivity|]. intros H. destruct (String.eqb_spec k j) as [->|N]; [exfalso; apply H; left; reflexivity|]. f_equal. apply IH. intros X. apply H. right. exact X.
Qed.
Lemma dict_keys_in key l k : In k (keys (dict_of key l)) <-> In k (map key l).
Proof.
  induction l as [|t l IH] using rev_ind; [reflexivity|]. rewrite dict_of_snoc, map_app, in_app_iff. cbn [map].
  destruct (in_dec string_dec (key t) (keys (dict_of key l))) as [Y|N].
  - rewrite (dset_keys_in _ _ _ Y), IH. split; [tauto|]. intros [H|[<-|[]]]; [exact H|]. apply IH. exact Y.
  - rewrite (dset_keys_new _ _ _ N). unfold keys. rewrite map_app, in_app_iff. fold (keys (dict_of key l)). rewrite IH. reflexivity.
Qed.
Lemma dict_nodup key l : NoDup (keys (dict_of key l)).
Proof.
  induction l as [|t l IH] using rev_ind; [constructor|]. rewrite dict_of_snoc. destruct (in_dec string_dec (key t) (keys (dict_of key l))) as [Y|N].
  - rewrite (dset_keys_in _ _ _ Y). exact IH.
  - rewrite (dset_keys_new _ _ _ N). unfold keys. rewrite map_app. apply (NoDup_Add (Add_app (key t) _ [])). rewrite app_nil_r. split; [exact IH|exact N].
Qed.
Lemma dict_len key l : List.length (dict_of key l) = distinct key l.
Proof.
  unfold distinct. assert (E : List.length (dict_of key l) = List.length (keys (dict_of key l))) by (unfold keys; rewrite map_length; reflexivity). rewrite E.
  apply Nat.le_antisymm; apply NoDup_incl_length; try apply dict_nodup; try apply NoDup_nodup; intros k H.
  - apply nodup_In. apply dict_keys_in. exact H.
  - apply nodup_In in H. apply dict_keys_in. exact H.
Qed.
Lemma dict_unique key l : NoDup (map key l) -> dict_of key l = map (fun t => (key t, t)) l.
Proof.
  induction l as [|t l IH] using rev_ind; [reflexivity|]. rewrite !map_app. cbn [map]. intros H. apply (NoDup_Add (Add_app (key t) _ [])) in H. rewrite app_nil_r in H. destruct H as [H N].
  rewrite dict_of_snoc, (IH H). rewrite dset_keys_new; [reflexivity|]. unfold keys. rewrite map_map. exact N.
Qed.
Lemma distinct_nodup key l : NoDup (map key l) -> distinct key l = List.length l.
Proof. intros H. unfold distinct. rewrite nodup_fixed_point by exact H. apply map_length. Qed.
Lemma last_with_in key k l t : last_with key k l = Some t -> In t l /\ key t = k.
Proof.
  induction l as [|a l IH]; cbn [last_with]; [discriminate|]. destruct (last_with key k l) as [x|]; [intros [= ->]; destruct (IH eq_refl); split; [right|]; assumption|].
  destruct (String.eqb_spec (key a) k); [intros [= <-]; split; [left; reflexivity|assumption]|discriminate].
Qed.
Lemma last_with_none key k l : last_with key k l = None <-> ~ In k (map key l).
Proof.
  induction l as [|a l IH]; cbn [last_with map]; [split; [intros _ []|reflexivity]|]. destruct (last_with key k l) as [x|] eqn:E.
  - split; [discriminate|]. intros H. exfalso. apply H. right. destruct (last_with_in _ _ _ _ E) as [I1 <-]. apply in_map. exact I1.
  - destruct (String.eqb_spec (key a) k) as [->|N]; split; try discriminate; try reflexivity; try tauto.
    + intros H. exfalso. apply H. left. reflexivity.
    + intros _ [X|X]; [exact (N X)|]. apply IH in X; [exact X|reflexivity].
Qed.
Lemma last_with_unique key l t : NoDup (map key l) -> In t l -> last_with key (key t) l = Some t.
Proof.
  induction l as [|a l IH]; [intros _ []|]. cbn [map last_with]. intros H [->|I1]; inversion H as [|? ? N D]; subst.
  - assert (E : last_with key (key t) l = None) by (apply last_with_none; exact N). rewrite E, String.eqb_refl. reflexivity.
  - rewrite (IH D I1). reflexivity.
Qed.

(** ** containers *)
Definition raising (c : container) (r : option bool) : bool := match r with Some b => b | None => c_raise c end.
Lemma new_spec l r : (distinct t_T l = distinct t_a l -> new_container l r = Ret (mkContainer (match r with Some b => b | None => true end) (dict_of t_T l) (dict_of t_a l))) /\
  (distinct t_T l <> distinct t_a l -> new_container l r = Raise ValueError).
Proof.
  unfold new_container. rewrite !dict_len. split; intros H.
  - rewrite H, Nat.eqb_refl. destruct r; reflexivity.
  - destruct (Nat.eqb_spec (distinct t_T l) (distinct t_a l)); [congruence|reflexivity].
Qed.
Lemma new_inv l r c : new_container l r = Ret c -> c = mkContainer (match r with Some b => b | None => true end) (dict_of t_T l) (dict_of t_a l) /\ distinct t_T l = distinct t_a l.
Proof.
  destruct (Nat.eq_dec (distinct t_T l) (distinct t_a l)) as [E|N].
  - rewrite (proj1 (new_spec l r) E). intros [= <-]. auto.
  - rewrite (proj2 (new_spec l r) N). discriminate.
Qed.
Lemma byticker_spec l r c s ro nul : new_container l r = Ret c ->
  byticker c s ro nul = match last_with t_T (upper s) l with Some t => Ret (Some t) | None => if raising c ro then Raise KeyError else Ret (if nul then Some NULTKN else None) end.
Proof. intros H. destruct (new_inv _ _ _ H) as [-> _]. unfold byticker, raising. cbn [c_byticker c_raise]. rewrite dict_get. destruct (last_with t_T (upper s) l); [reflexivity|]. unfold not_found. destruct ro; reflexivity. Qed.
Lemma byaddr_spec l r c s ro nul : new_container l r = Ret c ->
  byaddr c s ro nul = match last_with t_a (lower s) l with Some t => Ret (Some t) | None => if raising c ro then Raise KeyError else Ret (if nul then Some NULTKN else None) end.
Proof. intros H. destruct (new_inv _ _ _ H) as [-> _]. unfold byaddr, raising. cbn [c_byaddr c_raise]. rewrite dict_get. destruct (last_with t_a (lower s) l); [reflexivity|]. unfold not_found. destruct ro; reflexivity. Qed.
Lemma byaddr1_spec l r c s : new_container l r = Ret c ->
  byaddr1 c s = match last_with t_a (lower s) l with Some t => inl t | None => inr (lower s) end /\ byaddr1_name c s = match last_with t_a (lower s) l with Some t => t_T t | None => lower s end.
Proof. intros H. destruct (new_inv _ _ _ H) as [-> _]. unfold byaddr1_name, byaddr1. cbn [c_byaddr]. rewrite dict_get. destruct (last_with t_a (lower s) l); auto. Qed.
Lemma unique_spec l r : NoDup (map t_T l) -> NoDup (map t_a l) -> exists c, new_container l r = Ret c /\ all_tokens c = l /\ c_len c = List.length l /\
  forall t, In t l -> normal t -> forall s ro nul, (same_ci s (t_T t) -> byticker c s ro nul = Ret (Some t)) /\ (same_ci s (t_a t) -> byaddr c s ro nul = Ret (Some t)).
Proof.
  intros H1 H2. assert (E : distinct t_T l = distinct t_a l) by (rewrite !distinct_nodup by assumption; reflexivity).
  eexists. split; [apply (proj1 (new_spec l r) E)|]. unfold all_tokens, c_len. cbn [c_byticker]. rewrite (dict_unique t_T l H1). rewrite map_map, map_length. cbn [snd]. rewrite map_id.
  split; [reflexivity|]. split; [reflexivity|]. intros t Ht [U L] s ro nul. split; intros S.
  - rewrite <- (dict_unique t_T l H1). rewrite (byticker_spec l r _ s ro nul (proj1 (new_spec l r) E)). assert (X : upper s = t_T t) by (rewrite <- (upper_lower s), S, upper_lower; exact U). rewrite X, (last_with_unique t_T l t H1 Ht). reflexivity.
  - rewrite <- (dict_unique t_T l H1). rewrite (byaddr_spec l r _ s ro nul (proj1 (new_spec l r) E)). assert (X : lower s = t_a t) by (rewrite S; exact L). rewrite X, (last_with_unique t_a l t H2 Ht). reflexivity.
Qed.
Lemma containsall_spec l r c s : new_container l r = Ret c -> (containsall c s = true <-> forall x, In x s -> exists t, In t l /\ t_T t = x).
Proof.
  intros H. destruct (new_inv _ _ _ H) as [-> _]. unfold containsall. cbn [c_byticker]. rewrite forallb_forall. split; intros X x Hx; specialize (X x Hx); rewrite dict_get in *.
  - destruct (last_with t_T x l) as [t|] eqn:E; [|discriminate]. exists t. apply last_with_in. exact E.
  - destruct X as (t & Ht & <-). destruct (last_with t_T (t_T t) l) eqn:E; [reflexivity|]. exfalso. apply (proj1 (last_with_none _ _ _) E). apply in_map. exact Ht.
Qed.
Lemma restore_spec s : restore (inr s) (Some true) = Raise ValueError /\ restore (inr s) None = Ret None /\ restore (inr s) (Some false) = Ret None /\ forall t r, restore (inl t) r = Ret (Some t).
Proof. repeat split. Qed.
Lemma hash_spec c : exists e, c_hash c = Raise e /\ (e = KeyError \/ e = TypeError).
Proof.
  unfold c_hash, getitem, byticker. destruct (dget (upper "address") (c_byticker c)); cbn [rbind]; [eauto|]. unfold not_found. destruct (c_raise c); cbn [rbind]; eauto.
Qed.

(** ** the constructor of a token *)
Lemma token_spec t a d n : (int16 (lower (strip a)) = None -> sdk_token t a d n = Raise ValueError) /\
  forall x, int16 (lower (strip a)) = Some x -> exists tk, sdk_token t a d n = Ret tk /\ t_T tk = upper (strip t) /\ t_a tk = lower (strip a) /\ t_d tk = d /\ t_name tk = match n with Some n => n | None => upper (strip t) end /\ normal tk.
Proof.
  unfold sdk_token. split; [intros ->; reflexivity|]. intros x ->. eexists. split; [reflexivity|]. cbn [t_T t_a t_d t_name]. repeat split; cbn; [apply upper_idem|apply lower_idem].
Qed.
