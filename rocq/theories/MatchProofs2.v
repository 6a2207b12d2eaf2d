From Coq Require Import ZArith QArith List Bool Lia Permutation Sorted.
From Verif Require Import TradeModel TradeSpec TradeProofs TradeProofs2 TradeProofs3 MatchModel MatchSpec MatchProofs.
Import ListNotations.
Local Open Scope Z_scope.

(** ** Insertion sort *)
Lemma insert_by_perm cmp q l : Permutation (insert_by cmp q l) (q :: l).
Proof.
  induction l as [|p l IH]; cbn; [reflexivity|]. destruct (cmp q p <? 0); [reflexivity|].
  rewrite IH. apply perm_swap.
Qed.
Lemma isort_perm cmp l : Permutation (isort cmp l) l.
Proof.
  unfold isort. transitivity (l ++ []); [|rewrite app_nil_r; reflexivity].
  generalize (@nil quote) as acc. induction l as [|q l IH]; intros acc; cbn; [reflexivity|].
  rewrite IH. rewrite insert_by_perm. symmetry. apply Permutation_middle.
Qed.

Lemma insert_by_sorted cmp (R : quote -> quote -> Prop) (ok : quote -> Prop) :
  (forall a b c, ok a -> ok b -> ok c -> R a b -> R b c -> R a c) ->
  (forall a b, ok a -> ok b -> cmp a b < 0 -> R a b) ->
  (forall a b, ok a -> ok b -> 0 <= cmp a b -> R b a) ->
  forall q l, ok q -> Forall ok l -> StronglySorted R l -> StronglySorted R (insert_by cmp q l).
Proof.
  intros Ht H1 H2 q l Hq. induction l as [|p l IH]; intros Hl HS; cbn; [repeat constructor|].
  inversion Hl; subst. inversion HS; subst.
  destruct (cmp q p <? 0) eqn:E.
  - constructor; [assumption|]. constructor; [apply H1; try assumption; lia|].
    rewrite Forall_forall in *. intros x Hx. apply (Ht q p x); try auto. apply H1; try assumption. lia.
  - constructor; [apply IH; assumption|].
    eapply Permutation_Forall'; [apply insert_by_perm|]. constructor; [apply H2; try assumption; lia|assumption].
Qed.
Lemma isort_sorted cmp (R : quote -> quote -> Prop) (ok : quote -> Prop) :
  (forall a b c, ok a -> ok b -> ok c -> R a b -> R b c -> R a c) ->
  (forall a b, ok a -> ok b -> cmp a b < 0 -> R a b) ->
  (forall a b, ok a -> ok b -> 0 <= cmp a b -> R b a) ->
  forall l, Forall ok l -> StronglySorted R (isort cmp l).
Proof.
  intros Ht H1 H2 l Hl. unfold isort.
  assert (G : forall acc, Forall ok acc -> StronglySorted R acc ->
     StronglySorted R (fold_left (fun acc q => insert_by cmp q acc) l acc)); [|apply G; constructor].
  induction Hl as [|q l Hq Hl IH]; intros acc Ha HS; cbn; [assumption|].
  apply IH.
  - eapply Permutation_Forall'; [apply insert_by_perm|]. constructor; assumption.
  - apply (insert_by_sorted cmp R ok); assumption.
Qed.

(** ** The comparator orders quotes by unit rate *)
Lemma unit_rate_le a b : 0 < r_input a -> 0 < r_input b ->
  r_output a * r_input b <= r_output b * r_input a -> (unit_rate a <= unit_rate b)%Q.
Proof.
  unfold unit_rate. destruct a as [ia oa], b as [ib ob]. cbn. intros Ha Hb H.
  destruct ia as [|p|p]; try lia. destruct ib as [|q|q]; try lia.
  unfold Qle, Qdiv, Qmult, Qinv, inject_Z. cbn. lia.
Qed.

Definition best_first (a b : quote) : Prop := (unit_rate (q_rate b) <= unit_rate (q_rate a))%Q.
Definition cheapest_first (a b : quote) : Prop := (unit_rate (q_rate a) <= unit_rate (q_rate b))%Q.
Definition pos_in (q : quote) : Prop := 0 < r_input (q_rate q).

Lemma sortByMin_neg a b : sortByMinRate a b < 0 -> r_output (q_rate b) * r_input (q_rate a) <= r_output (q_rate a) * r_input (q_rate b).
Proof.
  unfold sortByMinRate.
  destruct (r_output (q_rate a) * r_input (q_rate b) <? r_output (q_rate b) * r_input (q_rate a)) eqn:E1;
  destruct (r_output (q_rate b) * r_input (q_rate a) <? r_output (q_rate a) * r_input (q_rate b)) eqn:E2; cbn; lia.
Qed.
Lemma sortByMin_nonneg a b : 0 <= sortByMinRate a b -> r_output (q_rate a) * r_input (q_rate b) <= r_output (q_rate b) * r_input (q_rate a).
Proof.
  unfold sortByMinRate.
  destruct (r_output (q_rate a) * r_input (q_rate b) <? r_output (q_rate b) * r_input (q_rate a)) eqn:E1;
  destruct (r_output (q_rate b) * r_input (q_rate a) <? r_output (q_rate a) * r_input (q_rate b)) eqn:E2; cbn; lia.
Qed.
Lemma sort_min_sorted l : Forall pos_in l -> StronglySorted best_first (isort sortByMinRate l).
Proof.
  apply isort_sorted; unfold best_first, pos_in.
  - intros a b c _ _ _ H1 H2. exact (Qle_trans _ _ _ H2 H1).
  - intros a b Ha Hb H. apply unit_rate_le; try assumption. apply sortByMin_neg. assumption.
  - intros a b Ha Hb H. apply unit_rate_le; try assumption. apply sortByMin_nonneg. assumption.
Qed.
Lemma sort_max_sorted l : Forall pos_in l -> StronglySorted cheapest_first (isort sortByMaxRate l).
Proof.
  apply isort_sorted; unfold cheapest_first, pos_in, sortByMaxRate.
  - intros a b c _ _ _ H1 H2. exact (Qle_trans _ _ _ H1 H2).
  - intros a b Ha Hb H. apply unit_rate_le; try assumption. apply sortByMin_neg in H. 
    rewrite (Z.mul_comm (r_output (q_rate a))), (Z.mul_comm (r_output (q_rate b))) in *. lia.
  - intros a b Ha Hb H. apply unit_rate_le; try assumption. apply sortByMin_nonneg in H.
    rewrite (Z.mul_comm (r_output (q_rate a))), (Z.mul_comm (r_output (q_rate b))) in *. lia.
Qed.

(** ** Greedy matching uses an initial part of the sorted quotes *)
Lemma matchFast_prefix orders trade : forall quotes amount acts,
  matchFast amount orders quotes default_filter trade = Some acts ->
  exists pre post sub, quotes = pre ++ post /\ subseq sub pre /\ map a_id acts = map q_id sub /\
    (forall q, In q pre -> default_filter (q_rate q) = true -> In q sub).
Proof.
  induction quotes as [|q qs IH]; intros amount acts H; cbn in H.
  { injection H as <-. exists [], [], []. repeat split; [constructor|intros ? []]. }
  destruct (r_input (q_rate q) <? amount).
  - destruct (default_filter (q_rate q)) eqn:Ef.
    + apply bind_Some in H as (rest & Er & H). injection H as <-.
      destruct (IH _ _ Er) as (pre & post & sub & -> & G2 & G3 & G4).
      exists (q :: pre), post, (q :: sub). split; [reflexivity|]. split; [constructor; assumption|].
      split; [cbn; f_equal; assumption|].
      intros q' [<-|Hq] Hf; [left; reflexivity|right; apply G4; assumption].
    + destruct (IH _ _ H) as (pre & post & sub & -> & G2 & G3 & G4).
      exists (q :: pre), post, sub. split; [reflexivity|]. split; [constructor; assumption|].
      split; [assumption|]. intros q' [<-|Hq] Hf; [congruence|apply G4; assumption].
  - assert (G : forall b : bool, exists pre post sub, q :: qs = pre ++ post /\ subseq sub pre /\
        (if b then [q_id q] else []) = map q_id sub /\
        (forall q0, In q0 pre -> default_filter (q_rate q0) = true -> In q0 sub)).
    { intros [|].
      - exists [q], qs, [q]. repeat split; [constructor; constructor|]. intros q0 Hq _. assumption.
      - exists [], (q :: qs), []. repeat split; [constructor|intros ? []]. }
    destruct (amount =? r_input (q_rate q)).
    + injection H as <-. destruct (default_filter (q_rate q)); [apply (G true)|apply (G false)].
    + apply bind_Some in H as (o & Eo & H). apply bind_Some in H as (t & Et & H). injection H as <-.
      destruct (default_filter (mkRate amount (r_output t))); [apply (G true)|apply (G false)].
Qed.

Lemma StronglySorted_app_inv {A} (R : A -> A -> Prop) l m :
  StronglySorted R (l ++ m) -> StronglySorted R l /\ forall a b, In a l -> In b m -> R a b.
Proof.
  induction l as [|x l IH]; cbn; intros H; [split; [constructor|intros ? ? []]|].
  inversion H; subst. destruct (IH H2) as [I1 I2]. rewrite Forall_forall in H3. split.
  - constructor; [assumption|]. apply Forall_forall. intros y Hy. apply H3. apply in_or_app. left. assumption.
  - intros a b [<-|Ha] Hb; [apply H3; apply in_or_app; right; assumption|apply I2; assumption].
Qed.

(** order on order ids through their quotes for the whole request *)
Definition quoted (trade : Z -> order -> option rate) (orders : list order) (amount : Z) (i : nat) (r : rate) : Prop :=
  exists o, nth_error orders i = Some o /\ trade amount o = Some r.

Lemma fast_ranking cmp trade orders amount acts (R : rate -> rate -> Prop) :
  (forall l, Forall pos_in l -> StronglySorted (fun a b => R (q_rate a) (q_rate b)) (isort cmp l)) ->
  (forall i r, quoted trade orders amount i r -> 0 < r_input r) ->
  (do qs <- quotes_of amount orders trade; matchFast amount orders (isort cmp qs) default_filter trade) = Some acts ->
  (forall i j ra rb, (i < j)%nat ->
     (exists a, nth_error acts i = Some a /\ quoted trade orders amount (a_id a) ra) ->
     (exists b, nth_error acts j = Some b /\ quoted trade orders amount (a_id b) rb) -> R ra rb) /\
  (forall a k ra rk, In a acts -> quoted trade orders amount (a_id a) ra ->
     ~ In k (map a_id acts) -> quoted trade orders amount k rk -> 0 < r_output rk -> R ra rk).
Proof.
  intros Hsort Hpos H. apply bind_Some in H as (qs & Eqs & H).
  destruct (quotes_of_spec _ _ _ _ Eqs) as [Hids Hgood]. rewrite Forall_forall in Hgood.
  assert (Hp : Forall pos_in qs).
  { apply Forall_forall. intros q Hq. destruct (Hgood q Hq) as (o & Eo & Et). apply (Hpos (q_id q)). exists o. tauto. }
  specialize (Hsort qs Hp). pose proof (isort_perm cmp qs) as HP.
  destruct (matchFast_prefix _ _ _ _ _ H) as (pre & post & sub & E & G2 & G3 & G4).
  rewrite E in Hsort, HP. apply StronglySorted_app_inv in Hsort as [S1 S2].
  assert (Hq : forall q r, In q (pre ++ post) -> quoted trade orders amount (q_id q) r -> r = q_rate q).
  { intros q r Hq (o & Eo & Er). destruct (Hgood q) as (o' & Eo' & Er'); [eapply Permutation_in; eassumption|].
    rewrite Eo in Eo'. injection Eo' as <-. congruence. }
  split.
  - intros i j ra rb Hij (a & Ea & Ra) (b & Eb & Rb).
    assert (A : forall k x, nth_error acts k = Some x -> exists q, nth_error sub k = Some q /\ q_id q = a_id x).
    { intros k x Ex. apply (map_nth_error a_id) in Ex. rewrite G3 in Ex.
      rewrite nth_error_map in Ex. destruct (nth_error sub k) as [q|]; [|discriminate]. injection Ex as Ex. eauto. }
    destruct (A _ _ Ea) as (qa & Eqa & Ia). destruct (A _ _ Eb) as (qb & Eqb & Ib).
    assert (In qa pre) by (apply (subseq_incl _ _ G2); eapply nth_error_In; eassumption).
    assert (In qb pre) by (apply (subseq_incl _ _ G2); eapply nth_error_In; eassumption).
    rewrite (Hq qa ra), (Hq qb rb).
    2,4: apply in_or_app; left; assumption. 2,3: congruence.
    apply (subseq_StronglySorted _ _ _ G2) in S1.
    clear - S1 Eqa Eqb Hij. revert i j Hij Eqa Eqb. induction S1 as [|q l S1 IH HF]; intros i j Hij Ea Eb; [destruct i; discriminate|].
    destruct j as [|j]; [lia|]. cbn in Eb. destruct i as [|i].
    + injection Ea as ->. rewrite Forall_forall in HF. apply HF. eapply nth_error_In; eassumption.
    + eapply IH; [|eassumption|eassumption]. lia.
  - intros a k ra rk Ia Ra Hk Rk Ho.
    assert (Ia' : In (a_id a) (map q_id sub)) by (rewrite <- G3; apply in_map; assumption).
    apply in_map_iff in Ia' as (qa & Eqa & Iqa).
    assert (In qa pre) by (apply (subseq_incl _ _ G2); assumption).
    assert (Kq : exists q, In q (pre ++ post) /\ q_id q = k).
    { destruct Rk as (o & Eo & _). assert (In k (map q_id qs)).
      { rewrite Hids. apply in_seq. split; [lia|]. cbn. apply nth_error_Some. congruence. }
      apply in_map_iff in H1 as (q & Eq & Hq'). exists q. split; [|assumption].
      eapply Permutation_in; [symmetry; exact HP|assumption]. }
    destruct Kq as (q & Iq & Ek).
    assert (rk = q_rate q) by (apply Hq; [assumption|congruence]). subst rk.
    assert (In q post).
    { apply in_app_or in Iq as [Iq|Iq]; [|assumption]. exfalso. apply Hk. rewrite G3. rewrite <- Ek. apply in_map.
      apply G4; [assumption|]. unfold default_filter.
      assert (0 < r_input (q_rate q)) by (apply (Hpos k); assumption). lia. }
    rewrite (Hq qa ra); [apply S2; assumption|apply in_or_app; left; assumption|congruence].
Qed.
