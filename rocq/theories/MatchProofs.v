From Coq Require Import ZArith QArith List Bool Lia Permutation Sorted.
From Verif Require Import TradeModel TradeSpec TradeProofs TradeProofs2 TradeProofs3 MatchModel MatchSpec.
Import ListNotations.
Local Open Scope Z_scope.

(** ** The bounded while loop *)
Lemma iterp_inl {S R} (step : S -> S + R) (I : S -> Prop) (mu : S -> Z) :
  (forall s s', I s -> step s = inl s' -> I s' /\ 0 <= mu s' < mu s) ->
  forall p s s', I s -> iterp p step s = inl s' -> I s' /\ 0 <= mu s' /\ mu s' + Z.pos p <= mu s.
Proof.
  intros Hs. induction p as [q IH|q IH|]; intros s s' HI H; cbn in H.
  - destruct (step s) as [s1|] eqn:E1; [|discriminate].
    destruct (Hs _ _ HI E1) as [I1 M1].
    destruct (iterp q step s1) as [s2|] eqn:E2; [|discriminate].
    destruct (IH _ _ I1 E2) as (I2 & M2 & M2').
    destruct (IH _ _ I2 H) as (I3 & M3 & M3'). split; [assumption|]. lia.
  - destruct (iterp q step s) as [s2|] eqn:E2; [|discriminate].
    destruct (IH _ _ HI E2) as (I2 & M2 & M2').
    destruct (IH _ _ I2 H) as (I3 & M3 & M3'). split; [assumption|]. lia.
  - destruct (Hs _ _ HI H) as [I1 M1]. split; [assumption|]. lia.
Qed.

Lemma iterp_inr {S R} (step : S -> S + R) (I : S -> Prop) :
  (forall s s', I s -> step s = inl s' -> I s') ->
  forall p s, I s ->
    (forall s', iterp p step s = inl s' -> I s') /\
    (forall r, iterp p step s = inr r -> exists s', I s' /\ step s' = inr r).
Proof.
  intros Hs. induction p as [q IH|q IH|]; intros s HI; cbn.
  - destruct (step s) as [s1|r1] eqn:E1.
    + assert (I1 := Hs _ _ HI E1). destruct (IH s1 I1) as [A1 B1].
      destruct (iterp q step s1) as [s2|r2].
      * assert (I2 := A1 _ eq_refl). apply IH. assumption.
      * split; [discriminate|]. intros r [= <-]. apply B1. reflexivity.
    + split; [discriminate|]. intros r [= <-]. eauto.
  - destruct (IH s HI) as [A1 B1].
    destruct (iterp q step s) as [s2|r2].
    + assert (I2 := A1 _ eq_refl). apply IH. assumption.
    + split; [discriminate|]. intros r [= <-]. apply B1. reflexivity.
  - split; [intros s' E; eapply Hs; eauto|]. intros r E. eauto.
Qed.

Lemma iterp_terminates {S R} (step : S -> S + R) (I : S -> Prop) (mu : S -> Z) p s :
  (forall s s', I s -> step s = inl s' -> I s' /\ 0 <= mu s' < mu s) ->
  I s -> mu s < Z.pos p ->
  exists r, iterp p step s = inr r /\ exists s', I s' /\ step s' = inr r.
Proof.
  intros Hs HI Hm. destruct (iterp p step s) as [s'|r] eqn:E.
  - destruct (iterp_inl step I mu Hs p s s' HI E) as (_ & H1 & H2). lia.
  - exists r. split; [reflexivity|].
    apply (proj2 (iterp_inr step I (fun a b Ia Eb => proj1 (Hs a b Ia Eb)) p s HI) r E).
Qed.

(** ** C09: the clamp loop *)
Lemma by_source_zero o : nonneg_order o -> tradeBySourceAmount 0 o = 0.
Proof.
  intros Ho. pose proof (by_source_never_overpays o 0 Ho ltac:(lia)) as H.
  assert (G : (exact_out (fix48 (denoted (o_A o))) (fix48 (denoted (o_B o))) (inject_Z (o_y o)) (inject_Z (o_z o)) (inject_Z 0) == inject_Z 0)%Q).
  { unfold exact_out. change (inject_Z 0) with 0%Q. destruct (Qeq_bool _ _); unfold Qdiv; rewrite !Qmult_0_l; reflexivity. }
  rewrite G in H. rewrite <- Zle_Qle in H. pose proof (by_source_range 0 o). lia.
Qed.
Lemma by_source_pos_input o x : nonneg_order o -> 0 < tradeBySourceAmount x o -> 0 < x.
Proof.
  intros Ho H. destruct (Z.lt_trichotomy x 0) as [G|[G|G]]; [|subst|assumption].
  - rewrite by_source_negative in H by assumption. lia.
  - rewrite by_source_zero in H by assumption. lia.
Qed.

Lemma rateBySource_spec o x : nonneg_order o ->
  exists r, rateBySourceAmount x o = Some r /\
    r_output r <= o_y o /\
    r_output r = tradeBySourceAmount (r_input r) o /\
    ((tradeBySourceAmount x o <= o_y o /\ r_input r = x) \/
     (o_y o < tradeBySourceAmount x o /\ 0 <= r_input r <= tradeByTargetAmount (o_y o) o /\
      forall k, r_input r < k <= tradeByTargetAmount (o_y o) o -> o_y o < tradeBySourceAmount k o)).
Proof.
  intros Ho. pose proof Ho as (Hy & _). unfold rateBySourceAmount.
  destruct (o_y o <? tradeBySourceAmount x o) eqn:E.
  2:{ eexists. split; [reflexivity|]. cbn. split; [lia|]. split; [reflexivity|]. left. lia. }
  set (st := tradeByTargetAmount (o_y o) o) in *.
  pose proof (by_target_range (o_y o) o) as Hst. fold st in Hst.
  set (I := fun s : Z * Z => snd s = tradeBySourceAmount (fst s) o /\ 0 <= fst s <= st /\
             forall k, fst s < k <= st -> o_y o < tradeBySourceAmount k o).
  destruct (iterp_terminates (clamp_step o) I fst (Z.to_pos (st + 2)) (st, tradeBySourceAmount st o))
    as ((i & out) & Er & (s' & Is & Es)).
  - intros [a b] [a' b'] (I1 & I2 & I3) Hs. cbn [fst snd] in *. unfold clamp_step in Hs.
    destruct (o_y o <? b) eqn:Eb; [|discriminate]. injection Hs as <- <-.
    assert (0 < a) by (apply (by_source_pos_input o); [assumption|lia]).
    unfold I. cbn [fst snd]. split; [|lia]. split; [reflexivity|]. split; [lia|].
    intros k Hk. destruct (Z.eq_dec k a) as [->|]; [lia|apply I3; lia].
  - unfold I. cbn [fst snd]. split; [reflexivity|]. split; [lia|]. intros k Hk. lia.
  - cbn [fst]. rewrite Z2Pos.id by lia. lia.
  - rewrite Er. destruct s' as [a b]. unfold clamp_step in Es.
    destruct (o_y o <? b) eqn:Eb; [discriminate|]. injection Es as <- <-.
    destruct Is as (I1 & I2 & I3). cbn [fst snd] in *.
    eexists. split; [reflexivity|]. cbn [r_input r_output]. split; [lia|]. split; [assumption|].
    right. split; [lia|]. split; [lia|assumption].
Qed.

Lemma rateBySource_total o x : nonneg_order o -> exists r, rateBySourceAmount x o = Some r.
Proof. intros Ho. destruct (rateBySource_spec o x Ho) as (r & H & _). eauto. Qed.

Lemma rateBySource_props o x r : nonneg_order o -> rateBySourceAmount x o = Some r ->
  r_output r <= o_y o /\ r_output r = tradeBySourceAmount (r_input r) o /\ r_output r <= tradeBySourceAmount x o /\
  rateBySourceAmount (r_input r) o = Some r.
Proof.
  intros Ho H. destruct (rateBySource_spec o x Ho) as (r' & E & H1 & H2 & H3).
  rewrite E in H. injection H as ->. split; [assumption|]. split; [assumption|]. split.
  - destruct H3 as [[H3 H4]|[H3 _]]; [rewrite H4 in H2|]; lia.
  - unfold rateBySourceAmount. rewrite <- H2. destruct (o_y o <? r_output r) eqn:E'; [lia|].
    destruct r; reflexivity.
Qed.

(** ** Greedy matching *)
Lemma total_in_cons a l : total_in (a :: l) = a_input a + total_in l.
Proof. reflexivity. Qed.
Lemma sum_inputs_cons r l : sum_inputs (r :: l) = r_input r + sum_inputs l.
Proof. reflexivity. Qed.
Section Fast.
  Context (orders : list order) (trade : Z -> order -> option rate) (a0 : Z).
  Context (P : order -> Z -> Z -> Prop).
  (** what a quote of a known order satisfies *)
  Context (HP1 : forall o x r, In o orders -> trade x o = Some r -> P o (r_input r) (r_output r)).
  Context (HP2 : forall o x r0 r, In o orders -> trade a0 o = Some r0 -> x < r_input r0 -> trade x o = Some r -> P o x (r_output r)).
  Context (Hid : forall o r, In o orders -> trade a0 o = Some r -> trade (r_input r) o = Some r).
  Context (Htot : forall o x, In o orders -> exists r, trade x o = Some r).

  Definition good_quote (q : quote) : Prop :=
    exists o, nth_error orders (q_id q) = Some o /\ trade a0 o = Some (q_rate q).

  Lemma matchFast_total : forall quotes amount, Forall good_quote quotes ->
    exists acts, matchFast amount orders quotes default_filter trade = Some acts.
  Proof.
    induction quotes as [|q qs IH]; intros amount HF; cbn; [eauto|].
    inversion HF as [|? ? (o & Eo & Et) HF']; subst.
    destruct (r_input (q_rate q) <? amount).
    - destruct (default_filter (q_rate q)).
      + destruct (IH (amount - r_input (q_rate q)) HF') as (acts & ->). cbn. eauto.
      + apply IH; assumption.
    - destruct (amount =? r_input (q_rate q)); [eauto|].
      rewrite Eo. cbn. destruct (Htot o amount) as (t & ->); [eapply nth_error_In; eassumption|]. cbn. eauto.
  Qed.

  Definition good_action (a : action) : Prop :=
    0 < a_input a /\ 0 < a_output a /\
    exists o, nth_error orders (a_id a) = Some o /\ P o (a_input a) (a_output a).

  Lemma filter_pos r : default_filter r = true -> 0 < r_input r /\ 0 < r_output r.
  Proof. unfold default_filter. intros H. apply andb_prop in H. lia. Qed.

  Lemma matchFast_sound : forall quotes amount acts,
    Forall good_quote quotes -> 0 <= amount ->
    matchFast amount orders quotes default_filter trade = Some acts ->
    Forall good_action acts /\ 0 <= total_in acts <= amount /\
    (exists sub, subseq sub quotes /\ map a_id acts = map q_id sub) /\
    (total_in acts < amount ->
       (forall q, In q quotes -> default_filter (q_rate q) = true ->
          In (mkAction (q_id q) (r_input (q_rate q)) (r_output (q_rate q))) acts) \/
       (exists q o t, In q quotes /\ nth_error orders (q_id q) = Some o /\
          trade (amount - total_in acts) o = Some t /\ r_output t <= 0)).
  Proof.
    induction quotes as [|q qs IH]; intros amount acts HF Ha H; cbn in H.
    { injection H as <-. split; [constructor|]. split; [cbn; lia|].
      split; [exists []; split; [constructor|reflexivity]|]. intros _. left. intros ? []. }
    inversion HF as [|? ? (o & Eo & Et) HF']; subst.
    assert (Io : In o orders) by (eapply nth_error_In; eassumption).
    destruct (r_input (q_rate q) <? amount) eqn:E1.
    - destruct (default_filter (q_rate q)) eqn:Ef.
      + apply bind_Some in H as (rest & Er & H). injection H as <-.
        apply filter_pos in Ef.
        destruct (IH (amount - r_input (q_rate q)) rest HF' ltac:(lia) Er) as (G1 & G2 & (sub & G3 & G4) & G5).
        split; [constructor; [|assumption]|].
        { split; [cbn; lia|]. split; [cbn; lia|]. exists o. split; [assumption|]. eapply HP1; eassumption. }
        split; [rewrite total_in_cons; cbn [a_input]; lia|].
        split; [exists (q :: sub); split; [constructor; assumption|cbn; f_equal; assumption]|].
        rewrite total_in_cons. cbn [a_input]. intros Hlt.
        destruct (G5 ltac:(lia)) as [G|(q' & o' & t & Gq & Go & Gt & G)].
        * left. intros q' [<-|Hq'] Hf; [left; reflexivity|right; apply G; assumption].
        * right. exists q', o', t. split; [right; assumption|]. split; [assumption|]. split; [|assumption].
          rewrite <- Gt. f_equal. lia.
      + destruct (IH _ _ HF' Ha H) as (G1 & G2 & (sub & G3 & G4) & G5).
        split; [assumption|]. split; [assumption|]. split; [exists sub; split; [constructor; assumption|assumption]|].
        intros Hlt. destruct (G5 Hlt) as [G|(q' & o' & t & Gq & Go & Gt & G)].
        * left. intros q' [<-|Hq'] Hf; [congruence|apply G; assumption].
        * right. exists q', o', t. split; [right; assumption|]. tauto.
    - destruct (amount =? r_input (q_rate q)) eqn:E2.
      + injection H as <-. assert (Ea : amount = r_input (q_rate q)) by lia.
        destruct (default_filter (q_rate q)) eqn:Ef.
        * apply filter_pos in Ef.
          split; [constructor; [|constructor]|].
          { split; [cbn; lia|]. split; [cbn; lia|]. exists o. split; [assumption|]. eapply HP1; eassumption. }
          split; [cbn; lia|].
          split; [exists [q]; split; [constructor; constructor|reflexivity]|].
          cbn. intros Hlt. lia.
        * split; [constructor|]. split; [cbn; lia|].
          split; [exists []; split; [constructor|reflexivity]|]. cbn [total_in fold_right]. intros Hlt.
          right. exists q, o, (q_rate q). split; [left; reflexivity|]. split; [assumption|].
          split; [rewrite Z.sub_0_r, Ea; apply Hid; assumption|].
          unfold default_filter in Ef. apply andb_false_iff in Ef. lia.
      + rewrite Eo in H. cbn [bind] in H. apply bind_Some in H as (t & Ett & H). injection H as <-.
        assert (Hlt0 : amount < r_input (q_rate q)) by lia.
        destruct (default_filter (mkRate amount (r_output t))) eqn:Ef.
        * apply filter_pos in Ef. cbn [r_input r_output] in *.
          split; [constructor; [|constructor]|].
          { split; [cbn; lia|]. split; [cbn; lia|]. exists o. split; [assumption|]. cbn. eapply HP2; eassumption. }
          split; [cbn; lia|].
          split; [exists [q]; split; [constructor; constructor|reflexivity]|].
          cbn. intros Hlt. lia.
        * split; [constructor|]. split; [cbn; lia|].
          split; [exists []; split; [constructor|reflexivity]|]. cbn [total_in fold_right]. intros Hlt.
          right. exists q, o, t. split; [left; reflexivity|]. split; [assumption|].
          split; [rewrite Z.sub_0_r; assumption|].
          unfold default_filter in Ef. cbn [r_input r_output] in Ef. apply andb_false_iff in Ef. lia.
  Qed.
End Fast.

(** ** Quote lists *)
Lemma mapM_Forall2 {A B} (f : A -> option B) l m : mapM f l = Some m -> Forall2 (fun a b => f a = Some b) l m.
Proof.
  revert m. induction l as [|a l IH]; cbn; intros m H.
  - injection H as <-. constructor.
  - apply bind_Some in H as (b & E & H). apply bind_Some in H as (bs & E' & H). injection H as <-.
    constructor; [assumption|apply IH; assumption].
Qed.
Lemma mapM_total {A B} (f : A -> option B) l : (forall a, In a l -> exists b, f a = Some b) -> exists m, mapM f l = Some m.
Proof.
  induction l as [|a l IH]; intros H; cbn; [eauto|].
  destruct (H a (or_introl eq_refl)) as (b & ->). cbn.
  destruct IH as (m & ->); [intros; apply H; right; assumption|]. cbn. eauto.
Qed.

Lemma combine_seq_nth {A} (l : list A) k i a :
  In (i, a) (combine (seq k (length l)) l) -> (k <= i)%nat /\ nth_error l (i - k) = Some a.
Proof.
  revert k. induction l as [|b l IH]; intros k; cbn; [tauto|].
  intros [H|H].
  - injection H as <- <-. split; [lia|]. rewrite Nat.sub_diag. reflexivity.
  - apply IH in H as [H1 H2]. split; [lia|].
    replace (i - k)%nat with (S (i - S k)) by lia. assumption.
Qed.
Lemma map_fst_combine {A B} (l : list A) (m : list B) : length l = length m -> map fst (combine l m) = l.
Proof.
  revert m. induction l as [|a l IH]; intros [|b m] H; cbn in *; try discriminate; [reflexivity|].
  f_equal. apply IH. lia.
Qed.

Lemma quotes_of_spec amount orders trade qs :
  quotes_of amount orders trade = Some qs ->
  map q_id qs = seq 0 (length orders) /\ Forall (good_quote orders trade amount) qs.
Proof.
  unfold quotes_of. intros H. apply mapM_Forall2 in H. split.
  - transitivity (map fst (combine (seq 0 (length orders)) orders)).
    2:{ apply map_fst_combine. apply seq_length. }
    induction H as [|[i o] q l m H _ IH]; [reflexivity|]. cbn in *.
    apply bind_Some in H as (r & _ & H). injection H as <-. cbn. f_equal. assumption.
  - apply Forall_forall. intros q Hq.
    assert (G : exists io, In io (combine (seq 0 (length orders)) orders) /\
              (do r <- trade amount (snd io); Some (mkQuote (fst io) r)) = Some q).
    { clear - H Hq. induction H as [|io q' l m H _ IH]; [destruct Hq|].
      destruct Hq as [->|Hq]; [exists io; split; [left; reflexivity|assumption]|].
      destruct (IH Hq) as (io' & G1 & G2). exists io'. split; [right; assumption|assumption]. }
    destruct G as ([i o] & Hin & Hq'). apply combine_seq_nth in Hin as [_ Hn].
    rewrite Nat.sub_0_r in Hn. cbn in Hq'. apply bind_Some in Hq' as (r & E & Hq'). injection Hq' as <-.
    exists o. cbn. split; assumption.
Qed.
Lemma quotes_of_total amount orders trade :
  (forall o, In o orders -> exists r, trade amount o = Some r) -> exists qs, quotes_of amount orders trade = Some qs.
Proof.
  intros H. unfold quotes_of. apply mapM_total. intros [i o] Hin.
  apply combine_seq_nth in Hin as [_ Hn]. destruct (H o) as (r & E); [eapply nth_error_In; eassumption|].
  cbn. rewrite E. cbn. eauto.
Qed.

(** ** Subsequences *)
Lemma subseq_incl {A} (l m : list A) : subseq l m -> incl l m.
Proof.
  induction 1 as [m|a l m H IH|a l m H IH]; intros x Hx; [destruct Hx| |right; apply IH; assumption].
  destruct Hx as [->|Hx]; [left; reflexivity|right; apply IH; assumption].
Qed.
Lemma subseq_map {A B} (f : A -> B) l m : subseq l m -> subseq (map f l) (map f m).
Proof. induction 1; cbn; constructor; assumption. Qed.
Lemma subseq_NoDup {A} (l m : list A) : subseq l m -> NoDup m -> NoDup l.
Proof.
  induction 1 as [m|a l m H IH|a l m H IH]; intros HN; [constructor| |].
  - inversion HN; subst. constructor; [|apply IH; assumption].
    intros G. apply subseq_incl in H. apply H in G. contradiction.
  - inversion HN; subst. apply IH; assumption.
Qed.
Lemma subseq_Forall {A} (P : A -> Prop) l m : subseq l m -> Forall P m -> Forall P l.
Proof.
  intros Hs HF. rewrite Forall_forall in *. intros x Hx. apply HF. apply (subseq_incl _ _ Hs). assumption.
Qed.
Lemma subseq_StronglySorted {A} (R : A -> A -> Prop) l m : subseq l m -> StronglySorted R m -> StronglySorted R l.
Proof.
  induction 1 as [m|a l m H IH|a l m H IH]; intros HS; [constructor| |]; inversion HS; subst.
  - constructor; [apply IH; assumption|eapply subseq_Forall; eassumption].
  - apply IH; assumption.
Qed.
Lemma Permutation_Forall' {A} (P : A -> Prop) l m : Permutation l m -> Forall P m -> Forall P l.
Proof. intros Hp HF. eapply Permutation_Forall; [symmetry; exact Hp|assumption]. Qed.

Definition nonneg_book (orders : list order) : Prop := Forall nonneg_order orders.

Lemma fast_props (sort : sorter) cmp orders trade amount (P : order -> Z -> Z -> Prop) :
  (forall c l, Permutation (sort c l) l) ->
  (forall o x r, In o orders -> trade x o = Some r -> P o (r_input r) (r_output r)) ->
  (forall o x r0 r, In o orders -> trade amount o = Some r0 -> x < r_input r0 -> trade x o = Some r -> P o x (r_output r)) ->
  (forall o r, In o orders -> trade amount o = Some r -> trade (r_input r) o = Some r) ->
  (forall o x, In o orders -> exists r, trade x o = Some r) ->
  0 <= amount ->
  exists acts,
    (do qs <- quotes_of amount orders trade; matchFast amount orders (sort cmp qs) default_filter trade) = Some acts /\
    NoDup (map a_id acts) /\
    0 <= total_in acts <= amount /\
    (forall a, In a acts -> 0 < a_input a /\ 0 < a_output a /\
       exists o, nth_error orders (a_id a) = Some o /\ P o (a_input a) (a_output a)) /\
    (total_in acts < amount ->
       (forall i o r, nth_error orders i = Some o -> trade amount o = Some r -> 0 < r_input r -> 0 < r_output r ->
          In (mkAction i (r_input r) (r_output r)) acts) \/
       (exists i o r, nth_error orders i = Some o /\ trade (amount - total_in acts) o = Some r /\ r_output r <= 0)).
Proof.
  intros Hsort H1 H2 H3 H4 Ha.
  destruct (quotes_of_total amount orders trade) as (qs & Eqs); [intros; apply H4; assumption|].
  rewrite Eqs. cbn [bind].
  destruct (quotes_of_spec _ _ _ _ Eqs) as [Hids Hgood].
  assert (Hg : Forall (good_quote orders trade amount) (sort cmp qs)) by (eapply Permutation_Forall'; [apply Hsort|assumption]).
  destruct (matchFast_total orders trade amount H4 (sort cmp qs) amount Hg) as (acts & E).
  exists acts. split; [assumption|].
  destruct (matchFast_sound orders trade amount P H1 H2 H3 (sort cmp qs) amount acts Hg Ha E)
    as (G1 & G2 & (sub & G3 & G4) & G5).
  split.
  { rewrite G4. eapply subseq_NoDup; [apply subseq_map; eassumption|].
    eapply Permutation_NoDup; [apply Permutation_map; symmetry; apply Hsort|].
    rewrite Hids. apply seq_NoDup. }
  split; [assumption|].
  split; [rewrite Forall_forall in G1; exact G1|].
  intros Hlt. destruct (G5 Hlt) as [G|(q & o & t & Gq & Go & Gt & G)].
  - left. intros i o r Hn Ht Hi Ho'.
    assert (Hq : In (mkQuote i r) (sort cmp qs)).
    { eapply Permutation_in; [symmetry; apply Hsort|].
      assert (Hi' : In i (map q_id qs)).
      { rewrite Hids. apply in_seq. split; [lia|]. cbn. apply nth_error_Some. congruence. }
      apply in_map_iff in Hi' as (q & Eq & Hq). rewrite Forall_forall in Hgood.
      destruct (Hgood q Hq) as (o' & Eo' & Et'). rewrite Eq in Eo'. rewrite Hn in Eo'. injection Eo' as <-.
      rewrite Ht in Et'. injection Et' as ->. rewrite <- Eq. destruct q; assumption. }
    apply (G _ Hq). unfold default_filter. cbn. lia.
  - right. exists (q_id q), o, t. tauto.
Qed.

Lemma fast_by_source (sort : sorter) orders amount :
  (forall c l, Permutation (sort c l) l) -> nonneg_book orders -> 0 <= amount ->
  exists acts, matchBySourceFast sort amount orders = Some acts /\
    NoDup (map a_id acts) /\ 0 <= total_in acts <= amount /\
    (forall a, In a acts -> 0 < a_input a /\ 0 < a_output a /\
       exists o, nth_error orders (a_id a) = Some o /\
         a_output a <= o_y o /\ a_output a <= tradeBySourceAmount (a_input a) o) /\
    (total_in acts < amount ->
       (forall i o r, nth_error orders i = Some o -> rateBySourceAmount amount o = Some r -> 0 < r_input r -> 0 < r_output r ->
          In (mkAction i (r_input r) (r_output r)) acts) \/
       (exists i o r, nth_error orders i = Some o /\ rateBySourceAmount (amount - total_in acts) o = Some r /\ r_output r <= 0)).
Proof.
  intros Hs Hb Ha. unfold matchBySourceFast. unfold nonneg_book in Hb. rewrite Forall_forall in Hb.
  apply (fast_props sort sortByMinRate orders rateBySourceAmount amount
    (fun o i out => out <= o_y o /\ out <= tradeBySourceAmount i o)); try assumption.
  - intros o x r Io E. destruct (rateBySource_props o x r (Hb o Io) E) as (A1 & A2 & A3 & _). lia.
  - intros o x r0 r Io _ _ E. destruct (rateBySource_props o x r (Hb o Io) E) as (A1 & A2 & A3 & _). lia.
  - intros o r Io E. eapply rateBySource_props; [apply Hb; assumption|eassumption].
  - intros o x Io. apply rateBySource_total. apply Hb; assumption.
Qed.

Lemma fast_by_target (sort : sorter) orders amount :
  (forall c l, Permutation (sort c l) l) -> 0 <= amount ->
  exists acts, matchByTargetFast sort amount orders = Some acts /\
    NoDup (map a_id acts) /\ 0 <= total_in acts <= amount /\
    (forall a, In a acts -> 0 < a_input a /\ 0 < a_output a /\
       exists o, nth_error orders (a_id a) = Some o /\
         a_input a <= o_y o /\ a_output a = tradeByTargetAmount (a_input a) o) /\
    (total_in acts < amount ->
       (forall i o r, nth_error orders i = Some o -> rateByTargetAmount amount o = Some r -> 0 < r_input r -> 0 < r_output r ->
          In (mkAction i (r_input r) (r_output r)) acts) \/
       (exists i o r, nth_error orders i = Some o /\ rateByTargetAmount (amount - total_in acts) o = Some r /\ r_output r <= 0)).
Proof.
  intros Hs Ha. unfold matchByTargetFast.
  apply (fast_props sort sortByMaxRate orders rateByTargetAmount amount
    (fun o i out => i <= o_y o /\ out = tradeByTargetAmount i o)); try assumption.
  - intros o x r Io E. injection E as <-. cbn. split; [lia|reflexivity].
  - intros o x r0 r Io E0 Hlt E. injection E as <-. injection E0 as <-. cbn in *.
    replace (Z.min x (o_y o)) with x by lia. split; [lia|reflexivity].
  - intros o r Io E. injection E as <-. unfold rateByTargetAmount. cbn. f_equal.
    replace (Z.min (Z.min amount (o_y o)) (o_y o)) with (Z.min amount (o_y o)) by lia. reflexivity.
  - intros o x Io. unfold rateByTargetAmount. eauto.
Qed.

(** ** Optimal matching *)
Section Best.
  Context (trade : Z -> order -> option rate) (equalize : order -> Z -> Z) (amount : Z).
  Definition genuine (o : order) (r : rate) : Prop := exists x, trade x o = Some r.

  Lemma rates_at_spec prefix limit rates :
    rates_at prefix limit trade equalize = Some rates -> Forall2 genuine prefix rates.
  Proof.
    intros H. apply mapM_Forall2 in H. clear -H. unfold genuine.
    induction H; constructor; eauto.
  Qed.

  Lemma find_n_spec rest : forall prefix p l rs d,
    prefix <> [] ->
    find_n amount prefix rest trade equalize = Some (p, l, rs, d) ->
    exists mid rest', p = prefix ++ mid /\ rest = mid ++ rest' /\ rest' <> [] /\
      Forall2 genuine p rs /\ d = sum_inputs rs - amount.
  Proof.
    induction rest as [|o rest IH]; intros prefix p l rs d Hne H; [discriminate|].
    cbn [find_n] in H. apply bind_Some in H as (rates & Er & H).
    destruct (0 <=? sum_inputs rates - amount).
    - injection H as <- <- <- <-. exists [], (o :: rest). rewrite app_nil_r.
      split; [reflexivity|]. split; [reflexivity|]. split; [discriminate|].
      split; [eapply rates_at_spec; eassumption|reflexivity].
    - destruct rest as [|o' rest'].
      + injection H as <- <- <- <-. exists [], [o]. rewrite app_nil_r.
        split; [reflexivity|]. split; [reflexivity|]. split; [discriminate|].
        split; [eapply rates_at_spec; eassumption|reflexivity].
      + apply IH in H as (mid & r' & -> & E & Hr & HF & ->); [|intros G; apply app_eq_nil in G as [_ G]; discriminate].
        exists (o :: mid), r'. rewrite <- app_assoc in *. cbn in *. rewrite E.
        split; [reflexivity|]. split; [reflexivity|]. split; [assumption|]. split; [assumption|reflexivity].
  Qed.

  Lemma find_n_total rest : forall prefix, rest <> [] ->
    (forall o x, In o (prefix ++ removelast rest) -> exists r, trade x o = Some r) ->
    exists res, find_n amount prefix rest trade equalize = Some res.
  Proof.
    induction rest as [|o rest IH]; intros prefix Hne Ht; [contradiction|].
    cbn [find_n].
    destruct (mapM_total (fun o0 => trade (equalize o0 (getLimit o)) o0) prefix) as (rates & Er).
    { intros a Ha. apply Ht. apply in_or_app. left. assumption. }
    unfold rates_at. rewrite Er. cbn [bind].
    destruct (0 <=? sum_inputs rates - amount); [eauto|].
    destruct rest as [|o' rest']; [eauto|].
    apply IH; [discriminate|].
    intros a x Ha. apply Ht. rewrite <- app_assoc in Ha. exact Ha.
  Qed.

  Lemma bisect_spec prefix lo hi rates delta res :
    Forall2 genuine prefix rates -> delta = sum_inputs rates - amount ->
    bisect amount prefix trade equalize lo hi rates delta = Some res ->
    Forall2 genuine prefix (fst res) /\ snd res = sum_inputs (fst res) - amount.
  Proof.
    intros HF Hd H. unfold bisect in H.
    destruct (iterp _ _ _) as [|r] eqn:E; [discriminate|]. subst r.
    pose (I := fun s : Z * Z * list rate * Z => let '(lo, hi, rates, delta) := s in
                Forall2 genuine prefix rates /\ delta = sum_inputs rates - amount).
    destruct (iterp_inr (bisect_step amount prefix trade equalize) I) with (p := Z.to_pos (hi - lo + 1)) (s := (lo, hi, rates, delta)) as [_ B].
    - intros [[[l h] rs] d] [[[l' h'] rs'] d'] [I1 I2] Hs. unfold bisect_step in Hs.
      destruct (l + 1 <? h); [|discriminate].
      destruct (rates_at prefix ((l + h) / 2) trade equalize) as [rs1|] eqn:Er; [|discriminate].
      apply rates_at_spec in Er.
      destruct (0 <? sum_inputs rs1 - amount); [injection Hs as <- <- <- <-; split; [assumption|reflexivity]|].
      destruct (sum_inputs rs1 - amount <? 0); [injection Hs as <- <- <- <-; split; [assumption|reflexivity]|discriminate].
    - split; assumption.
    - destruct (B _ E) as ([[[l h] rs] d] & [I1 I2] & Hs). unfold bisect_step in Hs.
      destruct (l + 1 <? h); [|injection Hs as <-; cbn; split; assumption].
      destruct (rates_at prefix ((l + h) / 2) trade equalize) as [rs1|] eqn:Er; [|discriminate].
      apply rates_at_spec in Er.
      destruct (0 <? sum_inputs rs1 - amount) eqn:E1; [discriminate|].
      destruct (sum_inputs rs1 - amount <? 0) eqn:E2; [discriminate|].
      injection Hs as <-. cbn. split; [assumption|reflexivity].
  Qed.

  Lemma bisect_total prefix lo hi rates delta :
    (forall o x, In o prefix -> exists r, trade x o = Some r) ->
    exists res, bisect amount prefix trade equalize lo hi rates delta = Some res.
  Proof.
    intros Ht. unfold bisect.
    destruct (iterp_terminates (bisect_step amount prefix trade equalize) (fun _ => True)
       (fun s : Z * Z * list rate * Z => snd (fst (fst s)) - fst (fst (fst s)))
       (Z.to_pos (hi - lo + 1)) (lo, hi, rates, delta)) as (r & E & ([[[l h] rs] d] & _ & Hs)).
    - intros [[[l h] rs] d] [[[l' h'] rs'] d'] _ Hs. cbn [fst snd]. split; [trivial|]. unfold bisect_step in Hs.
      destruct (l + 1 <? h) eqn:El; [|discriminate].
      destruct (rates_at prefix ((l + h) / 2) trade equalize) as [rs1|] eqn:Er; [|discriminate].
      assert (l < (l + h) / 2 < h).
      { pose proof (Z.div_mod (l + h) 2 ltac:(lia)). pose proof (Z.mod_pos_bound (l + h) 2 ltac:(lia)). lia. }
      destruct (0 <? sum_inputs rs1 - amount); [injection Hs as <- <- <- <-; lia|].
      destruct (sum_inputs rs1 - amount <? 0); [injection Hs as <- <- <- <-; lia|discriminate].
    - trivial.
    - cbn [fst snd]. destruct (Z.lt_ge_cases 0 (hi - lo + 1)); [rewrite Z2Pos.id by lia; lia|lia].
    - rewrite E. unfold bisect_step in Hs.
      destruct (l + 1 <? h); [|injection Hs as <-; eauto].
      destruct (mapM_total (fun o0 => trade (equalize o0 ((l + h) / 2)) o0) prefix) as (rs1 & Er).
      { intros a Ha. apply Ht. assumption. }
      unfold rates_at in Hs. rewrite Er in Hs.
      destruct (0 <? sum_inputs rs1 - amount); [discriminate|].
      destruct (sum_inputs rs1 - amount <? 0); [discriminate|]. injection Hs as <-. eauto.
  Qed.

  Lemma correct_down_spec ros : forall delta rs,
    correct_down ros delta trade = Some rs ->
    Forall (fun ro => genuine (snd ro) (fst ro)) ros ->
    Forall2 genuine (map snd ros) rs.
  Proof.
    induction ros as [|[r o] ros IH]; intros delta rs H HF; cbn in H.
    - injection H as <-. constructor.
    - inversion HF; subst. apply bind_Some in H as (r' & E & H).
      destruct (delta + (r_input r' - r_input r) <=? 0).
      + injection H as <-. cbn. constructor; [exists (r_input r - delta); assumption|].
        clear - H3. induction H3 as [|[a b] l Hh _ IH]; cbn; constructor; assumption.
      + apply bind_Some in H as (rest & E' & H). injection H as <-. cbn.
        constructor; [exists (r_input r - delta); assumption|]. eapply IH; eassumption.
  Qed.
  Lemma correct_up_spec ros : forall delta rs,
    correct_up ros delta trade = Some rs ->
    Forall (fun ro => genuine (snd ro) (fst ro)) ros ->
    Forall2 genuine (map snd ros) rs.
  Proof.
    induction ros as [|[r o] ros IH]; intros delta rs H HF; cbn in H.
    - injection H as <-. constructor.
    - inversion HF; subst. apply bind_Some in H as (r' & E & H).
      destruct (0 <? delta + (r_input r' - r_input r)).
      + injection H as <-. cbn. constructor; [assumption|].
        clear - H3. induction H3 as [|[a b] l Hh _ IH]; cbn; constructor; assumption.
      + apply bind_Some in H as (rest & E' & H). injection H as <-. cbn.
        constructor; [exists (r_input r - delta); assumption|]. eapply IH; eassumption.
  Qed.
  Lemma correct_down_total ros : forall delta,
    (forall ro x, In ro ros -> exists r, trade x (snd ro) = Some r) -> exists rs, correct_down ros delta trade = Some rs.
  Proof.
    induction ros as [|[r o] ros IH]; intros delta H; cbn; [eauto|].
    destruct (H (r, o) (r_input r - delta) (or_introl eq_refl)) as (r' & E). cbn in E. rewrite E. cbn [bind].
    destruct (delta + (r_input r' - r_input r) <=? 0); [eauto|].
    destruct (IH (delta + (r_input r' - r_input r))) as (rs & ->); [intros; apply H; right; assumption|]. cbn. eauto.
  Qed.
  Lemma correct_up_total ros : forall delta,
    (forall ro x, In ro ros -> exists r, trade x (snd ro) = Some r) -> exists rs, correct_up ros delta trade = Some rs.
  Proof.
    induction ros as [|[r o] ros IH]; intros delta H; cbn; [eauto|].
    destruct (H (r, o) (r_input r - delta) (or_introl eq_refl)) as (r' & E). cbn in E. rewrite E. cbn [bind].
    destruct (0 <? delta + (r_input r' - r_input r)); [eauto|].
    destruct (IH (delta + (r_input r' - r_input r))) as (rs & ->); [intros; apply H; right; assumption|]. cbn. eauto.
  Qed.

  (** total of the corrected rates *)
  Lemma correct_down_sum ros : forall delta rs,
    ros <> [] -> (forall o x r, In o (map snd ros) -> trade x o = Some r -> r_input r <= x) ->
    correct_down ros delta trade = Some rs -> 0 < delta ->
    sum_inputs rs <= sum_inputs (map fst ros) - delta.
  Proof.
    destruct ros as [|[r o] ros]; intros delta rs Hne Hle H Hd; [contradiction|]. cbn in H.
    apply bind_Some in H as (r' & E & H).
    assert (r_input r' <= r_input r - delta) by (eapply Hle; [left; reflexivity|eassumption]).
    destruct (delta + (r_input r' - r_input r) <=? 0) eqn:E'; [|lia].
    injection H as <-. cbn. lia.
  Qed.
  Lemma correct_up_sum ros : forall delta rs,
    correct_up ros delta trade = Some rs -> delta <= 0 ->
    sum_inputs rs <= sum_inputs (map fst ros) - delta.
  Proof.
    induction ros as [|[r o] ros IH]; intros delta rs H Hd; cbn in H.
    - injection H as <-. cbn. lia.
    - apply bind_Some in H as (r' & E & H).
      destruct (0 <? delta + (r_input r' - r_input r)) eqn:E'.
      + injection H as <-. cbn. fold (sum_inputs (map fst ros)). lia.
      + apply bind_Some in H as (rest & E2 & H). injection H as <-.
        apply IH in E2; [|lia]. cbn. fold (sum_inputs rest) (sum_inputs (map fst ros)). lia.
  Qed.

  Lemma sum_inputs_app a b : sum_inputs (a ++ b) = sum_inputs a + sum_inputs b.
  Proof. induction a; cbn; [reflexivity|]. fold (sum_inputs (a0 ++ b)) (sum_inputs a0). lia. Qed.
  Lemma sum_inputs_rev a : sum_inputs (rev a) = sum_inputs a.
  Proof. induction a; cbn; [reflexivity|]. rewrite sum_inputs_app. cbn. fold (sum_inputs a0). lia. Qed.

  Lemma combine_genuine rates prefix : Forall2 genuine prefix rates ->
    Forall (fun ro => genuine (snd ro) (fst ro)) (combine rates prefix) /\
    map snd (combine rates prefix) = prefix /\ map fst (combine rates prefix) = rates.
  Proof.
    induction 1 as [|o r l m H _ (I1 & I2 & I3)]; cbn; [split; [constructor|split; reflexivity]|].
    split; [constructor; assumption|]. split; f_equal; assumption.
  Qed.
  Lemma Forall2_rev {A B} (R : A -> B -> Prop) l m : Forall2 R l m -> Forall2 R (rev l) (rev m).
  Proof. induction 1; cbn; [constructor|]. apply Forall2_app; [assumption|]. constructor; [assumption|constructor]. Qed.

  Lemma bestRates_spec orders quotes rates :
    matchBestRates amount orders quotes trade equalize = Some rates ->
    exists os used tail,
      Forall2 (fun q o => nth_error orders (q_id q) = Some o) quotes os /\
      os = used ++ tail /\ Forall2 genuine used rates /\
      ((forall o x r, In o used -> trade x o = Some r -> r_input r <= x) -> quotes <> [] -> sum_inputs rates <= amount).
  Proof.
    unfold matchBestRates. intros H. apply bind_Some in H as (os & Eos & H).
    apply mapM_Forall2 in Eos. exists os.
    destruct os as [|o0 os]; cbn [app] in H.
    { cbn in H. discriminate. }
    apply bind_Some in H as ([[[p l] rs] d] & Ef & H).
    apply find_n_spec in Ef as (mid & rest' & -> & Er & Hne & HF & Hd); [|discriminate].
    apply bind_Some in H as ([rs1 d1] & Eb & H).
    assert (G : Forall2 genuine ([o0] ++ mid) rs1 /\ d1 = sum_inputs rs1 - amount).
    { destruct (0 <? d); [|injection Eb as <- <-; split; assumption].
      apply (bisect_spec _ _ _ _ _ (rs1, d1) HF Hd Eb). }
    destruct G as [G1 G2].
    pose proof (combine_genuine _ _ G1) as (C1 & C2 & C3).
    assert (Et : exists tail, o0 :: os = ([o0] ++ mid) ++ tail).
    { exists (removelast rest'). destruct (exists_last Hne) as (t & z & ->).
      rewrite removelast_last. cbn. f_equal. rewrite app_assoc in Er. apply app_inj_tail in Er as [-> _]. reflexivity. }
    destruct Et as (tail & Et). exists ([o0] ++ mid), tail. split; [assumption|]. split; [assumption|].
    destruct (0 <? d1) eqn:Ed1.
    - apply bind_Some in H as (rs2 & Ec & H). injection H as <-.
      split.
      + apply correct_down_spec in Ec.
        2:{ apply Forall_rev. assumption. }
        rewrite map_rev, C2 in Ec. apply Forall2_rev in Ec. rewrite rev_involutive in Ec. assumption.
      + intros Hle _. apply correct_down_sum in Ec.
        * rewrite map_rev, C3 in Ec. rewrite sum_inputs_rev in *. lia.
        * intros G. apply (f_equal (@rev _)) in G. rewrite rev_involutive in G.
          rewrite G in C2. cbn in C2. discriminate.
        * intros o x r Ho. apply Hle. rewrite map_rev, C2 in Ho. apply in_rev in Ho. assumption.
        * lia.
    - destruct (d1 <? 0) eqn:Ed2.
      + split.
        * apply correct_up_spec in H; [|assumption]. rewrite C2 in H. assumption.
        * intros _ _. apply correct_up_sum in H; [|lia]. rewrite C3 in H. lia.
      + injection H as <-. split; [assumption|]. intros _ _. lia.
  Qed.

  Lemma bestRates_total orders quotes :
    quotes <> [] ->
    (forall q, In q quotes -> exists o, nth_error orders (q_id q) = Some o) ->
    (forall o x, In o orders -> exists r, trade x o = Some r) ->
    exists rates, matchBestRates amount orders quotes trade equalize = Some rates.
  Proof.
    intros Hne Hq Ht. unfold matchBestRates.
    destruct (mapM_total (fun q => nth_error orders (q_id q)) quotes Hq) as (os & Eos). rewrite Eos. cbn [bind].
    assert (Ho : forall o, In o os -> In o orders).
    { apply mapM_Forall2 in Eos. clear - Eos. induction Eos as [|q o l m H _ IH]; [intros ? []|].
      intros o' [<-|G]; [eapply nth_error_In; eassumption|apply IH; assumption]. }
    destruct os as [|o0 os].
    { apply mapM_Forall2 in Eos. inversion Eos; subst. contradiction. }
    cbn [app].
    destruct (find_n_total (os ++ [zero_order]) [o0]) as ([[[p l] rs] d] & Ef).
    - intros G. apply app_eq_nil in G as [_ G]. discriminate.
    - intros o x Hin. rewrite removelast_last in Hin. apply Ht. apply Ho. exact Hin.
    - rewrite Ef. cbn [bind].
      apply find_n_spec in Ef as (mid & rest' & -> & Er & Hne' & HF & Hd); [|discriminate].
      assert (Hp : forall o, In o ([o0] ++ mid) -> In o orders).
      { intros o Hin. apply Ho. destruct (exists_last Hne') as (t & z & ->).
        rewrite app_assoc in Er. apply app_inj_tail in Er as [-> _]. cbn in *. rewrite in_app_iff. tauto. }
      assert (Hrd : exists rs1 d1, (if 0 <? d then bisect amount ([o0] ++ mid) trade equalize l (getLimit (last ([o0] ++ mid) zero_order)) rs d else Some (rs, d)) = Some (rs1, d1) /\ Forall2 genuine ([o0] ++ mid) rs1).
      { destruct (0 <? d); [|eauto].
        destruct (bisect_total ([o0] ++ mid) l (getLimit (last ([o0] ++ mid) zero_order)) rs d) as ([rs1 d1] & E).
        { intros o x Hin. apply Ht. apply Hp. assumption. }
        exists rs1, d1. split; [assumption|]. eapply (bisect_spec _ _ _ _ _ (rs1, d1) HF Hd E). }
      destruct Hrd as (rs1 & d1 & -> & G1). cbn [bind].
      pose proof (combine_genuine _ _ G1) as (C1 & C2 & C3).
      assert (Hc : forall ro x, In ro (combine rs1 ([o0] ++ mid)) -> exists r, trade x (snd ro) = Some r).
      { intros ro x Hin. apply Ht. apply Hp. rewrite <- C2. apply in_map. assumption. }
      destruct (0 <? d1).
      + destruct (correct_down_total (rev (combine rs1 ([o0] ++ mid))) d1) as (rs2 & ->).
        { intros ro x Hin. apply Hc. apply in_rev. assumption. }
        cbn. eauto.
      + destruct (d1 <? 0); [|eauto]. apply correct_up_total. assumption.
  Qed.
End Best.

Lemma total_in_best quotes rates :
  (forall r, In r rates -> 0 <= r_input r) ->
  total_in (map (fun qr : quote * rate => mkAction (q_id (fst qr)) (r_input (snd qr)) (r_output (snd qr)))
    (List.filter (fun qr => default_filter (snd qr)) (combine quotes rates))) <= sum_inputs rates.
Proof.
  revert rates. induction quotes as [|q qs IH]; intros rates Hn; cbn [combine List.filter map].
  - change (total_in []) with 0. induction rates; [cbn; lia|]. rewrite sum_inputs_cons.
    assert (0 <= r_input a) by (apply Hn; left; reflexivity).
    assert (0 <= sum_inputs rates) by (apply IHrates; intros; apply Hn; right; assumption). lia.
  - destruct rates as [|r rs]; cbn [combine List.filter map snd]; [cbn; lia|]. rewrite sum_inputs_cons.
    assert (G : forall r, In r rs -> 0 <= r_input r) by (intros; apply Hn; right; assumption).
    specialize (IH rs G). assert (0 <= r_input r) by (apply Hn; left; reflexivity).
    destruct (default_filter r); cbn [map]; [|lia].
    rewrite total_in_cons. cbn [a_input fst snd]. lia.
Qed.

Lemma best_props (sort : sorter) cmp orders trade equalize amount (P : order -> rate -> Prop) :
  (forall c l, Permutation (sort c l) l) ->
  orders <> [] ->
  (forall o x r, In o orders -> trade x o = Some r -> P o r) ->
  (forall o x, In o orders -> exists r, trade x o = Some r) ->
  exists acts,
    (do qs <- quotes_of amount orders trade; matchBest amount orders (sort cmp qs) default_filter trade equalize) = Some acts /\
    NoDup (map a_id acts) /\
    (forall a, In a acts -> 0 < a_input a /\ 0 < a_output a /\
       exists o, nth_error orders (a_id a) = Some o /\ P o (mkRate (a_input a) (a_output a))).
Proof.
  intros Hsort Hne H1 H4.
  destruct (quotes_of_total amount orders trade) as (qs & Eqs); [intros; apply H4; assumption|].
  rewrite Eqs. cbn [bind].
  destruct (quotes_of_spec _ _ _ _ Eqs) as [Hids Hgood].
  set (sq := sort cmp qs).
  assert (Hg : Forall (good_quote orders trade amount) sq) by (eapply Permutation_Forall'; [apply Hsort|assumption]).
  assert (Hsq : sq <> []).
  { intros G. assert (Permutation [] qs) by (rewrite <- G; apply Hsort).
    apply Permutation_nil in H. rewrite H in Hids. cbn in Hids. destruct orders; [contradiction|discriminate]. }
  rewrite Forall_forall in Hg.
  destruct (bestRates_total trade equalize amount orders sq Hsq) as (rates & Er).
  { intros q Hq. destruct (Hg q Hq) as (o & Eo & _). eauto. }
  { assumption. }
  unfold matchBest. rewrite Er. cbn [bind]. eexists. split; [reflexivity|].
  destruct (bestRates_spec _ _ _ _ _ _ Er) as (os & used & tail & F1 & -> & F2 & _).
  assert (ND : NoDup (map q_id sq)).
  { eapply Permutation_NoDup; [apply Permutation_map; symmetry; apply Hsort|]. rewrite Hids. apply seq_NoDup. }
  split.
  - rewrite map_map. cbn [a_id].
    clear - ND. revert rates. induction sq as [|q l IH]; intros rates; cbn; [constructor|].
    inversion ND; subst. destruct rates as [|r rates]; cbn; [constructor|].
    specialize (IH H2 rates).
    destruct (default_filter r); cbn; [|assumption]. constructor; [|assumption].
    intros G. apply H1. apply in_map_iff in G as ([q' r'] & E & G). apply filter_In in G as [G _].
    apply in_combine_l in G. cbn in E. rewrite <- E. apply in_map. assumption.
  - intros a Ha. apply in_map_iff in Ha as ([q r] & <- & Ha). apply filter_In in Ha as [Ha Hf].
    cbn in *. apply filter_pos in Hf. split; [lia|]. split; [lia|].
    assert (G : forall q r, In (q, r) (combine sq rates) ->
      exists o, nth_error orders (q_id q) = Some o /\ genuine trade o r).
    { clear - F1 F2. revert used rates F1 F2. induction sq as [|q l IH]; intros used rates F1 F2 q0 r0; cbn; [tauto|].
      destruct rates as [|r rates]; [intros []|].
      inversion F2; subst. inversion F1; subst. intros [E|Hin].
      - injection E as <- <-. eauto.
      - eapply IH; eassumption. }
    destruct (G _ _ Ha) as (o & Eo & (x & Ex)). exists o. split; [assumption|].
    replace (mkRate (r_input r) (r_output r)) with r by (destruct r; reflexivity).
    apply (H1 o x r); [eapply nth_error_In; eassumption|assumption].
Qed.

Lemma best_by_source (sort : sorter) orders amount :
  (forall c l, Permutation (sort c l) l) -> orders <> [] -> nonneg_book orders ->
  exists acts, matchBySourceBest sort amount orders = Some acts /\
    NoDup (map a_id acts) /\
    (forall a, In a acts -> 0 < a_input a /\ 0 < a_output a /\
       exists o, nth_error orders (a_id a) = Some o /\
         a_output a <= o_y o /\ a_output a = tradeBySourceAmount (a_input a) o).
Proof.
  intros Hs Hne Hb. unfold nonneg_book in Hb. rewrite Forall_forall in Hb. unfold matchBySourceBest.
  apply (best_props sort sortByMinRate orders rateBySourceAmount equalizeBySourceAmount amount
    (fun o r => r_output r <= o_y o /\ r_output r = tradeBySourceAmount (r_input r) o)); try assumption.
  - intros o x r Io E. destruct (rateBySource_props o x r (Hb o Io) E) as (A1 & A2 & A3 & _). split; assumption.
  - intros o x Io. apply rateBySource_total. apply Hb; assumption.
Qed.
Lemma best_by_target (sort : sorter) orders amount :
  (forall c l, Permutation (sort c l) l) -> orders <> [] ->
  exists acts, matchByTargetBest sort amount orders = Some acts /\
    NoDup (map a_id acts) /\
    (forall a, In a acts -> 0 < a_input a /\ 0 < a_output a /\
       exists o, nth_error orders (a_id a) = Some o /\
         a_input a <= o_y o /\ a_output a = tradeByTargetAmount (a_input a) o).
Proof.
  intros Hs Hne. unfold matchByTargetBest.
  apply (best_props sort sortByMaxRate orders rateByTargetAmount equalizeByTargetAmount amount
    (fun o r => r_input r <= o_y o /\ r_output r = tradeByTargetAmount (r_input r) o)); try assumption.
  - intros o x r Io E. injection E as <-. cbn. split; [lia|reflexivity].
  - intros o x Io. unfold rateByTargetAmount. eauto.
Qed.
Lemma best_empty sort amount : (forall c l, Permutation (sort c l) l) ->
  matchBySourceBest sort amount [] = None /\ matchByTargetBest sort amount [] = None.
Proof.
  intros Hs. unfold matchBySourceBest, matchByTargetBest, quotes_of. cbn.
  assert (E : forall c, sort c [] = []) by (intros; apply Permutation_nil; symmetry; apply Hs).
  rewrite !E. split; reflexivity.
Qed.

(** ** C10: the bound on the total *)
Lemma best_total_by_target (sort : sorter) orders amount qs rates :
  (forall c l, Permutation (sort c l) l) -> orders <> [] ->
  quotes_of amount orders rateByTargetAmount = Some qs ->
  matchBestRates amount orders (sort sortByMaxRate qs) rateByTargetAmount equalizeByTargetAmount = Some rates ->
  sum_inputs rates <= amount /\
  ((forall r, In r rates -> 0 <= r_input r) ->
   forall acts, matchByTargetBest sort amount orders = Some acts -> total_in acts <= amount).
Proof.
  intros Hsort Hne Eqs Er.
  assert (Hsq : sort sortByMaxRate qs <> []).
  { intros G. destruct (quotes_of_spec _ _ _ _ Eqs) as [Hids _]. assert (Permutation [] qs) by (rewrite <- G; apply Hsort).
    apply Permutation_nil in H. rewrite H in Hids. cbn in Hids. destruct orders; [contradiction|discriminate]. }
  assert (S : sum_inputs rates <= amount).
  { destruct (bestRates_spec _ _ _ _ _ _ Er) as (os & used & tail & _ & _ & _ & HS). apply HS; [|assumption].
    intros o x r _ E. injection E as <-. cbn. lia. }
  split; [assumption|]. intros Hn acts Ha. unfold matchByTargetBest in Ha. rewrite Eqs in Ha. cbn [bind] in Ha.
  unfold matchBest in Ha. rewrite Er in Ha. cbn [bind] in Ha. injection Ha as <-.
  eapply Z.le_trans; [apply total_in_best; assumption|assumption].
Qed.

(** the by-source clamp never raises the input below the 256-bit limit *)
Definition clamp_safe (o : order) : Prop :=
  nonneg_order o /\ 0 < o_z o /\
  target_fits (denoted (o_A o)) (denoted (o_B o)) (o_y o) (o_z o) /\
  0 < o_y o * denoted (o_A o) + o_z o * denoted (o_B o).

Lemma clamp_input_le o x r : clamp_safe o -> rateBySourceAmount x o = Some r -> r_input r <= x.
Proof.
  intros (Ho & Hz & Hf & HT) H.
  destruct (rateBySource_spec o x Ho) as (r' & E & H1 & H2 & H3). rewrite E in H. injection H as ->.
  destruct H3 as [[_ ->]|(Hlt & [_ Hle] & _)]; [lia|].
  apply Z.le_trans with (tradeByTargetAmount (o_y o) o); [assumption|].
  assert (Hx : 0 < x). { apply (by_source_pos_input o x Ho). destruct Ho. lia. }
  pose proof (by_source_never_overpays o x Ho ltac:(lia)) as HO.
  pose proof (by_target_range (o_y o) o) as [_ Hmax].
  pose proof Ho as (Hy & _ & HA & HB).
  pose proof (dA_nonneg o Ho) as PA. pose proof (dB_nonneg o Ho) as PB.
  assert (KEY : deliverable (denoted (o_A o)) (denoted (o_B o)) (o_y o) (o_z o) (o_y o) /\
     (exact_in (fix48 (denoted (o_A o))) (fix48 (denoted (o_B o))) (inject_Z (o_y o)) (inject_Z (o_z o)) (inject_Z (o_y o)) <= inject_Z x)%Q).
  { assert (HO' : (inject_Z (o_y o) <= exact_out (fix48 (denoted (o_A o))) (fix48 (denoted (o_B o))) (inject_Z (o_y o)) (inject_Z (o_z o)) (inject_Z x))%Q).
    { eapply Qle_trans; [|exact HO]. rewrite <- Zle_Qle. lia. }
    assert (HO2 : (inject_Z (o_y o + 1) <= exact_out (fix48 (denoted (o_A o))) (fix48 (denoted (o_B o))) (inject_Z (o_y o)) (inject_Z (o_z o)) (inject_Z x))%Q).
    { eapply Qle_trans; [|exact HO]. rewrite <- Zle_Qle. lia. }
    unfold deliverable.
    set (A := denoted (o_A o)) in *. set (B := denoted (o_B o)) in *.
    destruct Hf as [(E0 & HB0 & Hb)|(P & HTT & HS)].
    - rewrite E0 in *. split; [left; lia|]. rewrite exact_out_A0 in HO'. rewrite exact_in_A0 by lia.
      apply inj_div_le_inv in HO'; [|reflexivity]. apply inj_div_ge; [apply Z.mul_pos_pos; assumption|assumption].
    - set (T := o_y o * A + o_z o * B) in *.
      set (s := o_z o * ONE * (o_z o * ONE)) in *.
      assert (Hs : 0 < s) by (subst s; assert (0 < o_z o * ONE) by (apply Z.mul_pos_pos; [assumption|reflexivity]); apply Z.mul_pos_pos; assumption).
      assert (0 <= A * x * T) by (repeat (apply Z.mul_nonneg_nonneg; try lia)).
      rewrite exact_out_A in HO' by (fold T s; lia). fold T s in HO'.
      apply inj_div_le_inv in HO'; [|lia].
      set (y := o_y o) in *.
      assert (G : y * s <= x * T * (T - A * y)).
      { replace (x * T * (T - A * y)) with (x * T * T - y * (A * x * T)) by ring.
        replace (y * (A * x * T + s)) with (y * (A * x * T) + y * s) in HO' by ring. lia. }
      assert (D : A * y < T).
      { destruct (Z.lt_ge_cases (A * y) T); [assumption|].
        assert (A * y = T). { subst T. assert (0 <= o_z o * B) by (apply Z.mul_nonneg_nonneg; lia). lia. }
        rewrite exact_out_A in HO2 by (fold T s; lia). fold T s in HO2.
        apply inj_div_le_inv in HO2; [|lia].
        replace (x * T * T) with (x * T * (A * y)) in HO2 by (f_equal; assumption).
        replace (x * T * (A * y)) with (y * (A * x * T)) in HO2 by ring.
        assert (0 <= y * s) by (apply Z.mul_nonneg_nonneg; lia).
        replace ((y + 1) * (A * x * T + s)) with (y * (A * x * T) + y * s + (A * x * T + s)) in HO2 by ring. lia. }
      split; [right; lia|].
      assert (0 <= A * y) by (apply Z.mul_nonneg_nonneg; lia).
      assert (0 < T * (T - A * y)) by (apply Z.mul_pos_pos; lia).
      rewrite exact_in_A by (fold T; lia). fold T s. apply inj_div_ge; [assumption|]. lia. }
  destruct KEY as [HD HE].
  set (q := exact_in _ _ _ _ (inject_Z (o_y o))) in *.
  pose proof (is_ceil_exists q) as Hq.
  assert (Qx : Qround.Qceiling q <= x).
  { destruct Hq as [Hq1 _]. assert ((inject_Z (Qround.Qceiling q - 1) < inject_Z x)%Q) by (eapply Qlt_le_trans; eassumption).
    rewrite <- Zlt_Qlt in H. lia. }
  destruct (Z.lt_ge_cases (Qround.Qceiling q) (2 ^ 128)) as [Hl|Hge].
  - rewrite (by_target_exact_ceil o (o_y o) (Qround.Qceiling q) Ho Hy Hf HD Hq Hl). assumption.
  - lia.
Qed.

Lemma best_total_by_source (sort : sorter) orders amount qs rates :
  (forall c l, Permutation (sort c l) l) -> orders <> [] ->
  Forall clamp_safe orders ->
  quotes_of amount orders rateBySourceAmount = Some qs ->
  matchBestRates amount orders (sort sortByMinRate qs) rateBySourceAmount equalizeBySourceAmount = Some rates ->
  sum_inputs rates <= amount /\
  ((forall r, In r rates -> 0 <= r_input r) ->
   forall acts, matchBySourceBest sort amount orders = Some acts -> total_in acts <= amount).
Proof.
  intros Hsort Hne Hsafe Eqs Er.
  assert (Hsq : sort sortByMinRate qs <> []).
  { intros G. destruct (quotes_of_spec _ _ _ _ Eqs) as [Hids _]. assert (Permutation [] qs) by (rewrite <- G; apply Hsort).
    apply Permutation_nil in H. rewrite H in Hids. cbn in Hids. destruct orders; [contradiction|discriminate]. }
  assert (S : sum_inputs rates <= amount).
  { destruct (bestRates_spec _ _ _ _ _ _ Er) as (os & used & tail & F1 & -> & _ & HS). apply HS; [|assumption].
    intros o x r Io E. apply (clamp_input_le o); [|assumption].
    rewrite Forall_forall in Hsafe. apply Hsafe.
    assert (Io' : In o (used ++ tail)) by (apply in_or_app; left; assumption).
    clear - F1 Io'. induction F1 as [|q o' l m H _ IH]; [destruct Io'|].
    destruct Io' as [->|Io']; [eapply nth_error_In; eassumption|apply IH; assumption]. }
  split; [assumption|]. intros Hn acts Ha. unfold matchBySourceBest in Ha. rewrite Eqs in Ha. cbn [bind] in Ha.
  unfold matchBest in Ha. rewrite Er in Ha. cbn [bind] in Ha. injection Ha as <-.
  eapply Z.le_trans; [apply total_in_best; assumption|assumption].
Qed.
