From Coq Require Import ZArith QArith Qabs List Bool Ascii String DecimalString DecimalNat Lia.
From Verif Require Import TradeModel TradeProofs PairModel PairSpec PairProofs SimModel SimSpec SimProofs SimProofs2.
Import ListNotations.
Local Open Scope list_scope.

(** ** From the public calls to [trade] *)
Lemma buys_body_cases e s a :
  amm_buys_body e s a = (s, false) \/
  exists cp tkn, get_carbon_pair e (tr_pair a) = Some cp /\ other cp (tr_tkn a) = Some tkn /\
    amm_buys_body e s a = trade e s tkn (tr_amt a) (tr_partial a) cp BySource (tr_execute a) (tr_limit_price a) (tr_limit_amt a)
             (tr_inpair a) (tr_use_positions a) (tr_threshold a).
Proof.
  unfold amm_buys_body. destruct (get_carbon_pair e (tr_pair a)) as [cp|]; [|tauto].
  destruct (negb _); [tauto|]. destruct (other cp (tr_tkn a)) as [tkn|] eqn:E; [|tauto].
  right. exists cp, tkn. auto.
Qed.
Lemma sells_body_cases e s a :
  amm_sells_body e s a = (s, false) \/
  exists cp, get_carbon_pair e (tr_pair a) = Some cp /\
    amm_sells_body e s a = trade e s (tr_tkn a) (- tr_amt a)%Q (tr_partial a) cp ByTarget (tr_execute a) (tr_limit_price a) (tr_limit_amt a)
           (tr_inpair a) (tr_use_positions a) (tr_threshold a).
Proof.
  unfold amm_sells_body. destruct (get_carbon_pair e (tr_pair a)) as [cp|]; [|tauto].
  destruct (negb _); [tauto|]. right. exists cp. auto.
Qed.
(** a predicate that holds of the trivial failure and of every trade with the call's flags
    holds of both public calls *)
Lemma amm_ind e s a (P : state * bool -> Prop) :
  P (s, false) ->
  (forall tkn amt cp by_ use, P (trade e s tkn amt (tr_partial a) cp by_ (tr_execute a) (tr_limit_price a) (tr_limit_amt a) (tr_inpair a) use (tr_threshold a))) ->
  P (amm_buys e s a) /\ P (amm_sells e s a).
Proof.
  intros H0 H. unfold amm_buys, amm_sells. destruct (Qlt_bool (tr_amt a) 0).
  - split.
    + destruct (sells_body_cases e s (mirror a)) as [->|(cp & _ & ->)]; [assumption|]. apply H.
    + destruct (buys_body_cases e s (mirror a)) as [->|(cp & tkn & _ & _ & ->)]; [assumption|]. apply H.
  - split.
    + destruct (buys_body_cases e s a) as [->|(cp & tkn & _ & _ & ->)]; [assumption|]. apply H.
    + destruct (sells_body_cases e s a) as [->|(cp & _ & ->)]; [assumption|]. apply H.
Qed.

(** ** C16 *)
Lemma evolves_well_keyed s s' : well_keyed s -> evolves (orders s) (orders s') -> next_id s' = next_id s -> well_keyed s'.
Proof.
  intros [H1 H2] V Hn. assert (Hnd : NoDup (map fst (orders s'))) by (destruct V as [-> _]; assumption).
  split; [assumption|]. intros k o' Hin. apply (In_oget _ _ _ Hnd) in Hin.
  destruct (evolves_back _ _ _ _ V Hin) as (o & Eo & (Hid & _)). rewrite Hn, Hid. apply H2, oget_In. assumption.
Qed.
Lemma amm_evolves e s a : 
  (evolves (orders s) (orders (fst (amm_buys e s a))) /\ next_id (fst (amm_buys e s a)) = next_id s) /\
  (evolves (orders s) (orders (fst (amm_sells e s a))) /\ next_id (fst (amm_sells e s a)) = next_id s).
Proof.
  apply (amm_ind e s a (fun r => evolves (orders s) (orders (fst r)) /\ next_id (fst r) = next_id s)).
  - split; [apply evolves_refl|reflexivity].
  - intros. destruct (trade _ _ _ _ _ _ _ _ _ _ _ _ _) as [s' ok] eqn:E. apply (trade_evolves _ _ _ _ _ _ _ _ _ _ _ _ _ _ _ E).
Qed.
Lemma single_excluded e s tkn amt ps pe pm pr oid lid : e_exclude_future e = true ->
  add_replace_single_order e s tkn amt ps pe pm pr oid lid = (s, None).
Proof. intros H. unfold add_replace_single_order. rewrite H. reflexivity. Qed.
Lemma step_well_keyed e s o : e_exclude_future e = true -> well_keyed s -> well_keyed (step e s o).
Proof.
  intros He Hw. destruct o as [a|tkn amt ps pe pm pr oid lid|i|a|a]; cbn [step].
  - apply add_well_keyed. assumption.
  - rewrite single_excluded; assumption.
  - apply delete_well_keyed. assumption.
  - destruct (amm_evolves e s a) as [[V N] _]. apply (evolves_well_keyed s); assumption.
  - destruct (amm_evolves e s a) as [_ [V N]]. apply (evolves_well_keyed s); assumption.
Qed.
Lemma init_well_keyed : well_keyed init.
Proof. split; [constructor|intros ? ? []]. Qed.
Lemma run_well_keyed_from e ops s : e_exclude_future e = true -> well_keyed s -> well_keyed (run e s ops).
Proof.
  intros He. revert s. induction ops as [|o ops IH]; intros s Hw; [assumption|]. cbn. apply IH, step_well_keyed; assumption.
Qed.
Lemma run_well_keyed e ops : e_exclude_future e = true -> well_keyed (run e init ops).
Proof. intros He. apply run_well_keyed_from; [assumption|apply init_well_keyed]. Qed.

Lemma delete_keys_incl s i k : In k (map fst (orders (fst (delete_order s i)))) -> In k (map fst (orders s)).
Proof.
  unfold delete_order. destruct (oget i (orders s)) as [o|]; [|auto].
  destruct (Nat.eqb (so_lid o) i); [apply odel_keys_incl|]. destruct (so_lid o) as [|l]; [apply odel_keys_incl|].
  destruct (oget _ _); [|apply odel_keys_incl]. cbn. intros H. apply odel_keys_incl in H. apply odel_keys_incl in H. assumption.
Qed.
Lemma delete_In s i x : In x (orders (fst (delete_order s i))) -> In x (orders s).
Proof.
  unfold delete_order. destruct (oget i (orders s)) as [o|]; [|auto].
  destruct (Nat.eqb (so_lid o) i); [apply odel_In|]. destruct (so_lid o) as [|l]; [apply odel_In|].
  destruct (oget (S l) (odel i (orders s))); [|apply odel_In]. cbn. intros H. apply odel_In in H. apply odel_In in H. assumption.
Qed.
Lemma delete_next s i : next_id (fst (delete_order s i)) = next_id s.
Proof.
  unfold delete_order. destruct (oget i (orders s)) as [o|]; [|reflexivity].
  destruct (Nat.eqb (so_lid o) i); [reflexivity|]. destruct (so_lid o) as [|l]; [reflexivity|].
  destruct (oget _ _); reflexivity.
Qed.
Lemma add_next_and_keys e s a : well_keyed s ->
  (next_id s <= next_id (fst (add_strategy e s a)))%nat /\
  (exists new, orders (fst (add_strategy e s a)) = orders s ++ new /\ forall k o, In (k, o) new -> (next_id s <= k)%nat).
Proof.
  intros Hw. destruct (add_cases e s a) as [->|[->|H]]; cbn.
  - split; [lia|]. exists []. rewrite app_nil_r. split; [reflexivity|intros ? ? []].
  - split; [lia|]. exists []. rewrite app_nil_r. split; [reflexivity|intros ? ? []].
  - destruct H as (cp & tkn2 & _ & _ & psm & pss & pse & pbs & pbe & pbm & o1 & _ & _ & _ & _ & _ & _ & E1 & H).
    destruct H as [[_ ->]|(o2 & E2 & ->)]; cbn; (split; [lia|]).
    + destruct (add_insert1 s o1 (trades s) (numtrades s) Hw) as [-> _]. eexists. split; [reflexivity|].
      intros k o [H|[]]. injection H as <- _. lia.
    + destruct (add_insert2 s o1 o2 (trades s) (numtrades s) Hw) as [-> _]. eexists. split; [reflexivity|].
      intros k o [H|[H|[]]]; injection H as <- _; lia.
Qed.
Lemma step_next e s o : e_exclude_future e = true -> well_keyed s -> (next_id s <= next_id (step e s o))%nat.
Proof.
  intros He Hw. destruct o as [a|tkn amt ps pe pm pr oid lid|i|a|a]; cbn [step].
  - apply add_next_and_keys. assumption.
  - rewrite single_excluded by assumption. cbn. lia.
  - rewrite delete_next. lia.
  - destruct (amm_evolves e s a) as [[_ ->] _]. lia.
  - destruct (amm_evolves e s a) as [_ [_ ->]]. lia.
Qed.
Lemma step_absent e s o k : e_exclude_future e = true -> well_keyed s -> (k < next_id s)%nat ->
  oget k (orders s) = None -> oget k (orders (step e s o)) = None.
Proof.
  intros He Hw Hk Hn. apply oget_None. apply oget_None in Hn. intros Hin. apply Hn. clear Hn.
  destruct o as [a|tkn amt ps pe pm pr oid lid|i|a|a]; cbn [step] in Hin.
  - destruct (add_next_and_keys e s a Hw) as [_ (new & E & Hnew)]. rewrite E, map_app, in_app_iff in Hin.
    destruct Hin as [Hin|Hin]; [assumption|]. apply in_map_iff in Hin as ([k' o] & E' & Hin). cbn in E'. subst k'.
    apply Hnew in Hin. lia.
  - rewrite single_excluded in Hin by assumption. assumption.
  - apply delete_keys_incl in Hin. assumption.
  - destruct (amm_evolves e s a) as [[[K _] _] _]. rewrite K in Hin. assumption.
  - destruct (amm_evolves e s a) as [_ [[K _] _]]. rewrite K in Hin. assumption.
Qed.
Lemma run_absent e ops s k : e_exclude_future e = true -> well_keyed s -> (k < next_id s)%nat ->
  oget k (orders s) = None -> oget k (orders (run e s ops)) = None.
Proof.
  intros He. revert s. induction ops as [|o ops IH]; intros s Hw Hk Hn; [assumption|]. cbn. apply IH.
  - apply step_well_keyed; assumption.
  - pose proof (step_next e s o He Hw). lia.
  - apply step_absent; assumption.
Qed.

(** an order that is still there kept its terms, and its capacity did not shrink *)
Lemma oget_app_l k d1 d2 o : oget k d1 = Some o -> oget k (d1 ++ d2) = Some o.
Proof.
  unfold oget. induction d1 as [|[k' v'] d1 IH]; cbn; [discriminate|]. destruct (Nat.eqb k k'); auto.
Qed.
Lemma step_persist e s o k v v' : e_exclude_future e = true -> well_keyed s ->
  oget k (orders s) = Some v -> oget k (orders (step e s o)) = Some v' -> same_terms v v' /\ (so_yint v <= so_yint v')%Q.
Proof.
  intros He Hw H H'. destruct o as [a|tkn amt ps pe pm pr oid lid|i|a|a]; cbn [step] in H'.
  - destruct (add_next_and_keys e s a Hw) as [_ (new & E & _)]. rewrite E, (oget_app_l _ _ _ _ H) in H'. injection H' as <-.
    split; [apply same_terms_refl|apply Qle_refl].
  - rewrite single_excluded in H' by assumption. cbn in H'. rewrite H in H'. injection H' as <-.
    split; [apply same_terms_refl|apply Qle_refl].
  - assert (v' = v).
    { apply oget_In, delete_In in H'. apply In_oget in H'; [congruence|apply Hw]. }
    subst v'. split; [apply same_terms_refl|apply Qle_refl].
  - destruct (amm_evolves e s a) as [[[_ V] _] _]. destruct (V k v H) as (v2 & E & S2 & Y). assert (v2 = v') by congruence. subst. auto.
  - destruct (amm_evolves e s a) as [_ [[_ V] _]]. destruct (V k v H) as (v2 & E & S2 & Y). assert (v2 = v') by congruence. subst. auto.
Qed.
Lemma run_persist e ops s k v v' : e_exclude_future e = true -> well_keyed s ->
  oget k (orders s) = Some v -> oget k (orders (run e s ops)) = Some v' -> same_terms v v' /\ (so_yint v <= so_yint v')%Q.
Proof.
  intros He. revert s v. induction ops as [|o ops IH]; intros s v Hw H H'.
  - cbn in H'. assert (v' = v) by congruence. subst. split; [apply same_terms_refl|apply Qle_refl].
  - cbn in H'. destruct (oget k (orders (step e s o))) as [v1|] eqn:E1.
    + destruct (step_persist e s o k v v1 He Hw H E1) as [S1 Y1].
      destruct (IH (step e s o) v1 (step_well_keyed e s o He Hw) E1 H') as [S2 Y2].
      split; [apply (same_terms_trans _ _ _ S1 S2)|apply (Qle_trans _ _ _ Y1 Y2)].
    + exfalso. pose proof (step_next e s o He Hw). destruct (proj2 Hw k v (oget_In _ _ _ H)) as [_ Hk].
      assert (N : oget k (orders (run e (step e s o) ops)) = None); [|unfold run in *; congruence].
      apply run_absent; try assumption; [apply step_well_keyed; assumption|lia].
Qed.

(** a successful add *)
Lemma add_success e s a s' : well_keyed s -> add_strategy e s a = (s', true) ->
  exists o1 o2 cp, orders s' = orders s ++ [(next_id s, o1); (S (next_id s), o2)] /\
    next_id s' = S (S (next_id s)) /\ trades s' = trades s /\ numtrades s' = numtrades s /\
    so_id o1 = next_id s /\ so_lid o1 = S (next_id s) /\ so_id o2 = S (next_id s) /\ so_lid o2 = next_id s /\
    so_pair o1 = cp /\ so_pair o2 = cp /\ so_tkn o1 = ad_tkn a /\
    ((so_tkn o1 = tknb cp /\ so_tkn o2 = tknq cp) \/ (so_tkn o1 = tknq cp /\ so_tkn o2 = tknb cp)).
Proof.
  intros Hw H. destruct (add_cases e s a) as [E|[E|E]]; [congruence|congruence|].
  destruct E as (cp & tkn2 & _ & Eo & psm & pss & pse & pbs & pbe & pbm & o1 & _ & _ & _ & _ & _ & _ & E1 & D).
  destruct D as [[_ D]|(o2 & E2 & D)]; rewrite D in H; [discriminate|]. injection H as <- _. cbn.
  apply sell_order_fields in E1 as (I1 & L1 & T1 & P1). apply sell_order_fields in E2 as (I2 & L2 & T2 & P2).
  destruct (add_insert2 s o1 o2 (trades s) (numtrades s) Hw) as [-> _].
  exists o1, o2, cp. repeat (split; [first [reflexivity|assumption]|]).
  apply other_spec in Eo as [_ Eo]. rewrite T1, T2. assumption.
Qed.

(** partners: the invariant behind "strategies are symmetric" *)
Lemma evolves_paired s s' : paired s -> evolves (orders s) (orders s') -> paired s'.
Proof.
  intros H V k o' Ho'. destruct (evolves_back _ _ _ _ V Ho') as (o & Eo & (_ & Hl & Ht & Hp & _)).
  destruct (H k o Eo) as [H1 H2]. rewrite Hl. split; [assumption|]. intros l' El'.
  destruct (evolves_back _ _ _ _ V El') as (l & El & (_ & Hl' & Ht' & Hp' & _)).
  destruct (H2 l El) as (A & B & C). rewrite Hl', Hp', Hp, Ht, Ht'. auto.
Qed.
Lemma delete_paired s i : well_keyed s -> paired s -> paired (fst (delete_order s i)).
Proof.
  intros Hw H.
  assert (D : forall os', (forall k o, oget k os' = Some o -> oget k (orders s) = Some o) -> forall ts nt nid, paired (mkState os' ts nt nid)).
  { intros os' Hsub ts nt nid k o Ho. cbn in *. destruct (H k o (Hsub k o Ho)) as [H1 H2]. split; [assumption|]. intros l Hl. auto. }
  assert (D1 : forall d x k o, NoDup (map fst d) -> oget k (odel x d) = Some o -> oget k d = Some o).
  { intros d x k o Hnd E. destruct (Nat.eq_dec k x) as [->|Hn].
    - rewrite oget_odel_same in E by assumption. discriminate.
    - rewrite oget_odel_other in E by assumption. assumption. }
  destruct Hw as [Hnd _]. unfold delete_order. destruct (oget i (orders s)) as [o|]; [|assumption].
  destruct (Nat.eqb (so_lid o) i); [apply D; intros; eapply D1; eassumption|].
  destruct (so_lid o) as [|l]; [apply D; intros; eapply D1; eassumption|].
  destruct (oget _ _); cbn [fst]; [|apply D; intros; eapply D1; eassumption].
  apply D. intros k v E. apply D1 in E; [|apply odel_NoDup; assumption]. apply D1 in E; assumption.
Qed.
Lemma oget_app k d1 d2 : oget k (d1 ++ d2) = match oget k d1 with Some o => Some o | None => oget k d2 end.
Proof. unfold oget. induction d1 as [|[k' v'] d1 IH]; cbn; [reflexivity|]. destruct (Nat.eqb k k'); auto. Qed.
Lemma paired_append s ks ts nt nid : well_keyed s -> paired s ->
  (forall k o, oget k ks = Some o -> (next_id s <= k)%nat /\ (next_id s <= so_lid o)%nat /\ (so_lid o = S k \/ k = S (so_lid o)) /\
     forall l, oget (so_lid o) ks = Some l -> so_lid l = k /\ so_pair l = so_pair o /\ other (so_pair o) (so_tkn o) = Some (so_tkn l)) ->
  (forall k o, In (k, o) ks -> exists o', oget k ks = Some o') ->
  (forall k o, oget k (orders s) = Some o -> (so_lid o < next_id s)%nat) ->
  paired (mkState (orders s ++ ks) ts nt nid).
Proof.
  intros Hw Hp Hks _ Hlt k o. cbn. rewrite oget_app. intros E.
  assert (Hold : forall k, (next_id s <= k)%nat -> oget k (orders s) = None).
  { intros k' Hk'. apply oget_None, well_keyed_fresh; assumption. }
  destruct (oget k (orders s)) as [o0|] eqn:E0.
  - injection E as ->. destruct (Hp k o E0) as [H1 H2]. split; [assumption|]. intros l. rewrite oget_app.
    destruct (oget (so_lid o) (orders s)) as [l0|] eqn:El.
    + intros G. injection G as ->. auto.
    + intros G. destruct (Hks _ _ G) as (G1 & _). pose proof (Hlt k o E0). lia.
  - destruct (Hks k o E) as (K1 & K2 & K3 & K4). split; [assumption|]. intros l. rewrite oget_app, (Hold _ K2). apply K4.
Qed.
Definition links_issued (s : state) : Prop := forall k o, oget k (orders s) = Some o -> (so_lid o < next_id s)%nat.
Lemma add_paired e s a : well_keyed s -> links_issued s -> paired s ->
  paired (fst (add_strategy e s a)) /\ links_issued (fst (add_strategy e s a)).
Proof.
  intros Hw Hli Hp. destruct (add_cases e s a) as [->|[->|H]]; cbn [fst].
  - auto.
  - split; [exact Hp|]. intros k o Ho. cbn in *. pose proof (Hli k o Ho). lia.
  - destruct H as (cp & tkn2 & _ & Eo & psm & pss & pse & pbs & pbe & pbm & o1 & _ & _ & _ & _ & _ & _ & E1 & H).
    apply sell_order_fields in E1 as (I1 & L1 & T1 & P1).
    destruct (other_spec _ _ _ Eo) as [Eo2 _].
    destruct H as [[_ ->]|(o2 & E2 & ->)]; cbn [fst].
    + destruct (add_insert1 s o1 (trades s) (numtrades s) Hw) as [-> _]. split.
      * apply paired_append; try assumption.
        -- intros k o E. unfold oget in E. cbn in E. destruct (Nat.eqb_spec k (next_id s)) as [->|]; [|discriminate]. injection E as <-.
           rewrite L1. repeat split; try lia; unfold oget in H; cbn in H;
           destruct (Nat.eqb_spec (next_id s) (next_id s)); try congruence;
           replace (match next_id s with O => false | S m' => Nat.eqb (next_id s) m' end) with false in H; try discriminate;
           destruct (next_id s); try reflexivity; symmetry; apply Nat.eqb_neq; lia.
        -- intros k o [H|[]]. injection H as <- <-. exists o1. unfold oget. cbn. rewrite Nat.eqb_refl. reflexivity.
      * intros k o. cbn. rewrite oget_app. destruct (oget k (orders s)) as [o0|] eqn:E0.
        -- intros G. injection G as <-. pose proof (Hli k o0 E0). lia.
        -- unfold oget. cbn. destruct (Nat.eqb k (next_id s)); [|discriminate]. intros G. injection G as <-. lia.
    + apply sell_order_fields in E2 as (I2 & L2 & T2 & P2).
      destruct (add_insert2 s o1 o2 (trades s) (numtrades s) Hw) as [-> _].
      assert (G1 : oget (next_id s) [(next_id s, o1); (S (next_id s), o2)] = Some o1) by (unfold oget; cbn; rewrite Nat.eqb_refl; reflexivity).
      assert (G2 : oget (S (next_id s)) [(next_id s, o1); (S (next_id s), o2)] = Some o2).
      { unfold oget. cbn -[Nat.eqb]. rewrite (proj2 (Nat.eqb_neq (S (next_id s)) (next_id s))) by lia. rewrite Nat.eqb_refl. reflexivity. }
      assert (G3 : forall k o, oget k [(next_id s, o1); (S (next_id s), o2)] = Some o -> (k = next_id s /\ o = o1) \/ (k = S (next_id s) /\ o = o2)).
      { intros k o. unfold oget. cbn -[Nat.eqb]. destruct (Nat.eqb_spec k (next_id s)); [intros G; injection G as <-; auto|].
        destruct (Nat.eqb_spec k (S (next_id s))); [intros G; injection G as <-; auto|discriminate]. }
      split.
      * apply paired_append; try assumption.
        -- intros k o E. destruct (G3 k o E) as [[-> ->]|[-> ->]].
           ++ rewrite L1. repeat split; try lia; rewrite G2 in H; injection H as <-; [assumption|congruence|]. rewrite P1, T1, T2. assumption.
           ++ rewrite L2. repeat split; try lia; rewrite G1 in H; injection H as <-; [assumption|congruence|]. rewrite P2, T1, T2. assumption.
        -- intros k o Hin. apply In_oget in Hin; [eauto|]. cbn. repeat constructor; cbn; [|tauto]. intros [?|[]]. lia.
      * intros k o. cbn [orders next_id]. rewrite oget_app. destruct (oget k (orders s)) as [o0|] eqn:E0.
        -- intros G. injection G as <-. pose proof (Hli k o0 E0). lia.
        -- intros G. destruct (G3 k o G) as [[-> ->]|[-> ->]]; lia.
Qed.
Lemma step_paired e s o : e_exclude_future e = true -> well_keyed s -> links_issued s -> paired s ->
  paired (step e s o) /\ links_issued (step e s o).
Proof.
  intros He Hw Hli Hp.
  assert (Ev : forall s', evolves (orders s) (orders s') -> next_id s' = next_id s -> paired s' /\ links_issued s').
  { intros s' V N. split; [apply (evolves_paired s); assumption|]. intros k o' Ho'. destruct (evolves_back _ _ _ _ V Ho') as (o0 & Eo & (_ & Hl & _)).
    rewrite Hl, N. apply (Hli k o0 Eo). }
  destruct o as [a|tkn amt ps pe pm pr oid lid|i|a|a]; cbn [step].
  - apply add_paired; assumption.
  - rewrite single_excluded by assumption. auto.
  - split; [apply delete_paired; assumption|]. intros k o' Ho'. rewrite delete_next.
    apply oget_In, delete_In in Ho'. apply (Hli k o'). apply In_oget; [apply Hw|assumption].
  - destruct (amm_evolves e s a) as [[V N] _]. auto.
  - destruct (amm_evolves e s a) as [_ [V N]]. auto.
Qed.
Lemma run_paired e ops : e_exclude_future e = true -> paired (run e init ops).
Proof.
  intros He. assert (G : forall ops s, well_keyed s -> links_issued s -> paired s -> paired (run e s ops)).
  { clear ops. induction ops as [|o ops IH]; intros s Hw Hl Hp; [assumption|]. cbn.
    destruct (step_paired e s o He Hw Hl Hp). apply IH; try assumption. apply step_well_keyed; assumption. }
  apply G; [apply init_well_keyed| |]; intros k o H; discriminate H.
Qed.
