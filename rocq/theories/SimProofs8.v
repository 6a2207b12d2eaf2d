From Coq Require Import ZArith QArith Qabs List Bool Ascii String Lia Lqa.
From Verif Require Import TradeModel TradeProofs PairModel PairSpec PairProofs SimModel SimSpec SimProofs SimProofs2 SimProofs3 SimProofs4 SimProofs5 SimProofs6 SimProofs7.
Import ListNotations.
Local Open Scope list_scope.

(** ** C22 *)
Definition sold_amt (swap : bool) (r : route) : Q := if swap then Qabs (rt_input r) else Qabs (rt_output r).
Definition remaining (c : loop_ctx) (k : nat) (routes : list route) : Q :=
  qsum (fun r => match id_map (lc_apps c) (rt_index r) with Some i => if Nat.eqb i k then sold_amt (lc_swap c) r else 0 | None => 0 end) routes.
Lemma sold_amt_nonneg swap r : (0 <= sold_amt swap r)%Q.
Proof. unfold sold_amt. destruct swap; apply Qabs_nonneg. Qed.
Lemma qsum_nonneg {A} (f : A -> Q) l : (forall a, 0 <= f a)%Q -> (0 <= qsum f l)%Q.
Proof. intros H. induction l as [|a l IH]; cbn; [lra|]. specialize (H a). lra. Qed.
Lemma remaining_nonneg c k routes : (0 <= remaining c k routes)%Q.
Proof.
  apply qsum_nonneg. intros r. destruct (id_map _ _) as [i|]; [|lra]. destruct (Nat.eqb i k); [apply sold_amt_nonneg|lra].
Qed.
Lemma move_bounded c i r routes os os' ok : id_map (lc_apps c) (rt_index r) = Some i ->
  (forall k o, oget k os = Some o -> (remaining c k (r :: routes) <= so_y o)%Q /\ (so_y o <= so_yint o)%Q) ->
  move (lc_swap c) i (Qabs (rt_output r)) (Qabs (rt_input r)) os = (os', ok) ->
  forall k o, oget k os' = Some o -> (remaining c k routes <= so_y o)%Q /\ (so_y o <= so_yint o)%Q.
Proof.
  intros Ei Inv Em. 
  assert (Step : forall k, (remaining c k (r :: routes) == (if Nat.eqb i k then sold_amt (lc_swap c) r else 0) + remaining c k routes)%Q).
  { intros k. unfold remaining. cbn [qsum]. rewrite Ei. reflexivity. }
  assert (Inv0 : forall k o, oget k os = Some o -> (remaining c k routes <= so_y o)%Q /\ (so_y o <= so_yint o)%Q).
  { intros k o Ho. destruct (Inv k o Ho) as [A B]. rewrite Step in A. pose proof (sold_amt_nonneg (lc_swap c) r).
    split; [|assumption]. destruct (Nat.eqb i k); lra. }
  pose proof (sold_amt_nonneg (lc_swap c) r) as Sn.
  assert (Bn : (0 <= if lc_swap c then Qabs (rt_output r) else Qabs (rt_input r))%Q) by (destruct (lc_swap c); apply Qabs_nonneg).
  destruct (move_cases (lc_swap c) i (Qabs (rt_output r)) (Qabs (rt_input r)) os) as [[_ E]|(o0 & Eo & D)].
  - rewrite E in Em. injection Em as <- _. assumption.
  - cbv zeta in D. fold (sold_amt (lc_swap c) r) in D.
    assert (I1 : forall k o, oget k (oset i (set_y o0 (so_y o0 - sold_amt (lc_swap c) r)%Q) os) = Some o ->
        (remaining c k routes <= so_y o)%Q /\ (so_y o <= so_yint o)%Q).
    { intros k o. rewrite oget_oset. destruct (Nat.eq_dec k i) as [->|Hn]; [|apply Inv0].
      intros H. injection H as <-. cbn. destruct (Inv i o0 Eo) as [A B]. rewrite Step, Nat.eqb_refl in A. split; lra. }
    destruct D as [[_ E]|[(_ & _ & E)|(l & Hl & El & E)]]; rewrite E in Em; injection Em as <- _; try assumption.
    intros k o. rewrite oget_oset. destruct (Nat.eq_dec k (so_lid o0)) as [->|Hn]; [|apply I1].
    intros H. injection H as <-. destruct (credited_spec l (if lc_swap c then Qabs (rt_output r) else Qabs (rt_input r))) as (_ & _ & Y & B).
    split; [|exact B]. rewrite Y.
    destruct (Inv0 (so_lid o0) l El) as [A _]. lra.
Qed.
Lemma loop_bounded c ct routes os ts :
  (forall k o, oget k os = Some o -> (remaining c k routes <= so_y o)%Q /\ (so_y o <= so_yint o)%Q) ->
  bounded (fst (fst (route_loop c ct routes os ts))).
Proof.
  revert ct os ts. induction routes as [|r routes IH]; intros ct os ts Inv.
  - cbn. intros k o Ho. exact (Inv k o Ho).
  - assert (B0 : bounded os).
    { intros k o Ho. destruct (Inv k o Ho). pose proof (remaining_nonneg c k (r :: routes)). split; [lra|assumption]. }
    cbn [route_loop]. destruct (id_map _ _) as [i|] eqn:Ei; [|assumption].
    destruct (if lc_exec c then _ else _) as [os1 ok] eqn:E.
    assert (Inv1 : forall k o, oget k os1 = Some o -> (remaining c k routes <= so_y o)%Q /\ (so_y o <= so_yint o)%Q).
    { destruct (lc_exec c).
      - apply (move_bounded c i r routes os os1 ok Ei Inv E).
      - injection E as <- _. intros k o Ho. destruct (Inv k o Ho) as [A B]. split; [|assumption].
        assert (remaining c k routes <= remaining c k (r :: routes))%Q; [|lra]. unfold remaining at 2. cbn [qsum]. rewrite Ei.
        fold (remaining c k routes). pose proof (sold_amt_nonneg (lc_swap c) r). destruct (Nat.eqb i k); lra. }
    assert (B1 : bounded os1). { intros k o Ho. destruct (Inv1 k o Ho). pose proof (remaining_nonneg c k routes). split; [lra|assumption]. }
    destruct ok; cbn [negb]; [|assumption]. destruct (rec_price c); [|assumption]. apply IH. assumption.
Qed.
Lemma applicable_nodup s cp tkn use : well_keyed s -> NoDup (map so_id (applicable cp tkn use (orders s))).
Proof.
  intros [Hnd Hk]. unfold applicable. rewrite map_map.
  assert (G : forall l, incl l (orders s) -> NoDup (map fst l) -> forall P, NoDup (map (fun x => so_id (snd x)) (filter P l))).
  { induction l as [|[k o] l IH]; intros Hi Hn P; cbn; [constructor|]. inversion Hn as [|? ? A B]; subst.
    assert (Hi' : incl l (orders s)) by (intros x Hx; apply Hi; right; assumption).
    destruct (P (k, o)); [|apply IH; assumption]. cbn. constructor; [|apply IH; assumption].
    intros Hin. apply in_map_iff in Hin as ([k' o'] & E & Hin). apply filter_In in Hin as [Hin _]. cbn in E.
    destruct (Hk k o (Hi _ (or_introl eq_refl))) as [E1 _]. destruct (Hk k' o' (Hi' _ Hin)) as [E2 _].
    apply A. replace k with k' by congruence. apply in_map_iff. exists (k', o'). auto. }
  apply G; [apply incl_refl|assumption].
Qed.
Lemma trade_bounded e s tkn amt partial cp by_ execute lp la inpair use thr : router_bounded e -> well_keyed s -> bounded (orders s) ->
  bounded (orders (fst (trade e s tkn amt partial cp by_ execute lp la inpair use thr))).
Proof.
  intros Hr Hw Hb. destruct (trade_cases e s tkn amt partial cp by_ execute lp la inpair use thr) as [-> |E]; [assumption|].
  destruct E as (l & r0 & rs & price & lf & _ & _ & Er & _ & _ & os & ts & okl & El & D). cbv zeta in D, El.
  set (c := mkCtx _ _ _ _ _ _ _ _ _) in *.
  assert (Inv : forall k o, oget k (orders s) = Some o -> (remaining c k (r0 :: rs) <= so_y o)%Q /\ (so_y o <= so_yint o)%Q).
  { intros k o Ho. destruct (Hb k o Ho) as [B1 B2]. split; [|assumption].
    set (apps := applicable cp tkn use (orders s)) in *.
    assert (Ha : forall o, In o apps -> (0 < so_y o)%Q /\ (so_y o <= so_yint o)%Q).
    { intros o' Hin. destruct (applicable_spec s cp tkn use o' Hw Hin) as (A & B & _). apply eligible_spec in B. split; [tauto|]. apply (Hb _ _ A). }
    destruct (in_dec Nat.eq_dec k (map so_id apps)) as [Hin|Hnin].
    - apply in_map_iff in Hin as (o' & Ei & Hin). apply In_nth_error in Hin as [j Hj].
      destruct (applicable_spec s cp tkn use o' Hw (nth_error_In _ _ Hj)) as (A & _ & _). rewrite Ei in A. assert (o' = o) by congruence. subst o'.
      pose proof (Hr apps _ _ j o Ha Er Hj) as X. cbn [rq_by] in X.
      eapply Qle_trans; [|exact X]. apply Qle_lteq. right. apply qsum_eq. intros r _. change (lc_apps c) with apps.
      unfold id_map. destruct (nth_error apps (rt_index r)) as [o2|] eqn:E2; cbn [option_map].
      + destruct (Nat.eqb_spec (so_id o2) k) as [Ek|Ek].
        * assert (Ej : rt_index r = j).
          { pose proof (applicable_nodup s cp tkn use Hw) as Nd. fold apps in Nd. rewrite NoDup_nth_error in Nd. apply Nd.
            - rewrite map_length. apply nth_error_Some. congruence.
            - rewrite (map_nth_error so_id _ _ E2), (map_nth_error so_id _ _ Hj). congruence. }
          rewrite Ej, Nat.eqb_refl. unfold sold_amt, sold_of. cbn [c lc_swap]. destruct by_; cbn [swap_of]; [reflexivity|destruct (e_fast e); reflexivity].
        * destruct (Nat.eqb_spec (rt_index r) j) as [Ej|Ej]; [|reflexivity]. exfalso. apply Ek. rewrite Ej, Hj in E2. congruence.
      + destruct (Nat.eqb_spec (rt_index r) j) as [Ej|Ej]; [|reflexivity]. congruence.
    - eapply Qle_trans; [|exact B1]. apply Qle_lteq. right. unfold remaining. rewrite <- (qsum_zero (r0 :: rs)). apply qsum_eq. intros r _.
      change (lc_apps c) with apps. unfold id_map. destruct (nth_error apps (rt_index r)) as [o2|] eqn:E2; cbn [option_map]; [|reflexivity].
      destruct (Nat.eqb_spec (so_id o2) k) as [Ek|Ek]; [|reflexivity]. exfalso. apply Hnin. rewrite <- Ek. apply in_map. apply (nth_error_In _ _ E2). }
  pose proof (loop_bounded c 0 (r0 :: rs) (orders s) (trades s) Inv) as L. rewrite El in L. cbn [fst] in L.
  destruct D as [[_ ->]|(-> & ids & rp & Hi & Hp & ->)]; exact L.
Qed.
Lemma sell_order_bounded e tkn amt lo hi cp i1 i2 pm yi cid o : (0 <= amount_of amt)%Q ->
  (pm = None \/ forall y l h m v, e_yint_marg e y l h m = Some v -> (y <= v)%Q) ->
  sell_order e tkn amt lo hi cp i1 i2 pm yi cid = Some o -> (0 <= so_y o)%Q /\ (so_y o <= so_yint o)%Q.
Proof.
  intros Ha Hm H. unfold sell_order in H. fold (amount_of amt) in H.
  destruct pm as [m|], yi as [c|]; try discriminate; destruct lo as [lo|], hi as [hi|]; cbv [bind] in H; try discriminate; try destruct (Qle_bool lo hi);
  repeat match type of H with
  | context [if Qlt_bool ?a ?b then _ else _] => let Eb := fresh "Eb" in destruct (Qlt_bool_dec a b) as [[? Eb]|[? Eb]]; rewrite Eb in H; cbv beta iota in H; try discriminate
  | context [match e_yint_marg ?e ?a ?b ?c ?d with _ => _ end] => let E := fresh "Ey" in destruct (e_yint_marg e a b c d) eqn:E; try discriminate
  end; injection H as <-; cbn; (split; [assumption|]); try apply Qle_refl; try assumption;
  (destruct Hm as [Hm|Hm]; [discriminate|]; eapply Hm; eassumption).
Qed.
(** what an operation may do in C22 *)
Lemma oget_odel_sub d x k o : NoDup (map fst d) -> oget k (odel x d) = Some o -> oget k d = Some o.
Proof.
  intros Hnd E. destruct (Nat.eq_dec k x) as [->|Hn].
  - rewrite oget_odel_same in E by assumption. discriminate.
  - rewrite oget_odel_other in E by assumption. assumption.
Qed.
Lemma delete_sub s i k o : well_keyed s -> oget k (orders (fst (delete_order s i))) = Some o -> oget k (orders s) = Some o.
Proof. intros Hw H. apply oget_In, delete_In in H. apply In_oget; [apply Hw|assumption]. Qed.
Lemma convert_none cp t : convert_price cp None t = Some None.
Proof. reflexivity. Qed.
Lemma step_bounded e s o : e_exclude_future e = true -> router_bounded e -> well_keyed s -> legit e o -> bounded (orders s) ->
  bounded (orders (step e s o)).
Proof.
  intros He Hr Hw Hl Hb. destruct o as [a|tkn amt ps pe pm pr oid lid|i|a|a]; cbn [step].
  - destruct Hl as (H1 & H2 & Hm). destruct (add_cases e s a) as [->|[->|H]]; [assumption|assumption|].
    destruct H as (cp & tkn2 & _ & _ & psm & pss & pse & pbs & pbe & pbm & o1 & C1 & C2 & C3 & C4 & C5 & C6 & E1 & D).
    assert (Hm1 : psm = None \/ forall y l h m v, e_yint_marg e y l h m = Some v -> (y <= v)%Q).
    { destruct Hm as [[Hm _]|Hm]; [left|right; assumption]. rewrite Hm in *. rewrite convert_none in *. congruence. }
    assert (Hm2 : pbm = None \/ forall y l h m v, e_yint_marg e y l h m = Some v -> (y <= v)%Q).
    { destruct Hm as [[_ Hm]|Hm]; [left|right; assumption]. rewrite Hm in *. rewrite convert_none in *. congruence. }
    pose proof (sell_order_bounded _ _ _ _ _ _ _ _ _ _ _ _ H1 Hm1 E1) as B1.
    destruct D as [[_ ->]|(o2 & E2 & ->)]; cbn [fst orders].
    + intros k o. rewrite oget_oset. destruct (Nat.eq_dec _ _); [intros G; injection G as <-; assumption|apply Hb].
    + pose proof (sell_order_bounded _ _ _ _ _ _ _ _ _ _ _ _ H2 Hm2 E2) as B2.
      intros k o. rewrite !oget_oset. destruct (Nat.eq_dec _ _); [intros G; injection G as <-; assumption|].
      destruct (Nat.eq_dec _ _); [intros G; injection G as <-; assumption|apply Hb].
  - rewrite single_excluded by assumption. assumption.
  - intros k o Ho. apply (Hb k o). apply (delete_sub s i k o Hw Ho).
  - apply (proj1 (amm_ind e s a (fun r => bounded (orders (fst r))) Hb (fun tkn amt cp by_ use => trade_bounded e s tkn amt _ cp by_ _ _ _ _ use _ Hr Hw Hb))).
  - apply (proj2 (amm_ind e s a (fun r => bounded (orders (fst r))) Hb (fun tkn amt cp by_ use => trade_bounded e s tkn amt _ cp by_ _ _ _ _ use _ Hr Hw Hb))).
Qed.
Lemma run_bounded e ops k o : e_exclude_future e = true -> router_bounded e -> Forall (legit e) ops ->
  oget k (orders (run e init ops)) = Some o -> (0 <= so_y o)%Q /\ (so_y o <= so_yint o)%Q.
Proof.
  intros He Hr Hl. assert (G : forall ops s, Forall (legit e) ops -> well_keyed s -> bounded (orders s) -> bounded (orders (run e s ops))).
  { clear ops Hl k o. intros ops. induction ops as [|o ops IH]; intros s Hl Hw Hb; [assumption|]. inversion Hl; subst. cbn. apply IH; [assumption|apply step_well_keyed; assumption|apply step_bounded; assumption]. }
  apply (G ops init Hl init_well_keyed). intros ? ? H; discriminate H.
Qed.
