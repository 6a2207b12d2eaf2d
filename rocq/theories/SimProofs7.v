From Coq Require Import ZArith QArith Qabs List Bool Ascii String Lia Lqa.
From Verif Require Import TradeModel TradeProofs PairModel PairSpec PairProofs SimModel SimSpec SimProofs SimProofs2 SimProofs3 SimProofs4 SimProofs5 SimProofs6.
Import ListNotations.
Local Open Scope list_scope.

(** ** C21 *)
Lemma memb_In n l : memb n l = true -> In n l.
Proof. unfold memb. rewrite existsb_exists. intros (x & Hx & E). apply Nat.eqb_eq in E. subst. assumption. Qed.
Lemma applicable_spec s cp tkn use o : well_keyed s -> In o (applicable cp tkn use (orders s)) ->
  oget (so_id o) (orders s) = Some o /\ eligible cp tkn o = true /\ (forall u, use = Some u -> In (so_id o) u).
Proof.
  intros [Hnd Hk] Hin. unfold applicable in Hin. apply in_map_iff in Hin as ([k o'] & E & Hin). cbn in E. subst o'.
  apply filter_In in Hin as [Hin C]. cbn in C. apply andb_prop in C as [C1 C2]. apply memb_In in C1, C2.
  destruct (Hk k o Hin) as [<- _]. pose proof (In_oget _ _ _ Hnd Hin) as G. split; [assumption|]. split.
  - unfold order_ids in C1. apply in_map_iff in C1 as ([k' o'] & E & H'). cbn in E. subst k'. apply filter_In in H' as [H' El]. cbn in El.
    apply (In_oget _ _ _ Hnd) in H'. congruence.
  - intros u ->. assumption.
Qed.
Lemma eligible_spec cp tkn o : eligible cp tkn o = true ->
  (so_pair_name o = pair_iso cp \/ so_pair_name o = pair_iso (reverse cp)) /\ so_tkn o = tkn /\ so_disabled o = false /\ (0 < so_y o)%Q.
Proof.
  unfold eligible. intros H. apply andb_prop in H as [H H4]. apply andb_prop in H as [H H3]. apply andb_prop in H as [H1 H2].
  apply Qlt_bool_iff in H4. apply negb_true_iff in H3. apply String.eqb_eq in H2. apply orb_prop in H1 as [H1|H1]; apply String.eqb_eq in H1; auto.
Qed.
Lemma id_map_spec s cp tkn use j i : well_keyed s -> id_map (applicable cp tkn use (orders s)) j = Some i ->
  exists o, oget i (orders s) = Some o /\ so_id o = i /\ nth_error (applicable cp tkn use (orders s)) j = Some o /\
    eligible cp tkn o = true /\ (forall u, use = Some u -> In i u).
Proof.
  unfold id_map. intros Hw H. destruct (nth_error _ j) as [o|] eqn:E; [|discriminate]. injection H as <-. exists o.
  destruct (applicable_spec s cp tkn use o Hw (nth_error_In _ _ E)) as (A & B & C). auto.
Qed.
Lemma map_ids_In apps routes ids i : map_ids apps routes = Some ids -> In i ids -> exists r, In r routes /\ id_map apps (rt_index r) = Some i.
Proof.
  revert ids. induction routes as [|r routes IH]; intros ids H Hi; cbn in H; [injection H as <-; destruct Hi|].
  destruct (id_map apps (rt_index r)) as [i0|] eqn:E; [|discriminate]. cbn in H. destruct (map_ids apps routes) as [ids'|]; [|discriminate].
  injection H as <-. destruct Hi as [<-|Hi]; [exists r; cbn; auto|]. destruct (IH ids' eq_refl Hi) as (r' & A & B). exists r'. cbn. auto.
Qed.
Lemma map_ids_In2 apps routes ids r i : map_ids apps routes = Some ids -> In r routes -> id_map apps (rt_index r) = Some i -> In i ids.
Proof.
  revert ids. induction routes as [|r0 routes IH]; intros ids H Hr Hi; cbn in H; [destruct Hr|].
  destruct (id_map apps (rt_index r0)) as [i0|] eqn:E; [|discriminate]. cbn in H. destruct (map_ids apps routes) as [ids'|]; [|discriminate].
  injection H as <-. destruct Hr as [->|Hr]; [left; congruence|right; apply (IH ids' eq_refl Hr Hi)].
Qed.
Lemma trade_touch e s tkn amt partial cp by_ execute lp la inpair use thr s' ok k : well_keyed s ->
  trade e s tkn amt partial cp by_ execute lp la inpair use thr = (s', ok) ->
  oget k (orders s') <> oget k (orders s) ->
  exists i o, oget i (orders s) = Some o /\ (k = i \/ k = so_lid o) /\
    eligible cp tkn o = true /\ (forall u, use = Some u -> In i u) /\
    (ok = true -> exists t, log_of (uid_aggr (numtrades s)) s' = Some t /\ t_exec t = true /\ In i (t_routeix t)).
Proof.
  intros Hw H Hne.
  destruct (trade_cases e s tkn amt partial cp by_ execute lp la inpair use thr) as [E|E]; [rewrite E in H; injection H as <- <-; contradiction|].
  destruct E as (l & r0 & rs & price & lf & _ & _ & _ & _ & _ & os & ts & okl & El & D). cbv zeta in D, El.
  set (c := mkCtx _ _ _ _ _ _ _ _ _) in *. set (routes := r0 :: rs) in *.
  assert (Hos : orders s' = os). { destruct D as [[_ D]|(_ & ids & rp & _ & _ & D)]; rewrite D in H; injection H as <- _; reflexivity. }
  assert (X : exists r i, In r routes /\ id_map (lc_apps c) (rt_index r) = Some i /\ (i = k \/ exists o, oget i (orders s) = Some o /\ so_lid o = k)).
  { (* decide by searching the routes *)
    assert (Dc : forall rts, (exists r i, In r rts /\ id_map (lc_apps c) (rt_index r) = Some i /\ (i = k \/ exists o, oget i (orders s) = Some o /\ so_lid o = k)) \/
       (forall r i, In r rts -> id_map (lc_apps c) (rt_index r) = Some i -> i <> k /\ forall o, oget i (orders s) = Some o -> so_lid o <> k)).
    { induction rts as [|r rts IH]; [right; intros ? ? []|].
      destruct IH as [(r' & i' & A & B)|IH]; [left; exists r', i'; split; [right; assumption|assumption]|].
      destruct (id_map (lc_apps c) (rt_index r)) as [i|] eqn:Ei.
      - destruct (Nat.eq_dec i k) as [->|Hn]; [left; exists r, k; split; [left; reflexivity|auto]|].
        destruct (oget i (orders s)) as [o|] eqn:Eo.
        + destruct (Nat.eq_dec (so_lid o) k) as [El'|Hl]; [left; exists r, i; split; [left; reflexivity|]; split; [assumption|]; right; eauto|].
          right. intros r' i' [<-|Hr] Hi; [|apply (IH r' i' Hr Hi)]. assert (i' = i) by congruence. subst i'. split; [assumption|].
          intros o' Ho'. congruence.
        + right. intros r' i' [<-|Hr] Hi; [|apply (IH r' i' Hr Hi)]. assert (i' = i) by congruence. subst i'. split; [assumption|].
          intros o' Ho'. congruence.
      - right. intros r' i' [<-|Hr] Hi; [congruence|apply (IH r' i' Hr Hi)]. }
    destruct (Dc routes) as [X|X]; [assumption|]. exfalso. apply Hne.
    pose proof (loop_frame c 0 routes (orders s) (trades s) k X) as F. rewrite El in F. cbn in F. rewrite Hos. assumption. }
  destruct X as (r & i & Hr & Hi & Hk).
  destruct (id_map_spec s cp tkn use _ _ Hw Hi) as (o & Eo & _ & _ & Eg & Eu).
  exists i, o. split; [assumption|]. split.
  { destruct Hk as [->|(o' & Eo' & Hl)]; [auto|]. right. congruence. }
  split; [assumption|]. split; [assumption|]. intros ->.
  destruct D as [[_ D]|(_ & ids & rp & Hids & _ & D)]; rewrite D in H; [discriminate|]. injection H as <-.
  eexists. split; [unfold log_of; cbn [trades]; change (dget String.eqb) with tget; rewrite tget_tset; destruct (string_dec _ _); [reflexivity|contradiction]|].
  cbn [t_exec t_routeix]. split.
  - destruct (match lf with Some true => false | _ => execute end) eqn:Ex; [reflexivity|]. exfalso. apply Hne.
    pose proof (loop_no_exec c 0 routes (orders s) (trades s) eq_refl) as N. rewrite El in N. cbn in N. subst os. reflexivity.
  - apply (map_ids_In2 _ _ _ _ _ Hids Hr Hi).
Qed.
Lemma buys_touch e s a cp s' ok k : well_keyed s -> (0 <= tr_amt a)%Q -> get_carbon_pair e (tr_pair a) = Some cp ->
  amm_buys e s a = (s', ok) -> oget k (orders s') <> oget k (orders s) ->
  exists i o, oget i (orders s) = Some o /\ (k = i \/ k = so_lid o) /\
    (so_pair_name o = pair_iso cp \/ so_pair_name o = pair_iso (reverse cp)) /\ other cp (tr_tkn a) = Some (so_tkn o) /\
    so_disabled o = false /\ (0 < so_y o)%Q /\
    (forall u, tr_use_positions a = Some u -> In i u) /\
    (ok = true -> exists t, log_of (uid_aggr (numtrades s)) s' = Some t /\ t_exec t = true /\ In i (t_routeix t)).
Proof.
  intros Hw Ha Ecp H Hne. destruct (amm_buys_nonneg e s a cp Ha Ecp) as [E|(tkn & Eo & E)]; rewrite E in H; [injection H as <- <-; contradiction|].
  destruct (trade_touch _ _ _ _ _ _ _ _ _ _ _ _ _ _ _ _ Hw H Hne) as (i & o & Eoi & Hk & Eg & Eu & Hok).
  apply eligible_spec in Eg as (P & <- & D & Y). exists i, o. auto 10.
Qed.
Lemma sells_touch e s a cp s' ok k : well_keyed s -> (0 <= tr_amt a)%Q -> get_carbon_pair e (tr_pair a) = Some cp ->
  amm_sells e s a = (s', ok) -> oget k (orders s') <> oget k (orders s) ->
  exists i o, oget i (orders s) = Some o /\ (k = i \/ k = so_lid o) /\
    (so_pair_name o = pair_iso cp \/ so_pair_name o = pair_iso (reverse cp)) /\ so_tkn o = tr_tkn a /\
    so_disabled o = false /\ (0 < so_y o)%Q /\
    (forall u, tr_use_positions a = Some u -> In i u) /\
    (ok = true -> exists t, log_of (uid_aggr (numtrades s)) s' = Some t /\ t_exec t = true /\ In i (t_routeix t)).
Proof.
  intros Hw Ha Ecp H Hne. destruct (amm_sells_nonneg e s a cp Ha Ecp) as [E|E]; rewrite E in H; [injection H as <- <-; contradiction|].
  destruct (trade_touch _ _ _ _ _ _ _ _ _ _ _ _ _ _ _ _ Hw H Hne) as (i & o & Eoi & Hk & Eg & Eu & Hok).
  apply eligible_spec in Eg as (P & T & D & Y). exists i, o. auto 10.
Qed.

(** ** C20 *)
Lemma amm_success e s a r : r = amm_buys e s a \/ r = amm_sells e s a -> snd r = true ->
  exists tkn cp by_ t recs, trade_result e s tkn cp by_ (tr_execute a) (fst r) t recs.
Proof.
  intros Hr Hok.
  destruct (amm_ind e s a (fun r => snd r = true -> exists tkn cp by_ t recs, trade_result e s tkn cp by_ (tr_execute a) (fst r) t recs)) as [A B].
  - discriminate.
  - intros. destruct (trade _ _ _ _ _ _ _ _ _ _ _ _ _) as [s' ok] eqn:E. cbn in H. subst ok. cbn [fst].
    destruct (trade_success _ _ _ _ _ _ _ _ _ _ _ _ _ _ E) as (t & recs & R). exists tkn, cp, by_, t, recs. assumption.
  - destruct Hr as [-> | ->]; auto.
Qed.
Lemma balances e s a r : r = amm_buys e s a \/ r = amm_sells e s a -> snd r = true ->
  exists t recs, log_of (uid_aggr (numtrades s)) (fst r) = Some t /\ route_records (fst r) (numtrades s) recs /\
    recs <> [] /\ List.concat (map t_routeix recs) = t_routeix t /\
    (forall x, In x recs -> t_exec x = t_exec t /\ t_tkn1 x = t_tkn1 t /\ t_tkn2 x = t_tkn2 t /\ exists i, t_routeix x = [i]) /\
    (t_exec t = true -> map fst (orders (fst r)) = map fst (orders s) /\
       forall k o, oget k (orders s) = Some o -> exists o', oget k (orders (fst r)) = Some o' /\
         same_terms o o' /\ (so_yint o <= so_yint o')%Q /\
         (so_yint o' = so_yint o \/ (so_yint o' <= so_y o + qsum (bought_for (orders s) k) recs)%Q) /\
         (so_y o' == so_y o - qsum (sold_by k) recs + qsum (bought_for (orders s) k) recs)%Q).
Proof.
  intros Hr Hok. destruct (amm_success e s a r Hr Hok) as (tkn & cp & by_ & t & recs & R). destruct R as [_ _ R1 _ _ _ T1 T2 R2 R3 R4 _ R5 R6]. exists t, recs.
  split; [assumption|]. split; [assumption|]. split; [apply R3|]. split; [apply R3|]. split.
  - intros x Hx. rewrite T1, T2. apply R4. assumption.
  - intros Ex. split; [assumption|]. apply R5. assumption.
Qed.

Lemma qsum_add {A} (f g : A -> Q) l : (qsum (fun a => f a + g a) l == qsum f l + qsum g l)%Q.
Proof. induction l as [|a l IH]; cbn; [ring|]. rewrite IH. ring. Qed.
Lemma qsum_opp {A} (f : A -> Q) l : (qsum (fun a => - f a) l == - qsum f l)%Q.
Proof. induction l as [|a l IH]; cbn; [ring|]. rewrite IH. ring. Qed.
Lemma qsum_zero {A} (l : list A) : (qsum (fun _ => 0) l == 0)%Q.
Proof. induction l as [|a l IH]; cbn; [reflexivity|]. rewrite IH. reflexivity. Qed.
Lemma qsum_eq {A} (f g : A -> Q) l : (forall a, In a l -> f a == g a)%Q -> (qsum f l == qsum g l)%Q.
Proof. induction l as [|a l IH]; intros H; cbn; [reflexivity|]. rewrite H, IH; [reflexivity| |left; reflexivity]. intros b Hb. apply H. right. assumption. Qed.
Lemma qsum_swap {A B} (f : A -> B -> Q) la lb : (qsum (fun a => qsum (f a) lb) la == qsum (fun b => qsum (fun a => f a b) la) lb)%Q.
Proof.
  induction la as [|a la IH]; cbn.
  - rewrite qsum_zero. reflexivity.
  - rewrite IH, <- qsum_add. reflexivity.
Qed.
Lemma qsum_single os i (F : sorder -> Q) : NoDup (map fst os) ->
  (qsum (fun ko => if Nat.eq_dec i (fst ko) then F (snd ko) else 0) os == match oget i os with Some o => F o | None => 0 end)%Q.
Proof.
  intros Hnd. unfold oget. induction os as [|[k o] os IH]; cbn -[Nat.eqb]; [reflexivity|].
  inversion Hnd as [|? ? Hni Hnd']; subst. rewrite (IH Hnd').
  destruct (Nat.eq_dec i k) as [->|Hn].
  - rewrite Nat.eqb_refl. assert (E : dget Nat.eqb k os = None) by (apply (proj2 (oget_None k os)); assumption). rewrite E. ring.
  - rewrite (proj2 (Nat.eqb_neq i k) Hn). ring.
Qed.
(** sums over the two books *)
Lemma book_total_diff u os os' F : NoDup (map fst os) -> map fst os' = map fst os ->
  (forall k o, oget k os = Some o -> exists o', oget k os' = Some o' /\ so_tkn o' = so_tkn o /\ (so_y o' == so_y o + F k)%Q) ->
  (book_total u os' == book_total u os + qsum (fun ko => if string_dec (so_tkn (snd ko)) u then F (fst ko) else 0) os)%Q.
Proof.
  unfold book_total. revert os'. induction os as [|[k o] os IH]; intros [|[k' o'] os'] Hnd Hk H; cbn in Hk; try discriminate; [cbn; ring|].
  injection Hk as -> Hk. inversion Hnd as [|? ? Hni Hnd']; subst. cbn [qsum fst snd].
  rewrite (IH os' Hnd' Hk).
  - destruct (H k o) as (o2 & E & T & Y). { unfold oget. cbn -[Nat.eqb]. rewrite Nat.eqb_refl. reflexivity. }
    unfold oget in E. cbn -[Nat.eqb] in E. rewrite Nat.eqb_refl in E. injection E as <-. rewrite T.
    destruct (string_dec (so_tkn o) u); [rewrite Y|]; ring.
  - intros k2 o2 E2. assert (Hn : k2 <> k). { intros ->. apply Hni. apply oget_Some_In. eauto. }
    destruct (H k2 o2) as (o3 & E3 & G). { unfold oget. cbn -[Nat.eqb]. rewrite (proj2 (Nat.eqb_neq k2 k) Hn). assumption. }
    unfold oget in E3. cbn -[Nat.eqb] in E3. rewrite (proj2 (Nat.eqb_neq k2 k) Hn) in E3. eauto.
Qed.
Lemma totals e s a r t : well_keyed s -> r = amm_buys e s a \/ r = amm_sells e s a -> snd r = true ->
  log_of (uid_aggr (numtrades s)) (fst r) = Some t -> t_exec t = true ->
  exists recs, route_records (fst r) (numtrades s) recs /\ recs <> [] /\ List.concat (map t_routeix recs) = t_routeix t /\
   (forall x, In x recs -> t_exec x = t_exec t /\ t_tkn1 x = t_tkn1 t /\ t_tkn2 x = t_tkn2 t /\ exists i, t_routeix x = [i]) /\
   forall u, (book_total u (orders (fst r)) == book_total u (orders s)
      - (if string_dec (t_tkn1 t) u then qsum t_amt1 recs else 0) + qsum (credited_to (orders s) u) recs)%Q.
Proof.
  intros Hw Hr Hok Ht Ex. destruct (balances e s a r Hr Hok) as (t' & recs & Ht' & Rr & Ne & Cc & Each & B).
  assert (t' = t) by congruence. subst t'. exists recs. split; [assumption|]. split; [assumption|]. split; [assumption|]. split; [assumption|]. intros u.
  destruct (B Ex) as [K Y]. pose proof (proj1 Hw) as Hnd.
  rewrite (book_total_diff u (orders s) (orders (fst r)) (fun k => - qsum (sold_by k) recs + qsum (bought_for (orders s) k) recs)%Q Hnd K).
  2:{ intros k o Ho. destruct (Y k o Ho) as (o' & E' & (_ & _ & T & _) & _ & _ & G). exists o'. split; [assumption|]. split; [assumption|]. rewrite G. ring. }
  assert (Elig : forall i, In i (t_routeix t) -> exists o, oget i (orders s) = Some o /\ so_tkn o = t_tkn1 t).
  { intros i Hi. 
    destruct (amm_ind e s a (fun r => snd r = true -> forall t, log_of (uid_aggr (numtrades s)) (fst r) = Some t -> In i (t_routeix t) ->
       exists o, oget i (orders s) = Some o /\ so_tkn o = t_tkn1 t)) as [A1 A2].
    - discriminate.
    - intros tkn amt cp by_ use Hok' t0 Ht0 Hi0.
      destruct (trade_cases e s tkn amt (tr_partial a) cp by_ (tr_execute a) (tr_limit_price a) (tr_limit_amt a) (tr_inpair a) use (tr_threshold a)) as [E|E]; [rewrite E in Hok'; discriminate|].
      destruct E as (l & r0 & rs & price & lf & _ & _ & _ & _ & _ & os & ts & okl & El & D). cbv zeta in D.
      destruct D as [[_ D]|(-> & ids & rp & Hids & _ & D)]; rewrite D in Hok', Ht0; [discriminate|].
      cbn [fst] in Ht0. unfold log_of in Ht0. cbn [trades] in Ht0. change (dget String.eqb) with tget in Ht0. rewrite tget_tset in Ht0.
      destruct (string_dec _ _); [|contradiction]. injection Ht0 as <-. cbn in Hi0. cbn [t_tkn1].
      destruct (map_ids_In _ _ _ _ Hids Hi0) as (r1 & _ & Hr1). destruct (id_map_spec s cp tkn use _ _ Hw Hr1) as (o & Eo & _ & _ & Eg & _).
      exists o. split; [assumption|]. apply eligible_spec in Eg. tauto.
    - destruct Hr as [-> | ->]; [apply (A1 Hok t Ht Hi)|apply (A2 Hok t Ht Hi)]. }
  assert (S1 : (qsum (fun ko => if string_dec (so_tkn (snd ko)) u then - qsum (sold_by (fst ko)) recs + qsum (bought_for (orders s) (fst ko)) recs else 0) (orders s)
     == - qsum (fun x => qsum (fun ko => if string_dec (so_tkn (snd ko)) u then sold_by (fst ko) x else 0) (orders s)) recs
        + qsum (fun x => qsum (fun ko => if string_dec (so_tkn (snd ko)) u then bought_for (orders s) (fst ko) x else 0) (orders s)) recs)%Q).
  { rewrite <- (qsum_swap (fun ko x => if string_dec (so_tkn (snd ko)) u then sold_by (fst ko) x else 0%Q) (orders s) recs).
    rewrite <- (qsum_swap (fun ko x => if string_dec (so_tkn (snd ko)) u then bought_for (orders s) (fst ko) x else 0%Q) (orders s) recs).
    rewrite <- qsum_opp, <- qsum_add. apply qsum_eq. intros [k o] _. cbn [fst snd].
    destruct (string_dec (so_tkn o) u); [reflexivity|]. rewrite !qsum_zero. ring. }
  rewrite S1. clear S1.
  assert (S2 : (qsum (fun x => qsum (fun ko => if string_dec (so_tkn (snd ko)) u then sold_by (fst ko) x else 0) (orders s)) recs
      == if string_dec (t_tkn1 t) u then qsum t_amt1 recs else 0)%Q).
  { transitivity (qsum (fun x => if string_dec (t_tkn1 t) u then t_amt1 x else 0) recs)%Q.
    2:{ destruct (string_dec _ _); [reflexivity|apply qsum_zero]. }
    apply qsum_eq. intros x Hx. destruct (Each x Hx) as (_ & _ & _ & i & Ei).
    assert (Hi : In i (t_routeix t)). { rewrite <- Cc. apply in_concat. exists (t_routeix x). split; [apply in_map; assumption|rewrite Ei; left; reflexivity]. }
    destruct (Elig i Hi) as (o & Eo & To).
    transitivity (qsum (fun ko => if Nat.eq_dec i (fst ko) then (if string_dec (so_tkn (snd ko)) u then t_amt1 x else 0) else 0) (orders s))%Q.
    - apply qsum_eq. intros [k o'] _. cbn [fst snd]. unfold sold_by. rewrite Ei.
      destruct (list_eq_dec Nat.eq_dec [i] [k]) as [E|E]; destruct (Nat.eq_dec i k); [reflexivity|exfalso; congruence|exfalso; congruence|]. destruct (string_dec _ _); reflexivity.
    - rewrite (qsum_single (orders s) i (fun o => if string_dec (so_tkn o) u then t_amt1 x else 0) Hnd), Eo, To. reflexivity. }
  assert (S3 : (qsum (fun x => qsum (fun ko => if string_dec (so_tkn (snd ko)) u then bought_for (orders s) (fst ko) x else 0) (orders s)) recs
      == qsum (credited_to (orders s) u) recs)%Q).
  { apply qsum_eq. intros x Hx. destruct (Each x Hx) as (_ & _ & _ & i & Ei). unfold bought_for, credited_to. rewrite Ei.
    destruct (oget i (orders s)) as [o|] eqn:Eo.
    - destruct (Nat.eq_dec (so_lid o) i) as [El|El].
      + transitivity (qsum (fun _ : nat * sorder => 0) (orders s))%Q; [|apply qsum_zero]. apply qsum_eq. intros [k o'] _. cbn [fst snd].
        destruct (string_dec (so_tkn o') u); [|reflexivity]. destruct (Nat.eq_dec i k); [reflexivity|]. destruct (Nat.eq_dec (so_lid o) k); [congruence|reflexivity].
      + transitivity (qsum (fun ko => if Nat.eq_dec (so_lid o) (fst ko) then (if string_dec (so_tkn (snd ko)) u then t_amt2 x else 0) else 0) (orders s))%Q.
        * apply qsum_eq. intros [k o'] _. cbn [fst snd]. destruct (string_dec (so_tkn o') u); [|destruct (Nat.eq_dec (so_lid o) k); reflexivity].
          destruct (Nat.eq_dec i k) as [->|]; [|reflexivity]. destruct (Nat.eq_dec (so_lid o) k); [contradiction|reflexivity].
        * rewrite (qsum_single (orders s) (so_lid o) (fun l => if string_dec (so_tkn l) u then t_amt2 x else 0) Hnd). reflexivity.
    - transitivity (qsum (fun _ : nat * sorder => 0) (orders s))%Q; [|apply qsum_zero]. apply qsum_eq. intros [k o'] _. cbn [fst snd].
      destruct (string_dec (so_tkn o') u); [|reflexivity]. destruct (Nat.eq_dec i k); reflexivity. }
  rewrite S2, S3. ring.
Qed.
