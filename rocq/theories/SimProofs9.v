From Coq Require Import ZArith QArith Qabs List Bool Ascii String Lia Lqa.
From Verif Require Import TradeModel TradeProofs PairModel PairSpec PairProofs SimModel SimSpec SimProofs SimProofs2 SimProofs3 SimProofs4 SimProofs5 SimProofs6 SimProofs7 SimProofs8.
Import ListNotations.
Local Open Scope list_scope.

(** ** C23 *)
Lemma trade_num e s tkn amt partial cp by_ execute lp la inpair use thr :
  let r := trade e s tkn amt partial cp by_ execute lp la inpair use thr in
  numtrades (fst r) = (if snd r then S (numtrades s) else numtrades s) /\
  forall m u, (m < numtrades s)%nat -> uid_of m u -> log_of u (fst r) = log_of u s.
Proof.
  cbv zeta. destruct (trade_cases e s tkn amt partial cp by_ execute lp la inpair use thr) as [-> |E]; [split; reflexivity|].
  destruct E as (l & r0 & rs & price & lf & _ & _ & _ & _ & _ & os & ts & okl & El & D). cbv zeta in D, El.
  set (c := mkCtx _ _ _ _ _ _ _ _ _) in *.
  assert (F : forall m u, (m < numtrades s)%nat -> uid_of m u -> tget u ts = tget u (trades s)).
  { intros m u Hm Hu. pose proof (loop_log_frame c 0 (r0 :: rs) (orders s) (trades s) u) as F. rewrite El in F. apply F.
    intros j _ E. subst u. assert (X : m = numtrades s); [|lia]. apply (uid_of_inj _ _ _ Hu). right. exists j. reflexivity. }
  destruct D as [[_ ->]|(-> & ids & rp & Hi & Hp & ->)]; cbn [fst snd numtrades]; (split; [reflexivity|]); intros m u Hm Hu; unfold log_of; cbn [trades];
  change (dget String.eqb) with tget.
  - apply (F m u Hm Hu).
  - rewrite tget_tset. destruct (string_dec u _) as [E|_]; [|apply (F m u Hm Hu)].
    exfalso. assert (X : m = numtrades s); [|lia]. apply (uid_of_inj _ _ _ Hu). left. assumption.
Qed.
Lemma amm_num e s a r : r = amm_buys e s a \/ r = amm_sells e s a ->
  numtrades (fst r) = (if snd r then S (numtrades s) else numtrades s) /\
  forall m u, (m < numtrades s)%nat -> uid_of m u -> log_of u (fst r) = log_of u s.
Proof.
  intros Hr. destruct (amm_ind e s a (fun r => numtrades (fst r) = (if snd r then S (numtrades s) else numtrades s) /\
    forall m u, (m < numtrades s)%nat -> uid_of m u -> log_of u (fst r) = log_of u s)) as [A B].
  - split; reflexivity.
  - intros. apply trade_num.
  - destruct Hr as [-> | ->]; assumption.
Qed.
Lemma other_ops_log e s o : (forall a, o <> OpBuy a /\ o <> OpSell a) -> trades (step e s o) = trades s /\ numtrades (step e s o) = numtrades s.
Proof.
  intros H. destruct o as [a|tkn amt ps pe pm pr oid lid|i|a|a]; cbn [step].
  - destruct (add_cases e s a) as [->|[->|E]]; [auto|auto|].
    destruct E as (cp & tkn2 & _ & _ & psm & pss & pse & pbs & pbe & pbm & o1 & _ & _ & _ & _ & _ & _ & _ & [[_ ->]|(o2 & _ & ->)]); auto.
  - unfold add_replace_single_order. destruct (e_exclude_future e); [auto|]. destruct (get_carbon_pair e pr) as [cp|]; [|auto].
    destruct (negb _); [auto|]. destruct oid as [i|]; cbn [fst snd];
    destruct (convert_price cp ps tkn) as [ps'|]; auto; destruct (convert_price cp pe tkn) as [pe'|]; auto;
    destruct (sell_order _ _ _ _ _ _ _ _ _ _ _); auto.
  - unfold delete_order. destruct (oget i (orders s)) as [o|]; [|auto].
    destruct (Nat.eqb (so_lid o) i); [auto|]. destruct (so_lid o) as [|l]; [auto|]. destruct (oget _ _); auto.
  - destruct (H a) as [N _]. contradiction.
  - destruct (H a) as [_ N]. contradiction.
Qed.
Lemma step_log e s o m u : (m < numtrades s)%nat -> uid_of m u -> log_of u (step e s o) = log_of u s /\ (numtrades s <= numtrades (step e s o))%nat.
Proof.
  intros Hm Hu. destruct o as [a|tkn amt ps pe pm pr oid lid|i|a|a]; try (destruct (other_ops_log e s) with (o := OpAdd a) as [E1 E2]; [intros ?; split; discriminate|unfold log_of; rewrite E1, E2; auto; fail]).
  - destruct (other_ops_log e s (OpSingle tkn amt ps pe pm pr oid lid)) as [E1 E2]; [intros ?; split; discriminate|]. unfold log_of. rewrite E1, E2. auto.
  - destruct (other_ops_log e s (OpDelete i)) as [E1 E2]; [intros ?; split; discriminate|]. unfold log_of. rewrite E1, E2. auto.
  - cbn [step]. destruct (amm_num e s a _ (or_introl eq_refl)) as [N L]. split; [apply (L m u Hm Hu)|]. rewrite N. destruct (snd _); lia.
  - cbn [step]. destruct (amm_num e s a _ (or_intror eq_refl)) as [N L]. split; [apply (L m u Hm Hu)|]. rewrite N. destruct (snd _); lia.
Qed.
Lemma run_log e ops s m u : (m < numtrades s)%nat -> uid_of m u -> log_of u (run e s ops) = log_of u s.
Proof.
  revert s. induction ops as [|o ops IH]; intros s Hm Hu; [reflexivity|]. cbn. destruct (step_log e s o m u Hm Hu) as [L N].
  fold (run e (step e s o) ops). rewrite IH; [assumption|lia|assumption].
Qed.
(** the number of successful trades in a history *)
Lemma run_numtrades e ops s : numtrades (run e s ops) = (numtrades s + successes e s ops)%nat.
Proof.
  revert s. induction ops as [|o ops IH]; intros s; [cbn; lia|]. cbn [run fold_left successes]. fold (run e (step e s o) ops). rewrite IH.
  assert (N : numtrades (step e s o) = (numtrades s + match o with
                 | OpBuy a => if snd (amm_buys e s a) then 1 else 0
                 | OpSell a => if snd (amm_sells e s a) then 1 else 0
                 | _ => 0
                 end)%nat); [|lia].
  destruct o as [a|tkn amt ps pe pm pr oid lid|i|a|a];
  try (match goal with |- numtrades (step _ _ ?o) = _ => destruct (other_ops_log e s o) as [_ ->]; [intros ?; split; discriminate|lia] end).
  - cbn [step]. destruct (amm_num e s a _ (or_introl eq_refl)) as [-> _]. destruct (snd _); lia.
  - cbn [step]. destruct (amm_num e s a _ (or_intror eq_refl)) as [-> _]. destruct (snd _); lia.
Qed.
Lemma appended e s a r : r = amm_buys e s a \/ r = amm_sells e s a -> snd r = true ->
  exists t recs, log_of (uid_aggr (numtrades s)) (fst r) = Some t /\
    t_uid t = uid_aggr (numtrades s) /\ t_id t = numtrades s /\ t_subid t = None /\
    route_records (fst r) (numtrades s) recs /\ List.length recs = List.length (t_routeix t) /\ recs <> [].
Proof.
  intros Hr Hok. destruct (amm_success e s a r Hr Hok) as (tkn & cp & by_ & t & recs & R). destruct R as [_ _ R1 U I S T1 T2 R2 R3 R4 _ R5 R6].
  exists t, recs. repeat (split; [assumption|]). split; [|tauto]. destruct R3 as [_ <-].
  clear - R4. induction recs as [|x recs IH]; [reflexivity|]. cbn. rewrite app_length.
  destruct (R4 x (or_introl eq_refl)) as (_ & _ & _ & i & ->). cbn. rewrite <- IH; [reflexivity|]. intros y Hy. apply R4. right. assumption.
Qed.

(** ** C24 *)
Lemma amm_ind2 e s a cp (P : state * bool -> Prop) : get_carbon_pair e (tr_pair a) = Some cp -> has_token cp (tr_tkn a) = true ->
  P (s, false) ->
  (forall tkn amt by_ use, has_token cp tkn = true -> P (trade e s tkn amt (tr_partial a) cp by_ (tr_execute a) (tr_limit_price a) (tr_limit_amt a) (tr_inpair a) use (tr_threshold a))) ->
  P (amm_buys e s a) /\ P (amm_sells e s a).
Proof.
  intros Ecp Ht H0 H. unfold amm_buys, amm_sells. destruct (Qlt_bool (tr_amt a) 0).
  - split.
    + destruct (sells_body_cases e s (mirror a)) as [->|(cp' & E & ->)]; [assumption|]. cbn in E. assert (cp' = cp) by congruence. subst. apply H. assumption.
    + destruct (buys_body_cases e s (mirror a)) as [->|(cp' & tkn & E & Eo & ->)]; [assumption|]. cbn in E. assert (cp' = cp) by congruence. subst. apply H. apply (other_has _ _ _ Eo).
  - split.
    + destruct (buys_body_cases e s a) as [->|(cp' & tkn & E & Eo & ->)]; [assumption|]. assert (cp' = cp) by congruence. subst. apply H. apply (other_has _ _ _ Eo).
    + destruct (sells_body_cases e s a) as [->|(cp' & E & ->)]; [assumption|]. assert (cp' = cp) by congruence. subst. apply H. assumption.
Qed.
Lemma price_of_some cp tkn f : has_token cp tkn = true -> (0 < rt_total_input f)%Q -> (rt_total_output f < 0)%Q ->
  exists p, price_of cp tkn f = Some (Some p) /\ (0 < p)%Q.
Proof.
  intros Ht Ti To. unfold price_of. rewrite qdiv_pos by assumption. cbv beta iota delta [bind].
  assert (P : (0 < - rt_total_output f / rt_total_input f)%Q) by (apply Qlt_shift_div_l; [assumption|rewrite Qmult_0_l; lra]).
  destruct (string_dec tkn (tknq cp)) as [E|E].
  - rewrite (proj1 (convert_price_spec cp _ tkn) E). eauto.
  - apply has_token_spec in Ht. destruct Ht as [Ht|Ht]; [|contradiction].
    rewrite (proj1 (proj2 (convert_price_spec cp _ tkn)) Ht E (Qpos_neq0 _ P)). eexists. split; [reflexivity|]. apply Qpos_inv. assumption.
Qed.
Lemma trade_noop e s tkn amt partial cp by_ execute lp la inpair use thr : well_keyed s -> well_linked (orders s) ->
  router_valid e -> router_signs e -> has_token cp tkn = true ->
  let r := trade e s tkn amt partial cp by_ execute lp la inpair use thr in
  snd r = false -> orders (fst r) = orders s.
Proof.
  intros Hw Hl Hv Hs Ht. cbv zeta. destruct (trade_cases e s tkn amt partial cp by_ execute lp la inpair use thr) as [-> |E]; [reflexivity|].
  destruct E as (l & r0 & rs & price & lf & _ & _ & Er & Ep & _ & os & ts & okl & El & D). cbv zeta in D, El.
  set (c := mkCtx _ _ _ _ _ _ _ _ _) in *.
  assert (Ok : okl = true).
  { pose proof (loop_succeeds c 0 (r0 :: rs) (orders s) (trades s) (proj1 Hw) Hl) as L. rewrite El in L. apply L.
    - destruct (Hs _ _ _ _ Er) as [Ti To]. destruct (price_of_some cp tkn (last (r0 :: rs) r0) Ht Ti To) as (p & Ep' & Hp).
      assert (price = Some p) by congruence. subst price. unfold rec_price. cbn [c lc_price lc_swap].
      destruct (swap_of e by_); [|discriminate]. rewrite qdiv_pos by assumption. discriminate.
    - intros r Hr. pose proof (Hv _ _ _ _ Er Hr) as Hi. apply nth_error_Some in Hi.
      destruct (nth_error (applicable cp tkn use (orders s)) (rt_index r)) as [o|] eqn:Eo; [|contradiction].
      destruct (applicable_spec s cp tkn use o Hw (nth_error_In _ _ Eo)) as (A & _ & _).
      exists (so_id o), o. split; [|assumption]. unfold id_map. cbn [c lc_apps]. rewrite Eo. reflexivity. }
  subst okl. destruct D as [[X _]|(_ & ids & rp & Hi & Hp & ->)]; [discriminate|]. cbn. discriminate.
Qed.
Lemma amm_noop e s a r cp : well_keyed s -> well_linked (orders s) -> router_valid e -> router_signs e ->
  get_carbon_pair e (tr_pair a) = Some cp -> has_token cp (tr_tkn a) = true ->
  r = amm_buys e s a \/ r = amm_sells e s a -> snd r = false -> orders (fst r) = orders s.
Proof.
  intros Hw Hl Hv Hs Ecp Ht Hr.
  destruct (amm_ind2 e s a cp (fun r => snd r = false -> orders (fst r) = orders s) Ecp Ht) as [A B].
  - reflexivity.
  - intros tkn amt by_ use Ht'. apply trade_noop; assumption.
  - destruct Hr as [-> | ->]; assumption.
Qed.
Lemma existsb_intro {A} (f : A -> bool) l x : In x l -> f x = true -> existsb f l = true.
Proof. intros H1 H2. apply existsb_exists. eauto. Qed.
Lemma buys_dangling e s a cp tkn i o r0 rs : well_keyed s -> (0 <= tr_amt a)%Q -> get_carbon_pair e (tr_pair a) = Some cp ->
  other cp (tr_tkn a) = Some tkn -> tr_limit_price a = None -> tr_limit_amt a = None -> tr_inpair a = true -> tr_execute a = true ->
  tr_use_positions a = None ->
  oget i (orders s) = Some o -> so_tkn o = tkn -> so_pair_name o = pair_iso cp -> so_disabled o = false -> (0 < so_y o)%Q ->
  so_lid o <> i -> oget (so_lid o) (orders s) = None ->
  router_signs e -> (forall apps rq, In o apps -> e_router e apps rq = Some (r0 :: rs) /\ nth_error apps (rt_index r0) = Some o) ->
  let r := amm_buys e s a in
  snd r = false /\ oget i (orders (fst r)) = Some (set_y o (so_y o - Qabs (rt_output r0))%Q).
Proof.
  intros Hw Ha Ecp Eo Hlp Hla Hin Hex Huse Hi Htk Hpn Hdis Hy Hself Hdang Hs Hrt. cbv zeta.
  assert (Hid : so_id o = i) by (apply (proj2 Hw i o), oget_In; assumption).
  assert (Elig : eligible cp tkn o = true).
  { unfold eligible. rewrite Hpn, String.eqb_refl, Htk, String.eqb_refl, Hdis. cbn. apply Qlt_bool_iff. assumption. }
  assert (Happ : In o (applicable cp tkn None (orders s))).
  { unfold applicable. apply in_map_iff. exists (i, o). split; [reflexivity|]. apply filter_In. split; [apply oget_In; assumption|]. cbn [fst].
    assert (M : memb i (order_ids cp tkn (orders s)) = true).
    { unfold memb. apply (existsb_intro _ _ i); [|apply Nat.eqb_refl]. unfold order_ids. apply in_map_iff. exists (i, o). split; [reflexivity|].
      apply filter_In. split; [apply oget_In; assumption|exact Elig]. }
    rewrite M. reflexivity. }
  unfold amm_buys. destruct (Qlt_bool_dec (tr_amt a) 0) as [[L _]|[_ ->]]; [exfalso; lra|].
  unfold amm_buys_body. rewrite Ecp, Eo.
  assert (V : position_is_valid (Some tkn) cp (orders s) = true).
  { unfold position_is_valid. apply andb_true_intro. split; apply (existsb_intro _ _ (i, o)); try (apply oget_In; assumption); cbn [snd].
    - rewrite Htk, String.eqb_refl, andb_true_r. apply Qlt_bool_iff. assumption.
    - rewrite Hpn, String.eqb_refl, andb_true_r. apply Qlt_bool_iff. assumption. }
  rewrite V. cbn [negb]. rewrite Hlp, Hla, Hin, Hex, Huse.
  destruct (Hrt (applicable cp tkn None (orders s)) (mkRequest BySource (tr_amt a) (tr_threshold a) (tr_partial a)) Happ) as [Er Hn].
  destruct (Hs _ _ _ _ Er) as [Ti To]. destruct (price_of_some cp tkn (last (r0 :: rs) r0) (other_has _ _ _ Eo) Ti To) as (p & Ep & Hp).
  unfold trade. cbn [negb]. rewrite Er. unfold price_of in Ep.
  destruct (qdiv _ _) as [raw|]; [|discriminate]. cbv beta iota delta [bind] in Ep. rewrite Ep.
  cbn [route_loop lc_apps]. unfold id_map. rewrite Hn. cbn [option_map lc_exec lc_swap]. rewrite Hid.
  destruct (move_cases false i (Qabs (rt_output r0)) (Qabs (rt_input r0)) (orders s)) as [[X _]|(o' & Eo' & D)]; [congruence|].
  assert (o' = o) by congruence. subst o'. cbv zeta in D.
  destruct D as [[X _]|[(_ & _ & Em)|(l & _ & El & _)]]; [contradiction| |congruence]. rewrite Em. cbn [negb fst snd orders].
  split; [reflexivity|apply oget_oset_same].
Qed.

(** ** C25 *)
Lemma neg_buys e s a : (tr_amt a < 0)%Q -> amm_buys e s a =
  amm_sells e s (mkTrade (tr_tkn a) (- tr_amt a)%Q (tr_pair a) (tr_execute a) (tr_inpair a) (tr_limit_price a) (tr_limit_amt a) (tr_threshold a) None (tr_partial a)).
Proof.
  intros H. unfold amm_buys, amm_sells. destruct (Qlt_bool_dec (tr_amt a) 0) as [[_ ->]|[L _]]; [|exfalso; lra]. cbn [tr_amt].
  destruct (Qlt_bool_dec (- tr_amt a) 0) as [[L _]|[_ ->]]; [exfalso; lra|reflexivity].
Qed.
Lemma neg_sells e s a : (tr_amt a < 0)%Q -> amm_sells e s a =
  amm_buys e s (mkTrade (tr_tkn a) (- tr_amt a)%Q (tr_pair a) (tr_execute a) (tr_inpair a) (tr_limit_price a) (tr_limit_amt a) (tr_threshold a) None (tr_partial a)).
Proof.
  intros H. unfold amm_buys, amm_sells. destruct (Qlt_bool_dec (tr_amt a) 0) as [[_ ->]|[L _]]; [|exfalso; lra]. cbn [tr_amt].
  destruct (Qlt_bool_dec (- tr_amt a) 0) as [[L _]|[_ ->]]; [exfalso; lra|reflexivity].
Qed.
(** two negative calls that differ in use_positions only are the same call *)
Lemma neg_ignores e s a u : (tr_amt a < 0)%Q ->
  let a' := mkTrade (tr_tkn a) (tr_amt a) (tr_pair a) (tr_execute a) (tr_inpair a) (tr_limit_price a) (tr_limit_amt a) (tr_threshold a) u (tr_partial a) in
  amm_buys e s a' = amm_buys e s a /\ amm_sells e s a' = amm_sells e s a.
Proof. intros H a'. rewrite (neg_buys e s a' H), (neg_buys e s a H), (neg_sells e s a' H), (neg_sells e s a H). split; reflexivity. Qed.

(** ** state() and liquidity() *)
Lemma fold_liq pn tkn l :
  (fold_right (fun o acc => if String.eqb (so_pair_name o) pn && String.eqb (so_tkn o) tkn then (so_y o + acc)%Q else acc) 0%Q l ==
   qsum (fun o => if string_dec (so_pair_name o) pn then (if string_dec (so_tkn o) tkn then so_y o else 0) else 0) l)%Q.
Proof.
  induction l as [|o l IH]; cbn; [reflexivity|].
  destruct (String.eqb_spec (so_pair_name o) pn) as [E1|E1]; destruct (string_dec (so_pair_name o) pn); try contradiction; cbn [andb].
  - destruct (String.eqb_spec (so_tkn o) tkn); destruct (string_dec (so_tkn o) tkn); try contradiction; rewrite IH; [reflexivity|ring].
  - rewrite IH. ring.
Qed.
Lemma filter_all {A} (l : list A) : filter (fun _ => true) l = l.
Proof. induction l as [|a l IH]; cbn; congruence. Qed.
Lemma qsum_map {A B} (g : A -> B) (f : B -> Q) l : qsum f (map g l) = qsum (fun a => f (g a)) l.
Proof. induction l as [|a l IH]; cbn; congruence. Qed.
Lemma liquidity_ok s pn tkn : well_keyed s -> well_linked (orders s) -> (forall k o, In (k, o) (orders s) -> ui_ok o = true) ->
  exists q, liquidity pn tkn (orders s) = Some q /\
   (q == qsum (fun ko => if string_dec (so_pair_name (snd ko)) pn then (if string_dec (so_tkn (snd ko)) tkn then so_y (snd ko) else 0) else 0) (orders s))%Q.
Proof.
  intros [Hnd Hk] Hl Hu. unfold liquidity, state_report. destruct (orders s) as [|x os] eqn:E.
  - exists 0%Q. split; reflexivity.
  - rewrite filter_all. set (app := map snd (x :: os)).
    assert (U : forallb ui_ok app = true). { apply forallb_forall. intros o Ho. apply in_map_iff in Ho as ([k o'] & <- & Hin). apply (Hu k o' Hin). }
    assert (L : forallb (fun o => memb (so_lid o) (map so_id app)) app = true).
    { apply forallb_forall. intros o Ho. apply in_map_iff in Ho as ([k o'] & <- & Hin). cbn [snd].
      destruct (Hl k o' Hin) as (l & Hlin). unfold memb. apply (existsb_intro _ _ (so_lid o')); [|apply Nat.eqb_refl].
      apply in_map_iff. exists l. split; [apply (Hk _ _ Hlin)|]. apply in_map_iff. exists (so_lid o', l). auto. }
    rewrite U, L. cbn [andb]. unfold app at 1. cbn [map]. fold app. cbv beta iota delta [bind].
    eexists. split; [reflexivity|]. rewrite fold_liq. unfold app. rewrite qsum_map. reflexivity.
Qed.
Lemma liquidity_dangling s pn tkn k o : well_keyed s -> oget k (orders s) = Some o -> oget (so_lid o) (orders s) = None ->
  liquidity pn tkn (orders s) = None.
Proof.
  intros [Hnd Hk] Ho Hd. unfold liquidity, state_report. apply oget_In in Ho. destruct (orders s) as [|x os] eqn:E; [destruct Ho|].
  rewrite filter_all. set (app := map snd (x :: os)).
  assert (L : forallb (fun o => memb (so_lid o) (map so_id app)) app = false).
  { apply not_true_iff_false. intros L. rewrite forallb_forall in L. specialize (L o (in_map snd _ _ Ho)). apply memb_In in L.
    apply in_map_iff in L as (l & El & Hl). apply in_map_iff in Hl as ([k' l'] & E' & Hin). cbn in E'. subst l'.
    destruct (Hk k' l Hin) as [Ek _]. apply oget_None in Hd. apply Hd. apply in_map_iff. exists (k', l). split; [cbn; congruence|assumption]. }
  rewrite L, andb_false_r. unfold app at 1. reflexivity.
Qed.

(** ** single orders *)
Lemma single_success e s tkn amt ps pe pm pr oid lid s' i l : 
  add_replace_single_order e s tkn amt ps pe pm pr oid lid = (s', Some (i, l)) ->
  e_exclude_future e = false /\ i = match oid with Some i => i | None => next_id s end /\ l = match lid with Some l => l | None => i end /\
  exists o, so_id o = i /\ so_lid o = l /\ so_tkn o = tkn /\ so_y o = amount_of amt /\
    forall k, oget k (orders s') = if Nat.eq_dec k i then Some o else oget k (orders s).
Proof.
  unfold add_replace_single_order. destruct (e_exclude_future e); [discriminate|]. destruct (get_carbon_pair e pr) as [cp|]; [|discriminate].
  destruct (negb _); [discriminate|].
  assert (G : forall i0 s0, orders s0 = orders s ->
    match convert_price cp ps tkn, convert_price cp pe tkn with
        | Some ps0, Some pe0 =>
          match sell_order e tkn amt pe0 ps0 cp i0 (match lid with Some l => l | None => i0 end) pm None None with
          | None => (s0, None)
          | Some o => (mkState (oset i0 o (orders s0)) (trades s0) (numtrades s0) (next_id s0),
                       if ui_ok o then Some (i0, match lid with Some l => l | None => i0 end) else None)
          end
        | _, _ => (s0, None)
        end = (s', Some (i, l)) -> i = i0 /\ l = (match lid with Some l => l | None => i end) /\
     exists o, so_id o = i /\ so_lid o = l /\ so_tkn o = tkn /\ so_y o = amount_of amt /\
      forall k, oget k (orders s') = if Nat.eq_dec k i then Some o else oget k (orders s)).
  { intros i0 s0 Es H. destruct (convert_price cp ps tkn) as [ps0|]; [|discriminate]. destruct (convert_price cp pe tkn) as [pe0|]; [|discriminate].
    destruct (sell_order _ _ _ _ _ _ _ _ _ _ _) as [o|] eqn:Eo; [|discriminate]. destruct (ui_ok o); [|discriminate].
    injection H as <- <- <-. split; [reflexivity|]. split; [reflexivity|]. exists o.
    pose proof (sell_order_fields _ _ _ _ _ _ _ _ _ _ _ _ Eo) as (A & B & C & _). repeat (split; [assumption|]). split.
    - unfold sell_order in Eo. fold (amount_of amt) in Eo. destruct pm as [m|], pe0 as [pe1|], ps0 as [ps1|]; cbv beta iota zeta delta [bind] in Eo; try discriminate;
      try destruct (Qle_bool pe1 ps1); 
      repeat match type of Eo with
      | context [if Qlt_bool ?a ?b then _ else _] => destruct (Qlt_bool a b); try discriminate
      | context [match e_yint_marg ?e ?a ?b ?c ?d with _ => _ end] => destruct (e_yint_marg e a b c d); try discriminate
      end; injection Eo as <-; reflexivity.
    - intros k. cbn. rewrite oget_oset, Es. reflexivity. }
  destruct oid as [i0|]; intros H; (split; [reflexivity|]).
  - apply (G i0 s eq_refl) in H. destruct H as (-> & -> & H). auto.
  - apply (G (next_id s) (mkState (orders s) (trades s) (numtrades s) (S (next_id s))) eq_refl) in H. destruct H as (-> & -> & H). auto.
Qed.

(** ** C20, books made of strategies *)
Lemma amm_ind3 e s a (P : state * bool -> Prop) :
  P (s, false) ->
  (forall tkn amt cp by_ use, get_carbon_pair e (tr_pair a) = Some cp -> P (trade e s tkn amt (tr_partial a) cp by_ (tr_execute a) (tr_limit_price a) (tr_limit_amt a) (tr_inpair a) use (tr_threshold a))) ->
  P (amm_buys e s a) /\ P (amm_sells e s a).
Proof.
  intros H0 H. unfold amm_buys, amm_sells. destruct (Qlt_bool (tr_amt a) 0).
  - split.
    + destruct (sells_body_cases e s (mirror a)) as [->|(cp & E & ->)]; [assumption|]. apply H. exact E.
    + destruct (buys_body_cases e s (mirror a)) as [->|(cp & tkn & E & _ & ->)]; [assumption|]. apply H. exact E.
  - split.
    + destruct (buys_body_cases e s a) as [->|(cp & tkn & E & _ & ->)]; [assumption|]. apply H. exact E.
    + destruct (sells_body_cases e s a) as [->|(cp & E & ->)]; [assumption|]. apply H. exact E.
Qed.
Lemma routed_elig e s a r t i : well_keyed s -> r = amm_buys e s a \/ r = amm_sells e s a -> snd r = true ->
  log_of (uid_aggr (numtrades s)) (fst r) = Some t -> In i (t_routeix t) ->
  exists cp o, get_carbon_pair e (tr_pair a) = Some cp /\ t_pair t = pair_iso cp /\ t_tkn2 t = other cp (t_tkn1 t) /\
    oget i (orders s) = Some o /\ eligible cp (t_tkn1 t) o = true.
Proof.
  intros Hw Hr Hok Ht Hi.
  destruct (amm_ind3 e s a (fun r => snd r = true -> forall t, log_of (uid_aggr (numtrades s)) (fst r) = Some t -> In i (t_routeix t) ->
     exists cp o, get_carbon_pair e (tr_pair a) = Some cp /\ t_pair t = pair_iso cp /\ t_tkn2 t = other cp (t_tkn1 t) /\
     oget i (orders s) = Some o /\ eligible cp (t_tkn1 t) o = true)) as [A1 A2].
  - discriminate.
  - intros tkn amt cp by_ use Ecp Hok' t0 Ht0 Hi0.
    destruct (trade_cases e s tkn amt (tr_partial a) cp by_ (tr_execute a) (tr_limit_price a) (tr_limit_amt a) (tr_inpair a) use (tr_threshold a)) as [E|E]; [rewrite E in Hok'; discriminate|].
    destruct E as (l & r0 & rs & price & lf & _ & _ & _ & _ & _ & os & ts & okl & El & D). cbv zeta in D.
    destruct D as [[_ D]|(-> & ids & rp & Hids & _ & D)]; rewrite D in Hok', Ht0; [discriminate|].
    cbn [fst] in Ht0. unfold log_of in Ht0. cbn [trades] in Ht0. change (dget String.eqb) with tget in Ht0. rewrite tget_tset in Ht0.
    destruct (string_dec _ _); [|contradiction]. injection Ht0 as <-. cbn in Hi0. cbn [t_tkn1 t_tkn2 t_pair].
    destruct (map_ids_In _ _ _ _ Hids Hi0) as (r1 & _ & Hr1). destruct (id_map_spec s cp tkn use _ _ Hw Hr1) as (o & Eo & _ & _ & Eg & _).
    exists cp, o. auto 10.
  - destruct Hr as [-> | ->]; [apply (A1 Hok t Ht Hi)|apply (A2 Hok t Ht Hi)].
Qed.
Lemma other_same_pair p q t : same_pair p q -> other p t = other q t.
Proof.
  unfold other, has_basetoken, has_quotetoken. intros [[-> ->]|[-> ->]]; [reflexivity|].
  destruct (String.eqb_spec t (tknq q)), (String.eqb_spec t (tknb q)); congruence.
Qed.
Lemma strategy_totals e ops a r t : e_exclude_future e = true -> let s := run e init ops in
  well_linked (orders s) ->
  (forall cp k o, get_carbon_pair e (tr_pair a) = Some cp -> In (k, o) (orders s) ->
     so_pair_name o = pair_iso cp \/ so_pair_name o = pair_iso (reverse cp) -> same_pair (so_pair o) cp) ->
  r = amm_buys e s a \/ r = amm_sells e s a -> snd r = true ->
  log_of (uid_aggr (numtrades s)) (fst r) = Some t -> t_exec t = true ->
  exists recs tkn2, route_records (fst r) (numtrades s) recs /\ List.concat (map t_routeix recs) = t_routeix t /\ t_tkn2 t = Some tkn2 /\
   forall u, (book_total u (orders (fst r)) == book_total u (orders s)
      - (if string_dec (t_tkn1 t) u then qsum t_amt1 recs else 0) + (if string_dec tkn2 u then qsum t_amt2 recs else 0))%Q.
Proof.
  intros He s Hl Hc Hr Hok Ht Ex. pose proof (run_well_keyed e ops He) as Hw. pose proof (run_paired e ops He) as Hp. fold s in Hw, Hp.
  destruct (totals e s a r t Hw Hr Hok Ht Ex) as (recs & Rr & Ne & Cc & Each & T).
  assert (F : forall x, In x recs -> exists i o l, t_routeix x = [i] /\ oget i (orders s) = Some o /\ so_lid o <> i /\
     oget (so_lid o) (orders s) = Some l /\ t_tkn2 t = Some (so_tkn l)).
  { intros x Hx. destruct (Each x Hx) as (_ & _ & _ & i & Ei).
    assert (Hi : In i (t_routeix t)). { rewrite <- Cc. apply in_concat. exists (t_routeix x). split; [apply in_map; assumption|rewrite Ei; left; reflexivity]. }
    destruct (routed_elig e s a r t i Hw Hr Hok Ht Hi) as (cp & o & Ecp & _ & T2 & Eo & Eg).
    apply eligible_spec in Eg as (N & Tk & _). destruct (Hp i o Eo) as [L1 L2].
    destruct (Hl i o (oget_In _ _ _ Eo)) as [l Il]. assert (El : oget (so_lid o) (orders s) = Some l) by (apply In_oget; [apply Hw|assumption]).
    destruct (L2 l El) as (_ & _ & Oth). exists i, o, l. split; [assumption|]. split; [assumption|]. split; [lia|]. split; [assumption|].
    rewrite T2, <- Oth, Tk. symmetry. apply other_same_pair. apply (Hc cp i o Ecp (oget_In _ _ _ Eo) N). }
  destruct recs as [|x0 rest] eqn:Er; [contradiction|]. rewrite <- Er in *. 
  destruct (F x0) as (_ & _ & l0 & _ & _ & _ & _ & T2); [rewrite Er; left; reflexivity|].
  exists recs, (so_tkn l0). split; [assumption|]. split; [assumption|]. split; [assumption|]. intros u. rewrite (T u).
  apply Qplus_inj_l. transitivity (qsum (fun x => if string_dec (so_tkn l0) u then t_amt2 x else 0) recs)%Q.
  - apply qsum_eq. intros x Hx. destruct (F x Hx) as (i & o & l & Ei & Eo & Nl & El & T2'). unfold credited_to. rewrite Ei, Eo.
    destruct (Nat.eq_dec (so_lid o) i); [contradiction|]. rewrite El. assert (so_tkn l = so_tkn l0) as -> by congruence. reflexivity.
  - destruct (string_dec _ _); [reflexivity|apply qsum_zero].
Qed.
