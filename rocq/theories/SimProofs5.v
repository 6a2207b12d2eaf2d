From Coq Require Import ZArith QArith Qabs List Bool Ascii String DecimalString DecimalNat Lia Lqa.
From Coq Require DecimalFacts.
From Verif Require Import TradeModel TradeProofs PairModel PairSpec PairProofs SimModel SimSpec SimProofs SimProofs2 SimProofs3 SimProofs4.
Import ListNotations.
Local Open Scope list_scope.

(** ** Names of the log records *)
Lemma nat_str_inj n m : nat_str n = nat_str m -> n = m.
Proof.
  assert (NN : forall n, Nat.to_uint n <> Decimal.Nil).
  { intros k E. pose proof (Unsigned.to_of (Nat.to_uint k)) as H. rewrite Unsigned.of_to in H. rewrite E in H. discriminate H. }
  unfold nat_str. intros H. apply Unsigned.to_uint_inj.
  pose proof (NilZero.usu _ (NN n)) as A. pose proof (NilZero.usu _ (NN m)) as B. rewrite H, B in A. congruence.
Qed.
Fixpoint nodot (s : string) : bool :=
  match s with EmptyString => true | String c s => negb (Ascii.eqb c "."%char) && nodot s end.
Lemma nat_str_nodot n : nodot (nat_str n) = true.
Proof.
  unfold nat_str. assert (G : forall d, nodot (NilEmpty.string_of_uint d) = true) by (induction d; cbn; auto).
  unfold NilZero.string_of_uint. destruct (Nat.to_uint n); [reflexivity|..]; apply G.
Qed.
Lemma dot_split a b a' b' : nodot a = true -> nodot a' = true ->
  (a ++ "." ++ b = a' ++ "." ++ b')%string -> a = a' /\ b = b'.
Proof.
  revert a'. induction a as [|c a IH]; intros [|c' a']; cbn; intros Ha Ha' H.
  - injection H as ->. auto.
  - injection H as <- _. cbn in Ha'. discriminate.
  - injection H as -> _. cbn in Ha. discriminate.
  - injection H as -> H. apply andb_prop in Ha as [_ Ha]. apply andb_prop in Ha' as [_ Ha'].
    destruct (IH a' Ha Ha' H) as [-> ->]. auto.
Qed.
Lemma uid_route_inj n j n' j' : uid_route n j = uid_route n' j' -> n = n' /\ j = j'.
Proof.
  unfold uid_route. intros H. apply dot_split in H as [H1 H2]; try apply nat_str_nodot. split; apply nat_str_inj; assumption.
Qed.
Lemma nodot_app_dot a b : nodot (a ++ "." ++ b)%string = false.
Proof. induction a as [|c a IH]; [reflexivity|]. change (nodot (String c a ++ "." ++ b)%string) with (negb (Ascii.eqb c "."%char) && nodot (a ++ "." ++ b)%string). rewrite IH. apply andb_false_r. Qed.
Lemma uid_aggr_route n m j : uid_aggr n <> uid_route m j.
Proof. intros H. pose proof (nat_str_nodot n) as A. unfold uid_aggr in H. rewrite H in A. unfold uid_route in A. rewrite nodot_app_dot in A. discriminate. Qed.
Lemma uid_aggr_inj n m : uid_aggr n = uid_aggr m -> n = m.
Proof. apply nat_str_inj. Qed.
Lemma uid_of_inj n m u : uid_of n u -> uid_of m u -> n = m.
Proof.
  intros [-> |(j & ->)] [H|(j' & H)].
  - apply uid_aggr_inj. assumption.
  - apply uid_aggr_route in H. contradiction.
  - symmetry in H. apply uid_aggr_route in H. contradiction.
  - apply (uid_route_inj _ _ _ _ H).
Qed.

(** ** The records written by the loop *)
Fixpoint loop_recs (c : loop_ctx) (price : Q) (ct : nat) (ids : list nat) (routes : list route) : list trec :=
  match ids, routes with
  | i :: ids, r :: routes =>
    mkTrec (uid_route (lc_n c) ct) (lc_n c) (Some ct) (lc_exec c) false (lc_limitfail c)
      (f_sold (fill_of (lc_swap c) i r)) (lc_tkn c) (f_bought (fill_of (lc_swap c) i r)) (lc_tkno c) (lc_pair c) [i] price
    :: loop_recs c price (S ct) ids routes
  | _, _ => []
  end.
Lemma loop_log_frame c ct routes os ts u : (forall j, (ct <= j)%nat -> u <> uid_route (lc_n c) j) ->
  tget u (snd (fst (route_loop c ct routes os ts))) = tget u ts.
Proof.
  revert ct os ts. induction routes as [|r routes IH]; intros ct os ts H; cbn [route_loop]; [reflexivity|].
  destruct (id_map _ _) as [i|]; [|reflexivity].
  destruct (if lc_exec c then _ else _) as [os1 ok]. destruct ok; cbn [negb]; [|reflexivity].
  destruct (rec_price c) as [p|]; [|reflexivity].
  rewrite IH by (intros j Hj; apply H; lia). rewrite tget_tset. destruct (string_dec u _) as [E|]; [|reflexivity].
  exfalso. apply (H ct); [lia|assumption].
Qed.
Lemma loop_log c ct routes os ts os' ts' ids p : route_loop c ct routes os ts = (os', ts', true) ->
  map_ids (lc_apps c) routes = Some ids -> rec_price c = Some p ->
  forall j t, nth_error (loop_recs c p ct ids routes) j = Some t -> tget (uid_route (lc_n c) (ct + j)) ts' = Some t.
Proof.
  revert ct os ts ids. induction routes as [|r routes IH]; intros ct os ts ids H Hi Hp j t Hj; cbn [route_loop map_ids] in *.
  - injection Hi as <-. destruct j; discriminate.
  - destruct (id_map _ _) as [i|]; [|discriminate]. cbn in Hi. destruct (map_ids _ routes) as [ids'|] eqn:Ei; [|discriminate]. injection Hi as <-.
    destruct (if lc_exec c then _ else _) as [os1 ok]. destruct ok; cbn [negb] in H; [|discriminate].
    rewrite Hp in H. destruct j as [|j].
    + cbn in Hj. injection Hj as <-. rewrite Nat.add_0_r.
      match type of H with route_loop ?c ?n ?r ?o ?t = _ => pose proof (loop_log_frame c n r o t (uid_route (lc_n c) ct)) as F end.
      rewrite H in F. cbn [fst snd] in F. rewrite F.
      * rewrite tget_tset. destruct (string_dec _ _); [|contradiction]. unfold fill_of. destruct (lc_swap c); reflexivity.
      * intros j Hj E. apply uid_route_inj in E. lia.
    + rewrite Nat.add_succ_r. apply (IH (S ct) _ _ ids' H eq_refl Hp). exact Hj.
Qed.
Lemma loop_recs_fields c p ct ids routes j t : nth_error (loop_recs c p ct ids routes) j = Some t ->
  t_uid t = uid_route (lc_n c) (ct + j) /\ t_id t = lc_n c /\ t_subid t = Some (ct + j)%nat /\ t_exec t = lc_exec c /\
  t_tkn1 t = lc_tkn c /\ t_tkn2 t = lc_tkno c /\ t_price t = p /\ t_limitfail t = lc_limitfail c.
Proof.
  revert ct routes j. induction ids as [|i ids IH]; intros ct [|r routes] j H; cbn in H; try (destruct j; discriminate).
  destruct j as [|j].
  - injection H as <-. cbn. rewrite Nat.add_0_r. auto 10.
  - cbn in H. rewrite Nat.add_succ_r. apply (IH (S ct) routes j H).
Qed.
Lemma loop_recs_length c p ct ids routes : List.length ids = List.length routes -> List.length (loop_recs c p ct ids routes) = List.length routes.
Proof. revert ct routes. induction ids as [|i ids IH]; intros ct [|r routes] H; cbn in *; try discriminate; auto. Qed.
Lemma loop_recs_ids c p ct ids routes : List.length ids = List.length routes -> map t_routeix (loop_recs c p ct ids routes) = map (fun i => [i]) ids.
Proof. revert ct routes. induction ids as [|i ids IH]; intros ct [|r routes] H; cbn in *; try discriminate; [reflexivity|]. rewrite IH by lia. reflexivity. Qed.
Lemma map_ids_length apps routes ids : map_ids apps routes = Some ids -> List.length ids = List.length routes.
Proof.
  revert ids. induction routes as [|r routes IH]; intros ids H; cbn in H; [injection H as <-; reflexivity|].
  destruct (id_map _ _); [|discriminate]. cbn in H. destruct (map_ids apps routes); [|discriminate]. injection H as <-. cbn. rewrite IH; reflexivity.
Qed.
Lemma f_id_fill swap i r : f_id (fill_of swap i r) = i.
Proof. unfold fill_of. destruct swap; reflexivity. Qed.
Lemma delta_recs os k c p ct ids routes :
  (qsum (delta os k) (fills_of (lc_swap c) ids routes) ==
   - qsum (sold_by k) (loop_recs c p ct ids routes) + qsum (bought_for os k) (loop_recs c p ct ids routes))%Q.
Proof.
  revert ct routes. induction ids as [|i ids IH]; intros ct [|r routes]; try (cbn; ring).
  change (fills_of (lc_swap c) (i :: ids) (r :: routes)) with (fill_of (lc_swap c) i r :: fills_of (lc_swap c) ids routes).
  cbn [loop_recs qsum]. rewrite (IH (S ct) routes).
  generalize (qsum (sold_by k) (loop_recs c p (S ct) ids routes)) (qsum (bought_for os k) (loop_recs c p (S ct) ids routes)). intros SA SB.
  unfold delta, sold_by, bought_for. cbn [t_routeix t_amt1 t_amt2].
  rewrite f_id_fill.
  assert (E1 : (if list_eq_dec Nat.eq_dec [i] [k] then f_sold (fill_of (lc_swap c) i r) else 0%Q) = (if Nat.eqb i k then f_sold (fill_of (lc_swap c) i r) else 0%Q)).
  { destruct (list_eq_dec _ _ _) as [E|E]; destruct (Nat.eqb_spec i k); try reflexivity; congruence. }
  rewrite E1. clear E1. destruct (Nat.eqb_spec i k) as [->|Hn].
  - destruct (Nat.eq_dec k k); [|contradiction]. destruct (oget k os) as [o|]; [|ring].
    destruct (Nat.eqb_spec (so_lid o) k); cbn; ring.
  - destruct (Nat.eq_dec i k); [contradiction|]. destruct (oget i os) as [o|]; [|ring].
    destruct (Nat.eqb_spec (so_lid o) k) as [->|Hk]; destruct (Nat.eq_dec _ k); try contradiction; try congruence.
    + rewrite (proj2 (Nat.eqb_neq k i)) by congruence. cbn. ring.
    + rewrite andb_false_r. ring.
Qed.

(** ** Capacities *)
(** what order [k] receives from a fill *)
Definition gain (os : list (nat * sorder)) (k i : nat) (b : Q) : Q :=
  if Nat.eq_dec i k then 0
  else match oget i os with Some o => if Nat.eq_dec (so_lid o) k then b else 0 | None => 0 end.
Lemma gain_nonneg os k i b : (0 <= b)%Q -> (0 <= gain os k i b)%Q.
Proof. intros H. unfold gain. destruct (Nat.eq_dec i k); [apply Qle_refl|]. destruct (oget i os) as [o|]; [|apply Qle_refl]. destruct (Nat.eq_dec _ _); [assumption|apply Qle_refl]. Qed.
Lemma gain_evolves os os' k i b : evolves os os' -> gain os' k i b = gain os k i b.
Proof.
  intros Hev. unfold gain. destruct (Nat.eq_dec i k); [reflexivity|]. destruct (oget i os) as [o|] eqn:E.
  - destruct Hev as [_ H]. destruct (H _ _ E) as (o' & -> & (_ & Hl & _) & _). rewrite Hl. reflexivity.
  - destruct (oget i os') as [o'|] eqn:E'; [|reflexivity]. destruct (evolves_back _ _ _ _ Hev E') as (o & Eo & _). congruence.
Qed.
Lemma move_cap swap i a1 a2 os os' k o o' : (0 <= a1)%Q -> (0 <= a2)%Q -> move swap i a1 a2 os = (os', true) ->
  oget k os = Some o -> oget k os' = Some o' ->
  let b := gain os k i (if swap then a1 else a2) in
  (so_yint o' = so_yint o \/ (so_yint o' <= so_y o + b)%Q) /\ (so_y o' <= so_y o + b)%Q.
Proof.
  intros H1 H2 Hm Ho Ho'. cbv zeta. pose proof (gain_nonneg os k i (if swap then a1 else a2)) as Hb. 
  assert (Hs : (0 <= if swap then a2 else a1)%Q) by (destruct swap; assumption).
  assert (Hb' : (0 <= if swap then a1 else a2)%Q) by (destruct swap; assumption). specialize (Hb Hb'). revert Hb. unfold gain.
  destruct (move_cases swap i a1 a2 os) as [[_ E]|(oi & Ei & H)]; [congruence|]. cbv zeta in H. rewrite Ei.
  destruct H as [[Hl E]|[(_ & _ & E)|(l & Hn & El & E)]]; rewrite E in Hm; try discriminate; injection Hm as <-; rewrite ?oget_oset in Ho'.
  - destruct (Nat.eq_dec k i) as [->|Hki].
    + assert (oi = o) by congruence. subst oi. injection Ho' as <-. destruct (Nat.eq_dec i i); [|contradiction]. intros _. cbn. split; [auto|lra].
    + assert (o' = o) by congruence. subst o'. intros Hb. split; [auto|]. lra.
  - destruct (Nat.eq_dec k (so_lid oi)) as [->|Hk].
    + injection Ho' as <-. assert (l = o) by congruence. subst l. destruct (Nat.eq_dec i (so_lid oi)); [congruence|].
      destruct (Nat.eq_dec _ _); [|contradiction]. intros _. unfold credited. cbn. destruct (Qlt_bool _ _) eqn:Ec; cbn; split; try lra; auto; right; lra.
    + destruct (Nat.eq_dec k i) as [->|Hki].
      * assert (oi = o) by congruence. subst oi. injection Ho' as <-. destruct (Nat.eq_dec i i); [|contradiction]. intros _. cbn. split; [auto|lra].
      * assert (o' = o) by congruence. subst o'. intros Hb. split; [auto|]. lra.
Qed.
Lemma bought_for_gain os k uid n j ex pf lf a1 t1 a2 t2 pn i pr :
  bought_for os k (mkTrec uid n j ex pf lf a1 t1 a2 t2 pn [i] pr) = gain os k i a2.
Proof. reflexivity. Qed.
Lemma loop_cap c p ct routes os ts os' ts' ids k o o' : route_loop c ct routes os ts = (os', ts', true) ->
  map_ids (lc_apps c) routes = Some ids -> oget k os = Some o -> oget k os' = Some o' ->
  (0 <= qsum (bought_for os k) (loop_recs c p ct ids routes))%Q /\
  (so_yint o' = so_yint o \/ (so_yint o' <= so_y o + qsum (bought_for os k) (loop_recs c p ct ids routes))%Q).
Proof.
  revert ct os ts ids o. induction routes as [|r routes IH]; intros ct os ts ids o H Hi Ho Ho'; cbn [route_loop map_ids] in *.
  - injection Hi as <-. injection H as <- <-. cbn. split; [lra|left; congruence].
  - destruct (id_map _ _) as [i|]; [|discriminate]. cbn in Hi. destruct (map_ids _ routes) as [ids'|] eqn:Ei; [|discriminate]. injection Hi as <-.
    destruct (if lc_exec c then _ else _) as [os1 ok] eqn:Em. destruct ok; cbn [negb] in H; [|discriminate].
    destruct (rec_price c); [|discriminate].
    cbn [loop_recs qsum]. rewrite bought_for_gain.
    set (b := gain os k i _).
    assert (Hb : (0 <= b)%Q) by (apply gain_nonneg; unfold fill_of; destruct (lc_swap c); apply Qabs_nonneg).
    assert (V : evolves os os1 /\ forall o1, oget k os1 = Some o1 -> (so_yint o1 = so_yint o \/ (so_yint o1 <= so_y o + b)%Q) /\ (so_y o1 <= so_y o + b)%Q).
    { destruct (lc_exec c).
      - split; [rewrite <- (f_equal fst Em : _ = os1); apply move_evolves|]. intros o1 Ho1.
        pose proof (move_cap _ _ _ _ _ _ k o o1 (Qabs_nonneg _) (Qabs_nonneg _) Em Ho Ho1) as M. unfold b, fill_of. destruct (lc_swap c); exact M.
      - injection Em as <-. split; [apply evolves_refl|]. intros o1 Ho1. assert (o1 = o) by congruence. subst o1. split; [auto|lra]. }
    destruct V as [V M]. destruct V as [Kk V]. destruct (V k o Ho) as (o1 & E1 & _ & _). destruct (M o1 E1) as [M1 M2].
    destruct (IH _ _ _ _ o1 H eq_refl E1 Ho') as [B1 B2].
    assert (X : qsum (bought_for os1 k) (loop_recs c p (S ct) ids' routes) = qsum (bought_for os k) (loop_recs c p (S ct) ids' routes)).
    { clear -V Kk. revert routes ct. induction ids' as [|i' ids' IH]; intros [|r routes] ct; try reflexivity. cbn [loop_recs qsum].
      rewrite (IH routes (S ct)), !bought_for_gain. f_equal. apply gain_evolves. split; assumption. }
    rewrite X in B1, B2. set (B := qsum (bought_for os k) (loop_recs c p (S ct) ids' routes)) in *. clearbody B b.
    split; [lra|]. destruct B2 as [->|B2]; [destruct M1 as [->|M1]; [auto|right; lra]|right; lra].
Qed.

(** ** What a successful trade writes and moves *)
Record trade_result (e : env) (s : state) (tkn : string) (cp : pair) (by_ : match_by) (execute : bool)
    (s' : state) (t : trec) (recs : list trec) : Prop := {
  tres_num : numtrades s' = S (numtrades s);
  tres_next : next_id s' = next_id s;
  tres_aggr : log_of (uid_aggr (numtrades s)) s' = Some t;
  tres_uid : t_uid t = uid_aggr (numtrades s);
  tres_id : t_id t = numtrades s;
  tres_subid : t_subid t = None;
  tres_tkn1 : t_tkn1 t = tkn;
  tres_tkn2 : t_tkn2 t = other cp tkn;
  tres_recs : route_records s' (numtrades s) recs;
  tres_count : recs <> [] /\ List.concat (map t_routeix recs) = t_routeix t;
  tres_each : forall r, In r recs -> t_exec r = t_exec t /\ t_tkn1 r = tkn /\ t_tkn2 r = other cp tkn /\ exists i, t_routeix r = [i];
  tres_noexec : t_exec t = false -> orders s' = orders s;
  tres_exec : t_exec t = true -> execute = true /\ forall k o, oget k (orders s) = Some o -> exists o', oget k (orders s') = Some o' /\
     same_terms o o' /\ (so_yint o <= so_yint o')%Q /\
     (so_yint o' = so_yint o \/ (so_yint o' <= so_y o + qsum (bought_for (orders s) k) recs)%Q) /\
     (so_y o' == so_y o - qsum (sold_by k) recs + qsum (bought_for (orders s) k) recs)%Q;
  tres_keys : map fst (orders s') = map fst (orders s)
}.
Lemma concat_singletons {A} (l : list A) : List.concat (map (fun i => [i]) l) = l.
Proof. induction l as [|a l IH]; cbn; congruence. Qed.

Lemma trade_success e s tkn amt partial cp by_ execute lp la inpair use thr s' :
  trade e s tkn amt partial cp by_ execute lp la inpair use thr = (s', true) ->
  exists t recs, trade_result e s tkn cp by_ execute s' t recs.
Proof.
  intros H. destruct (trade_evolves _ _ _ _ _ _ _ _ _ _ _ _ _ _ _ H) as [V Nx].
  destruct (trade_cases e s tkn amt partial cp by_ execute lp la inpair use thr) as [E|E]; [congruence|].
  destruct E as (l & r0 & rs & price & lf & _ & _ & _ & _ & _ & os & ts & okl & El & D). cbv zeta in D, El.
  destruct D as [[_ D]|(-> & ids & rp & Hi & Hp & D)]; rewrite D in H; [discriminate|]. injection H as <-.
  set (c := mkCtx _ _ _ _ _ _ _ _ _) in *.
  set (exec := match lf with Some true => false | _ => execute end) in *.
  match type of D with _ = (mkState _ (tset _ ?t _) _ _, _) => set (t0 := t) in * end.
  cbn [orders next_id] in V, Nx. clear D.
  exists t0, (loop_recs c rp 0 ids (r0 :: rs)).
  pose proof (map_ids_length _ _ _ Hi) as Hlen.
  pose proof (loop_log c 0 (r0 :: rs) _ _ _ _ ids rp El Hi Hp) as Hlog.
  split; try reflexivity.
  - unfold log_of. cbn [trades]. change (dget String.eqb) with tget. rewrite tget_tset. destruct (string_dec _ _); [reflexivity|contradiction].
  - intros j t Hj. split.
    + unfold log_of. cbn [trades]. change (dget String.eqb) with tget. rewrite tget_tset. destruct (string_dec _ _) as [E|_].
      * symmetry in E. apply uid_aggr_route in E. contradiction.
      * apply (Hlog j t Hj).
    + apply loop_recs_fields in Hj. cbn in Hj. tauto.
  - split.
    + destruct ids; [discriminate|]. cbn. discriminate.
    + rewrite loop_recs_ids by assumption. apply concat_singletons.
  - intros r Hr. apply In_nth_error in Hr as [j Hj]. pose proof Hj as Hj'. apply loop_recs_fields in Hj'. cbn in Hj'.
    destruct Hj' as (_ & _ & _ & A & B & C & _). repeat (split; [assumption|]).
    apply (map_nth_error t_routeix) in Hj. rewrite loop_recs_ids in Hj by assumption. 
    apply nth_error_In, in_map_iff in Hj as (i & Hi' & _). exists i. symmetry. assumption.
  - cbn [t_exec t0]. intros Ex. pose proof (loop_no_exec c 0 (r0 :: rs) (orders s) (trades s) Ex) as N. rewrite El in N. exact N.
  - cbn [t_exec t0]. intros Ex. split.
    { unfold exec in Ex. destruct lf as [[|]|]; [discriminate| |]; assumption. }
    intros k o Ho. destruct (loop_success c 0 (r0 :: rs) _ _ _ _ El Ex) as (ids' & Hi' & Hd).
    assert (ids' = ids) by (change (lc_apps c) with (applicable cp tkn use (orders s)) in Hi'; congruence). subst ids'.
    destruct (Hd k o Ho) as (o' & Eo' & Y). exists o'. split; [assumption|].
    destruct V as [_ V]. destruct (V k o Ho) as (o2 & E2 & S2 & Y2). assert (o2 = o') by congruence. subst o2.
    split; [assumption|]. split; [assumption|]. split; [apply (loop_cap c rp 0 (r0 :: rs) _ _ _ _ ids k o o' El Hi Ho Eo')|]. rewrite Y. rewrite (delta_recs (orders s) k c rp 0 ids (r0 :: rs)). ring.
  - cbn [orders]. apply V.
Qed.
