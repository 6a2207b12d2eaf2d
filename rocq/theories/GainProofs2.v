From Coq Require Import ZArith QArith Qabs List Bool Ascii String Lia Lqa.
From Verif Require Import TradeModel TradeProofs PairModel PairSpec PairProofs SimModel SimSpec SimProofs SimProofs2 SimProofs3 SimProofs4 SimProofs5 SimProofs6 SimProofs7 SimProofs8.
From Verif Require Import FastModel FastSpec FastProofs GainSpec GainProofs.
Import ListNotations.
Local Open Scope list_scope.

(** ** Stored prices *)
Lemma sell_order_terms e tkn amt lo hi cp i1 i2 pm yi cid o : sell_order e tkn amt lo hi cp i1 i2 pm yi cid = Some o ->
  proper o /\ so_y o = amount_of amt /\
  forall B, (0 <= B)%Q -> (forall v, lo = Some v -> v <= B)%Q -> (forall v, hi = Some v -> v <= B)%Q -> (so_phigh o <= B)%Q.
Proof.
  intros H. unfold sell_order in H. fold (amount_of amt) in H.
  destruct pm as [m|], yi as [c|]; try discriminate; destruct lo as [lo|], hi as [hi|]; cbv [bind] in H; try discriminate; try (destruct (Qle_bool lo hi) eqn:El);
  repeat match type of H with
  | context [if Qlt_bool ?a ?b then _ else _] => let Eb := fresh "Eb" in destruct (Qlt_bool_dec a b) as [[? Eb]|[? Eb]]; rewrite Eb in H; cbv beta iota in H; try discriminate
  | context [match e_yint_marg ?e ?a ?b ?c ?d with _ => _ end] => let E := fresh "Ey" in destruct (e_yint_marg e a b c d) eqn:E; try discriminate
  end; injection H as <-; unfold proper; cbn [so_plow so_phigh so_y].
  all: try (apply Qle_bool_iff in El).
  all: try (assert (El' : (hi <= lo)%Q) by (apply Qlt_le_weak; apply Qlt_bool_iff; unfold Qlt_bool; rewrite El; reflexivity)).
  all: split; [split; try assumption; try apply Qle_refl|split; [reflexivity|intros B HB HB1 HB2; first [assumption|apply HB1; reflexivity|apply HB2; reflexivity]]].
Qed.
Lemma step_proper e s o : e_exclude_future e = true -> well_keyed s -> properly (orders s) -> properly (orders (step e s o)).
Proof.
  intros He Hw Hp.
  assert (Ev : forall s', evolves (orders s) (orders s') -> properly (orders s')).
  { intros s' V k o' Ho'. destruct (evolves_back _ _ _ _ V Ho') as (o0 & E & T). apply same_terms_tkn in T as (_ & _ & A & B). unfold proper. rewrite A, B. apply (Hp k o0 E). }
  destruct o as [a|tkn amt ps pe pm pr oid lid|i|a|a]; cbn [step].
  - destruct (add_cases e s a) as [->|[->|H]]; [assumption|assumption|].
    destruct H as (cp & tkn2 & _ & _ & psm & pss & pse & pbs & pbe & pbm & o1 & C1 & C2 & C3 & C4 & C5 & C6 & E1 & D).
    apply sell_order_terms in E1 as [P1 _]. destruct D as [[_ ->]|(o2 & E2 & ->)]; cbn [fst orders].
    + intros k o. rewrite oget_oset. destruct (Nat.eq_dec _ _); [intros G; injection G as <-; assumption|apply Hp].
    + apply sell_order_terms in E2 as [P2 _]. intros k o. rewrite !oget_oset. destruct (Nat.eq_dec _ _); [intros G; injection G as <-; assumption|].
      destruct (Nat.eq_dec _ _); [intros G; injection G as <-; assumption|apply Hp].
  - rewrite single_excluded by assumption. assumption.
  - intros k o Ho. apply (Hp k o). apply (delete_sub s i k o Hw Ho).
  - apply Ev. apply (amm_evolves e s a).
  - apply Ev. apply (amm_evolves e s a).
Qed.
(** what holds of every reachable state *)
Record sound (s : state) : Prop := mkSound { sd_keyed : well_keyed s; sd_bounded : bounded (orders s); sd_proper : properly (orders s); sd_paired : paired s; sd_issued : links_issued s }.
Lemma step_sound e s o : e_exclude_future e = true -> router_bounded e -> legit e o -> sound s -> sound (step e s o).
Proof.
  intros He Hr Hl [A B C D E]. destruct (step_paired e s o He A E D). constructor; [apply step_well_keyed|apply step_bounded|apply step_proper| |]; assumption.
Qed.
Lemma init_sound : sound init.
Proof. constructor; [apply init_well_keyed| | | |]; intros k o H; discriminate H. Qed.
Lemma run_sound e ops s : e_exclude_future e = true -> router_bounded e -> Forall (legit e) ops -> sound s -> sound (run e s ops).
Proof.
  intros He Hr. revert s. induction ops as [|o ops IH]; intros s Hl Hs; [assumption|]. inversion Hl; subst. cbn. apply IH; [assumption|]. apply step_sound; assumption.
Qed.
Lemma run_app e s ops ops' : run e s (ops ++ ops') = run e (run e s ops) ops'.
Proof. apply fold_left_app. Qed.

(** ** A strategy *)
Lemma paired_partners s k o l : paired s -> oget k (orders s) = Some o -> oget (so_lid o) (orders s) = Some l -> partners (orders s) k (so_lid o).
Proof.
  intros P Ho Hl. destruct (P k o Ho) as [N G]. destruct (G l Hl) as (Ll & _). split; [lia|].
  intros i v Hv. destruct (P i v Hv) as [N' G']. split; split; intros E.
  - destruct (G' o) as (Lo & _); [rewrite E; exact Ho|]. congruence.
  - rewrite E in Hv. congruence.
  - destruct (G' l) as (Lo & _); [rewrite E; exact Hl|]. congruence.
  - rewrite E in Hv. congruence.
Qed.
Lemma step_pair e w s o k l v : e_exclude_future e = true -> router_priced e -> sound s -> partners (orders s) k l -> pair_worth w (orders s) k l v ->
  (exists x, oget k (orders (step e s o)) = Some x) -> (exists x, oget l (orders (step e s o)) = Some x) ->
  pair_worth w (orders (step e s o)) k l v.
Proof.
  intros He Hr Sd PT V [xk Hk] [xl Hl].
  assert (Id : (forall k x, oget k (orders s) = Some x -> (exists y, oget k (orders (step e s o)) = Some y) -> oget k (orders (step e s o)) = Some x) -> pair_worth w (orders (step e s o)) k l v).
  { intros H. destruct V as (ok & ol & Ek & El & V). exists ok, ol. split; [apply H; eauto|]. split; [apply H; eauto|]. exact V. }
  assert (Tr : forall r, orders (fst r) = orders s \/ (exists c routes, priced c (orders s) routes /\ orders (fst (r : state * bool)) = fst (fst (route_loop c 0 routes (orders s) (trades s)))) ->
     pair_worth w (orders (fst r)) k l v).
  { intros r [->|(c & routes & P & ->)]; [assumption|]. apply loop_pair; assumption. }
  destruct o as [a|tkn amt ps pe pm pr oid lid|i|a|a]; cbn [step] in *.
  - apply Id. intros k0 x H _. destruct (add_next_and_keys e s a (sd_keyed s Sd)) as [_ (new & E & _)]. rewrite E. apply oget_app_l. assumption.
  - rewrite single_excluded by assumption. assumption.
  - apply Id. intros k0 x H [y Hy]. rewrite Hy. apply (delete_sub s i k0 y (sd_keyed s Sd)) in Hy. congruence.
  - apply (proj1 (amm_ind e s a (fun r => pair_worth w (orders (fst r)) k l v) V (fun tkn amt cp by_ use => Tr _ (trade_shape e s tkn amt _ cp by_ _ _ _ _ use _ Hr (sd_keyed s Sd) (sd_bounded s Sd) (sd_proper s Sd))))).
  - apply (proj2 (amm_ind e s a (fun r => pair_worth w (orders (fst r)) k l v) V (fun tkn amt cp by_ use => Tr _ (trade_shape e s tkn amt _ cp by_ _ _ _ _ use _ Hr (sd_keyed s Sd) (sd_bounded s Sd) (sd_proper s Sd))))).
Qed.
Lemma run_pair e w ops s k l v : e_exclude_future e = true -> router_bounded e -> router_priced e -> Forall (legit e) ops -> sound s -> (forall o, oget k (orders s) = Some o -> so_lid o = l) ->
  pair_worth w (orders s) k l v -> (exists x, oget k (orders (run e s ops)) = Some x) -> (exists x, oget l (orders (run e s ops)) = Some x) ->
  pair_worth w (orders (run e s ops)) k l v.
Proof.
  intros He Hb Hr. revert s. induction ops as [|o ops IH]; intros s Hl Sd Lk V Hk Hll; [assumption|]. inversion Hl; subst.
  assert (Sd' : sound (step e s o)) by (apply step_sound; assumption).
  assert (In : forall k, (exists y, oget k (orders s) = Some y) -> (exists x, oget k (orders (run e s (o :: ops))) = Some x) -> exists x, oget k (orders (step e s o)) = Some x).
  { intros k0 [y Hy] [x Hx]. destruct (oget k0 (orders (step e s o))) as [z|] eqn:E; [eauto|]. exfalso.
    assert (N : oget k0 (orders (run e (step e s o) ops)) = None); [|cbn in Hx; unfold run in *; congruence].
    apply run_absent; try assumption; [apply (sd_keyed _ Sd')|]. destruct (sd_keyed _ Sd) as [_ K]. destruct (K k0 y (oget_In _ _ _ Hy)). pose proof (step_next e s o He (sd_keyed _ Sd)). lia. }
  pose proof V as (ok & ol & Ek & El & _).
  assert (Hk1 : exists x, oget k (orders (step e s o)) = Some x) by (apply In; [eauto|assumption]).
  assert (Hl1 : exists x, oget l (orders (step e s o)) = Some x) by (apply In; [eauto|assumption]).
  assert (PT : partners (orders s) k l). { pose proof (Lk ok Ek) as L0. rewrite <- L0. apply (paired_partners s k ok ol); [apply (sd_paired _ Sd)|assumption|congruence]. }
  cbn. apply IH; [assumption|assumption| | |assumption|assumption].
  - intros x Hx. destruct (step_persist e s o k ok x He (sd_keyed _ Sd) Ek Hx) as [T _]. apply same_terms_tkn in T as (_ & -> & _). apply Lk. assumption.
  - apply step_pair; assumption.
Qed.
Lemma strategy_worth e ops ops' k o l o' l' w : e_exclude_future e = true -> router_bounded e -> router_priced e -> Forall (legit e) (ops ++ ops') ->
  oget k (orders (run e init ops)) = Some o -> oget (so_lid o) (orders (run e init ops)) = Some l ->
  oget k (orders (run e init (ops ++ ops'))) = Some o' -> oget (so_lid o) (orders (run e init (ops ++ ops'))) = Some l' ->
  (0 <= w (so_tkn o))%Q -> (0 <= w (so_tkn l))%Q -> no_bargain w o l -> no_bargain w l o ->
  (worth_of w o + worth_of w l <= worth_of w o' + worth_of w l')%Q.
Proof.
  intros He Hb Hr Hl Ho Hll Ho' Hl' W1 W2 B1 B2. apply Forall_app in Hl as [L1 L2]. rewrite run_app in *.
  assert (V : pair_worth w (orders (run e init ops)) k (so_lid o) (worth_of w o + worth_of w l)).
  { exists o, l. repeat (split; [assumption|]). apply Qle_refl. }
  assert (Sd : sound (run e init ops)) by (apply run_sound; try assumption; apply init_sound).
  destruct (run_pair e w ops' _ k (so_lid o) _ He Hb Hr L2 Sd ltac:(intros x Hx; congruence) V ltac:(eauto) ltac:(eauto)) as (x & y & Ex & Ey & _ & _ & _ & _ & G).
  assert (x = o') by congruence. assert (y = l') by congruence. subst. exact G.
Qed.

(** ** The price gap of a strategy, in the units of its pair *)
Lemma add_issues e s a cp t : get_carbon_pair e (ad_pair a) = Some cp -> other cp (ad_tkn a) = Some t -> next_id (fst (add_strategy e s a)) = S (S (next_id s)).
Proof.
  intros Hc Ht. unfold add_strategy. rewrite Hc, Ht.
  destruct (convert_price cp (ad_psell_marg a) (ad_tkn a)); [|reflexivity]. destruct (convert_price cp (ad_psell_start a) (ad_tkn a)); [|reflexivity].
  destruct (convert_price cp (ad_psell_end a) (ad_tkn a)); [|reflexivity]. destruct (convert_price cp (ad_pbuy_start a) t); [|reflexivity].
  destruct (convert_price cp (ad_pbuy_end a) t); [|reflexivity]. destruct (convert_price cp (ad_pbuy_marg a) t); [|reflexivity].
  destruct (sell_order e (ad_tkn a) _ _ _ _ _ _ _ _ _); [|reflexivity]. destruct (sell_order e t _ _ _ _ _ _ _ _ _); reflexivity.
Qed.
Lemma other_base cp : other cp (tknb cp) = Some (tknq cp).
Proof. unfold other, has_basetoken. rewrite String.eqb_refl. reflexivity. Qed.
Lemma convert_base_bound cp p v m : tknb cp <> tknq cp -> (0 < m)%Q -> (forall q, p = Some q -> m <= q)%Q -> convert_price cp p (tknb cp) = Some v -> forall q, v = Some q -> (q <= 1 / m)%Q.
Proof.
  intros Hne Hm Hp E q ->. destruct p as [p|]; [|discriminate]. specialize (Hp p eq_refl).
  destruct (convert_price_spec cp p (tknb cp)) as (_ & C & _). rewrite (C eq_refl Hne ltac:(lra)) in E. injection E as <-.
  apply Qle_shift_div_l; [assumption|]. setoid_replace (1 / p * m)%Q with (m / p)%Q by (field; lra). apply Qle_shift_div_r; lra.
Qed.
Lemma convert_quote_bound cp p v m : (forall q, p = Some q -> q <= m)%Q -> convert_price cp p (tknq cp) = Some v -> forall q, v = Some q -> (q <= m)%Q.
Proof.
  intros Hp E q ->. destruct p as [p|]; [|discriminate]. destruct (convert_price_spec cp p (tknq cp)) as (C & _). rewrite (C eq_refl) in E. injection E as <-. apply Hp. reflexivity.
Qed.
Lemma gap_worth e ops a ops' cp m o l : e_exclude_future e = true -> router_bounded e -> router_priced e -> Forall (legit e) (ops ++ OpAdd a :: ops') ->
  get_carbon_pair e (ad_pair a) = Some cp -> ad_tkn a = tknb cp -> tknb cp <> tknq cp -> (0 < m)%Q ->
  (forall p, ad_psell_start a = Some p \/ ad_psell_end a = Some p -> m <= p)%Q ->
  (forall p, ad_pbuy_start a = Some p \/ ad_pbuy_end a = Some p -> p <= m)%Q ->
  let n := next_id (run e init ops) in let s := run e init (ops ++ OpAdd a :: ops') in
  oget n (orders s) = Some o -> oget (S n) (orders s) = Some l ->
  so_tkn o = tknb cp /\ so_tkn l = tknq cp /\ (m * amount_of (ad_amt_sell a) + amount_of (ad_amt_buy a) <= m * so_y o + so_y l)%Q.
Proof.
  intros He Hb Hr Hl Hc Ht Hne Hm Hs Hbuy n s Ho Hll.
  pose proof (run_well_keyed e ops He) as Hw. set (s0 := run e init ops) in *.
  assert (Eapp : ops ++ OpAdd a :: ops' = (ops ++ [OpAdd a]) ++ ops') by (rewrite <- app_assoc; reflexivity).
  assert (E1 : run e init (ops ++ [OpAdd a]) = fst (add_strategy e s0 a)) by (rewrite run_app; reflexivity).
  assert (Es : s = run e (fst (add_strategy e s0 a)) ops') by (unfold s; rewrite Eapp, run_app, E1; reflexivity).
  assert (Ht2 : other cp (ad_tkn a) = Some (tknq cp)) by (rewrite Ht; apply other_base).
  pose proof (add_issues e s0 a cp _ Hc Ht2) as Nx.
  assert (Hw1 : well_keyed (fst (add_strategy e s0 a))) by (apply add_well_keyed; assumption).
  assert (Ab : forall k x, (k < S (S n))%nat -> oget k (orders s) = Some x -> oget k (orders (fst (add_strategy e s0 a))) <> None).
  { intros k x Hk Hx E. rewrite Es, (run_absent e ops' _ k He Hw1) in Hx; [discriminate| |assumption]. rewrite Nx. exact Hk. }
  pose proof (Ab n o ltac:(lia) Ho) as A1. pose proof (Ab (S n) l ltac:(lia) Hll) as A2.
  assert (F : oget n (orders s0) = None) by (apply oget_None, well_keyed_fresh; [assumption|unfold n; lia]).
  assert (F' : oget (S n) (orders s0) = None) by (apply oget_None, well_keyed_fresh; [assumption|unfold n; lia]).
  destruct (add_cases e s0 a) as [E|[E|E]]; [rewrite E in A1; contradiction|rewrite E in A1; contradiction|].
  destruct E as (cp' & t2 & Hc' & Ht2' & psm & pss & pse & pbs & pbe & pbm & o1 & C1 & C2 & C3 & C4 & C5 & C6 & S1 & D).
  assert (cp' = cp) by congruence. subst cp'. assert (t2 = tknq cp) by congruence. subst t2. rewrite Ht in *. fold n in D, S1.
  destruct D as [[_ D]|(o2 & S2 & D)]; rewrite D in *; cbn [fst orders] in *.
  { rewrite oget_oset_other in A2 by lia. contradiction. }
  pose proof (sell_order_fields _ _ _ _ _ _ _ _ _ _ _ _ S1) as (_ & L1 & T1 & _). pose proof (sell_order_fields _ _ _ _ _ _ _ _ _ _ _ _ S2) as (_ & L2 & T2 & _).
  apply sell_order_terms in S1 as (_ & Y1 & B1). apply sell_order_terms in S2 as (_ & Y2 & B2).
  assert (G1 : (so_phigh o1 <= 1 / m)%Q).
  { apply B1; [apply Qle_shift_div_l; lra| |]; eapply convert_base_bound; try eassumption; intros q Hq; apply Hs; auto. }
  assert (G2 : (so_phigh o2 <= m)%Q).
  { apply B2; [lra| |]; eapply convert_quote_bound; try eassumption; intros q Hq; apply Hbuy; auto. }
  set (w := fun t => if string_dec t (tknb cp) then m else 1%Q).
  assert (Wb : w (tknb cp) = m) by (unfold w; destruct (string_dec _ _); congruence).
  assert (Wq : w (tknq cp) = 1%Q) by (unfold w; destruct (string_dec _ _); congruence).
  assert (O1 : oget n (orders (run e init (ops ++ [OpAdd a]))) = Some o1) by (rewrite E1; cbn [orders]; rewrite oget_oset_other, oget_oset_same by lia; reflexivity).
  assert (O2 : oget (S n) (orders (run e init (ops ++ [OpAdd a]))) = Some o2) by (rewrite E1; cbn [orders]; apply oget_oset_same).
  assert (To : so_tkn o = tknb cp /\ so_tkn l = tknq cp).
  { assert (Hw2 : well_keyed (run e init (ops ++ [OpAdd a]))) by (apply run_well_keyed; assumption).
    unfold s in Ho, Hll. rewrite Eapp, run_app in Ho, Hll.
    destruct (run_persist e ops' _ n o1 o He Hw2 O1 Ho) as [X1 _]. destruct (run_persist e ops' _ (S n) o2 l He Hw2 O2 Hll) as [X2 _].
    apply same_terms_tkn in X1 as (-> & _). apply same_terms_tkn in X2 as (-> & _). auto. }
  destruct To as [To Tl]. split; [assumption|]. split; [assumption|].
  unfold s in Ho, Hll. rewrite Eapp in Ho, Hll, Hl.
  pose proof (strategy_worth e (ops ++ [OpAdd a]) ops' n o1 o2 o l w He Hb Hr Hl O1) as X. rewrite L1 in X. specialize (X O2 Ho Hll).
  unfold no_bargain, worth_of in X. rewrite T1, T2, To, Tl, Wb, Wq, Y1, Y2 in X.
  assert (X1 : (so_phigh o1 * m <= 1)%Q). { pose proof (qmul_le_l m _ _ ltac:(lra) G1) as Z1. setoid_replace (m * (1 / m))%Q with 1%Q in Z1 by (field; lra). lra. }
  specialize (X ltac:(lra) ltac:(lra) X1 ltac:(lra)). lra.
Qed.

(** ** The whole book *)
Lemma step_book e w s o : e_exclude_future e = true -> router_priced e -> sound s -> is_trade o -> all_fair w (orders s) ->
  (book_worth w (orders s) <= book_worth w (orders (step e s o)))%Q /\ all_fair w (orders (step e s o)).
Proof.
  intros He Hr Sd It Af.
  assert (Tr : forall r : state * bool, orders (fst r) = orders s \/ (exists c routes, priced c (orders s) routes /\ orders (fst r) = fst (fst (route_loop c 0 routes (orders s) (trades s)))) ->
     (book_worth w (orders s) <= book_worth w (orders (fst r)))%Q /\ all_fair w (orders (fst r))).
  { intros r [->|(c & routes & P & ->)]; [split; [apply Qle_refl|assumption]|]. split; [apply loop_book; assumption|]. apply (all_fair_evolves w (orders s)); [apply loop_evolves|assumption]. }
  set (P := fun r : state * bool => (book_worth w (orders s) <= book_worth w (orders (fst r)))%Q /\ all_fair w (orders (fst r))).
  assert (P0 : P (s, false)) by (split; [apply Qle_refl|assumption]).
  destruct o as [a|tkn amt ps pe pm pr oid lid|i|a|a]; try contradiction; cbn [step].
  - apply (proj1 (amm_ind e s a P P0 (fun tkn amt cp by_ use => Tr _ (trade_shape e s tkn amt _ cp by_ _ _ _ _ use _ Hr (sd_keyed s Sd) (sd_bounded s Sd) (sd_proper s Sd))))).
  - apply (proj2 (amm_ind e s a P P0 (fun tkn amt cp by_ use => Tr _ (trade_shape e s tkn amt _ cp by_ _ _ _ _ use _ Hr (sd_keyed s Sd) (sd_bounded s Sd) (sd_proper s Sd))))).
Qed.
Lemma trade_legit e o : is_trade o -> legit e o.
Proof. destruct o; cbn; tauto. Qed.
Lemma run_book e w ops s : e_exclude_future e = true -> router_bounded e -> router_priced e -> sound s -> Forall is_trade ops -> all_fair w (orders s) ->
  (book_worth w (orders s) <= book_worth w (orders (run e s ops)))%Q.
Proof.
  intros He Hb Hr. revert s. induction ops as [|o ops IH]; intros s Sd It Af; [apply Qle_refl|]. inversion It; subst.
  destruct (step_book e w s o) as [A B]; try assumption. cbn. eapply Qle_trans; [exact A|]. apply IH; try assumption. apply step_sound; try assumption. apply trade_legit. assumption.
Qed.
Lemma fair_of e w ops : e_exclude_future e = true -> well_linked (orders (run e init ops)) -> no_bargains w (orders (run e init ops)) ->
  (forall k o, In (k, o) (orders (run e init ops)) -> 0 <= w (so_tkn o))%Q -> all_fair w (orders (run e init ops)).
Proof.
  intros He Hl Hn Hw k o Ho. split; [apply (Hw k), oget_In; assumption|]. destruct (run_paired e ops He k o Ho) as [D _]. split; [lia|].
  destruct (Hl k o (oget_In _ _ _ Ho)) as [l Hin]. exists l. split; [apply In_oget; [apply (run_well_keyed e ops He)|assumption]|]. apply (Hn k o l); [apply oget_In; assumption|assumption].
Qed.
Lemma book_never_falls e ops ops' w : e_exclude_future e = true -> router_bounded e -> router_priced e -> Forall (legit e) ops -> Forall is_trade ops' ->
  let s := run e init ops in well_linked (orders s) -> no_bargains w (orders s) -> (forall k o, In (k, o) (orders s) -> 0 <= w (so_tkn o))%Q ->
  (book_worth w (orders s) <= book_worth w (orders (run e s ops')))%Q.
Proof.
  intros He Hb Hr Hl It s Wl Nb Hw. apply run_book; try assumption; [apply run_sound; try assumption; apply init_sound|]. apply fair_of; assumption.
Qed.

(** ** Totals per token *)
Lemma book_by_token w os T : NoDup T -> (forall k o, In (k, o) os -> In (so_tkn o) T) -> (book_worth w os == qsum (fun t => w t * book_total t os) T)%Q.
Proof.
  intros Nd Hin. unfold book_worth, book_total.
  transitivity (qsum (fun t => qsum (fun ko : nat * sorder => w t * (if string_dec (so_tkn (snd ko)) t then so_y (snd ko) else 0)) os) T)%Q.
  - rewrite qsum_swap. apply qsum_eq. intros [k o] Ho. cbn [snd]. specialize (Hin k o Ho). unfold worth_of.
    clear - Nd Hin. induction T as [|t T IH]; [contradiction|]. inversion Nd as [|? ? N1 N2]; subst. cbn [qsum].
    destruct (string_dec (so_tkn o) t) as [E|E].
    + subst t. assert (Z : (qsum (fun a => w a * (if string_dec (so_tkn o) a then so_y o else 0)) T == 0)%Q); [|rewrite Z; ring].
      rewrite <- (qsum_zero T). apply qsum_eq. intros a Ha. destruct (string_dec (so_tkn o) a); [subst; contradiction|ring].
    + rewrite <- IH; [ring|assumption|]. destruct Hin; [congruence|assumption].
  - apply qsum_eq. intros t _. clear. induction os as [|ko os IH]; cbn [qsum]; [ring|]. rewrite IH. ring.
Qed.
Lemma qsum_le {A} (f g : A -> Q) l : (forall a, In a l -> f a <= g a)%Q -> (qsum f l <= qsum g l)%Q.
Proof. induction l as [|a l IH]; intros H; cbn; [apply Qle_refl|]. pose proof (H a (or_introl eq_refl)). specialize (IH ltac:(intros; apply H; right; assumption)). lra. Qed.
Lemma qsum_lt {A} (f g : A -> Q) l x : (forall a, In a l -> f a <= g a)%Q -> In x l -> (f x < g x)%Q -> (qsum f l < qsum g l)%Q.
Proof.
  induction l as [|a l IH]; intros H Hx Hlt; [contradiction|]. cbn. pose proof (H a (or_introl eq_refl)) as Ha.
  pose proof (qsum_le f g l ltac:(intros; apply H; right; assumption)) as Hs.
  destruct Hx as [->|Hx]; [lra|]. specialize (IH ltac:(intros; apply H; right; assumption) Hx Hlt). lra.
Qed.
Lemma no_free_lunch e ops ops' w t : e_exclude_future e = true -> router_bounded e -> router_priced e -> Forall (legit e) ops -> Forall is_trade ops' ->
  let s := run e init ops in let s' := run e s ops' in
  well_linked (orders s) -> no_bargains w (orders s) -> (forall u, 0 < w u)%Q ->
  (book_total t (orders s') < book_total t (orders s))%Q -> exists u, (book_total u (orders s) < book_total u (orders s'))%Q.
Proof.
  intros He Hb Hr Hl It s s' Wl Nb Hw Hlt.
  assert (V : (book_worth w (orders s) <= book_worth w (orders s'))%Q) by (apply book_never_falls; try assumption; intros; apply Qlt_le_weak, Hw).
  set (T := nodup string_dec (t :: map (fun ko => so_tkn (snd ko)) (orders s) ++ map (fun ko => so_tkn (snd ko)) (orders s'))).
  assert (Nd : NoDup T) by apply NoDup_nodup.
  rewrite (book_by_token w (orders s) T) in V; [|assumption|].
  2:{ intros k o Ho. apply nodup_In. right. apply in_or_app. left. apply in_map_iff. exists (k, o). auto. }
  rewrite (book_by_token w (orders s') T) in V; [|assumption|].
  2:{ intros k o Ho. apply nodup_In. right. apply in_or_app. right. apply in_map_iff. exists (k, o). auto. }
  destruct (existsb (fun u => Qlt_bool (book_total u (orders s)) (book_total u (orders s'))) T) eqn:E.
  - apply existsb_exists in E as (u & _ & E). exists u. apply Qlt_bool_iff. assumption.
  - exfalso. assert (All : forall u, In u T -> (book_total u (orders s') <= book_total u (orders s))%Q).
    { intros u Hu. apply Qlt_bool_false. destruct (Qlt_bool _ _) eqn:E2; [|reflexivity]. rewrite <- E. symmetry. apply existsb_exists. eauto. }
    assert (Hlt2 : (qsum (fun t => w t * book_total t (orders s')) T < qsum (fun t => w t * book_total t (orders s)) T)%Q); [|lra].
    apply (qsum_lt _ _ T t).
    + intros u Hu. apply qmul_le_l; [apply Qlt_le_weak, Hw|apply All; assumption].
    + apply nodup_In. left. reflexivity.
    + pose proof (qmul_pos (w t) (book_total t (orders s) - book_total t (orders s')) (Hw t) ltac:(lra)). lra.
Qed.
