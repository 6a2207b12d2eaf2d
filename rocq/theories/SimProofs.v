From Coq Require Import ZArith QArith Qabs List Bool Ascii String DecimalString DecimalNat Lia.
From Verif Require Import TradeModel TradeProofs PairModel PairSpec PairProofs SimModel SimSpec.
Import ListNotations.
Local Open Scope list_scope.

(** ** Dicts *)
Lemma oget_oset_same k v d : oget k (oset k v d) = Some v.
Proof.
  unfold oget, oset. induction d as [|[k' v'] d IH]; cbn; [rewrite Nat.eqb_refl; reflexivity|].
  destruct (Nat.eqb k k') eqn:E; cbn; rewrite E; [reflexivity|exact IH].
Qed.
Lemma oget_oset_other k k' v d : k <> k' -> oget k (oset k' v d) = oget k d.
Proof.
  unfold oget, oset. intros H. induction d as [|[k2 v2] d IH]; cbn.
  - apply Nat.eqb_neq in H. rewrite H. reflexivity.
  - destruct (Nat.eqb k' k2) eqn:E; cbn.
    + apply Nat.eqb_eq in E. subst k2. apply Nat.eqb_neq in H. rewrite H. reflexivity.
    + destruct (Nat.eqb k k2); [reflexivity|exact IH].
Qed.
Lemma oget_oset k k' v d : oget k (oset k' v d) = if Nat.eq_dec k k' then Some v else oget k d.
Proof. destruct (Nat.eq_dec k k') as [->|H]; [apply oget_oset_same|apply oget_oset_other; assumption]. Qed.
Lemma oget_In k v d : oget k d = Some v -> In (k, v) d.
Proof.
  unfold oget. induction d as [|[k' v'] d IH]; cbn; [discriminate|].
  destruct (Nat.eqb_spec k k') as [->|]; intros H; [injection H as ->; auto|auto].
Qed.
Lemma oget_None k d : oget k d = None <-> ~ In k (map fst d).
Proof.
  unfold oget. induction d as [|[k' v'] d IH]; cbn; [tauto|].
  destruct (Nat.eqb_spec k k') as [->|H]; [split; [discriminate|tauto]|].
  rewrite IH. split; [intros H1 [H2|H2]; [congruence|auto]|tauto].
Qed.
Lemma oget_Some_In k d : In k (map fst d) <-> exists v, oget k d = Some v.
Proof.
  split.
  - intros H. destruct (oget k d) eqn:E; [eauto|]. apply oget_None in E. contradiction.
  - intros (v & H). destruct (in_dec Nat.eq_dec k (map fst d)) as [|H1]; [assumption|]. apply oget_None in H1. congruence.
Qed.
Lemma In_oget k v d : NoDup (map fst d) -> In (k, v) d -> oget k d = Some v.
Proof.
  unfold oget. induction d as [|[k' v'] d IH]; cbn; [tauto|]. intros Hn [H|H].
  - injection H as -> ->. rewrite Nat.eqb_refl. reflexivity.
  - inversion Hn; subst. destruct (Nat.eqb_spec k k') as [->|]; [|auto].
    exfalso. apply H2. apply in_map_iff. exists (k', v). auto.
Qed.
Lemma oset_keys_in k v d : In k (map fst d) -> map fst (oset k v d) = map fst d.
Proof.
  unfold oset. induction d as [|[k' v'] d IH]; cbn; [tauto|]. intros H.
  destruct (Nat.eqb_spec k k') as [->|Hn]; cbn; [reflexivity|]. f_equal. apply IH. destruct H; [congruence|assumption].
Qed.
Lemma oset_new k v d : ~ In k (map fst d) -> oset k v d = d ++ [(k, v)].
Proof.
  unfold oset. induction d as [|[k' v'] d IH]; cbn; [reflexivity|]. intros H.
  destruct (Nat.eqb_spec k k') as [->|Hn]; [exfalso; tauto|]. rewrite IH by tauto. reflexivity.
Qed.
Lemma oget_set_keys k v d k' : oget k' d = Some v -> map fst (oset k' k d) = map fst d.
Proof. intros H. apply oset_keys_in. apply oget_Some_In. eauto. Qed.
Lemma odel_keys_incl k d x : In x (map fst (odel k d)) -> In x (map fst d).
Proof.
  unfold odel. induction d as [|[k' v'] d IH]; cbn; [tauto|]. destruct (Nat.eqb k k'); cbn; tauto.
Qed.
Lemma odel_In k d x : In x (odel k d) -> In x d.
Proof. unfold odel. induction d as [|[k' v'] d IH]; cbn; [tauto|]. destruct (Nat.eqb k k'); cbn; tauto. Qed.
Lemma odel_NoDup k d : NoDup (map fst d) -> NoDup (map fst (odel k d)).
Proof.
  unfold odel. induction d as [|[k' v'] d IH]; cbn; [auto|]. intros H. inversion H; subst.
  destruct (Nat.eqb k k'); [assumption|]. cbn. constructor; [|auto].
  intros H'. apply H2. apply (odel_keys_incl k). exact H'.
Qed.
Lemma oget_odel_same k d : NoDup (map fst d) -> oget k (odel k d) = None.
Proof.
  unfold oget, odel. induction d as [|[k' v'] d IH]; cbn; [reflexivity|]. intros H. inversion H; subst.
  destruct (Nat.eqb_spec k k') as [->|Hn].
  - apply oget_None. assumption.
  - cbn. apply Nat.eqb_neq in Hn. rewrite Hn. auto.
Qed.
Lemma oget_odel_other k k' d : k <> k' -> oget k (odel k' d) = oget k d.
Proof.
  unfold oget, odel. intros H. induction d as [|[k2 v2] d IH]; cbn; [reflexivity|].
  destruct (Nat.eqb_spec k' k2) as [->|Hn].
  - apply Nat.eqb_neq in H. rewrite H. reflexivity.
  - cbn. destruct (Nat.eqb k k2); [reflexivity|exact IH].
Qed.

Definition tget := @dget string trec String.eqb.
Lemma tget_tset k k' v d : tget k (tset k' v d) = if string_dec k k' then Some v else tget k d.
Proof.
  unfold tget, tset. induction d as [|[k2 v2] d IH]; cbn.
  - destruct (String.eqb_spec k k'), (string_dec k k'); congruence.
  - destruct (String.eqb_spec k' k2) as [->|Hn]; cbn.
    + destruct (String.eqb_spec k k2), (string_dec k k2); congruence.
    + destruct (String.eqb_spec k k2); [|exact IH]. subst. destruct (string_dec k2 k'); [congruence|reflexivity].
Qed.

(** ** Orders *)
Lemma same_terms_refl o : same_terms o o.
Proof. repeat split. Qed.
Lemma same_terms_trans a b c : same_terms a b -> same_terms b c -> same_terms a c.
Proof. unfold same_terms. intros (?&?&?&?&?&?&?&?) (?&?&?&?&?&?&?&?). repeat split; congruence. Qed.
Lemma same_terms_set_y o y : same_terms o (set_y o y).
Proof. repeat split. Qed.

Lemma sell_order_fields e tkn amt lo hi cp i1 i2 pm yi cid o : sell_order e tkn amt lo hi cp i1 i2 pm yi cid = Some o ->
  so_id o = i1 /\ so_lid o = i2 /\ so_tkn o = tkn /\ so_pair o = cp.
Proof.
  unfold sell_order. destruct pm, yi; try discriminate; intros H;
  repeat (match type of H with
   | bind _ _ = Some _ => apply bind_Some in H as (? & ? & H)
   | (let '(_, _) := ?x in _) = _ => destruct x
   | (if ?b then _ else _) = _ => destruct b; try discriminate
   | (let (_, _) := ?x in _) = _ => destruct x
   end); injection H as <-; repeat split.
Qed.

(** ** add_strategy: the four possible outcomes *)
Lemma add_cases e s a :
  let s2 := mkState (orders s) (trades s) (numtrades s) (S (S (next_id s))) in
  let n := next_id s in
  add_strategy e s a = (s, false) \/
  add_strategy e s a = (s2, false) \/
  exists cp tkn2, get_carbon_pair e (ad_pair a) = Some cp /\ other cp (ad_tkn a) = Some tkn2 /\
   exists psm pss pse pbs pbe pbm o1,
    convert_price cp (ad_psell_marg a) (ad_tkn a) = Some psm /\ convert_price cp (ad_psell_start a) (ad_tkn a) = Some pss /\
    convert_price cp (ad_psell_end a) (ad_tkn a) = Some pse /\ convert_price cp (ad_pbuy_start a) tkn2 = Some pbs /\
    convert_price cp (ad_pbuy_end a) tkn2 = Some pbe /\ convert_price cp (ad_pbuy_marg a) tkn2 = Some pbm /\
    sell_order e (ad_tkn a) (ad_amt_sell a) pse pss cp n (S n) psm (ad_yint_sell a) (ad_cid a) = Some o1 /\
    ((sell_order e tkn2 (ad_amt_buy a) pbe pbs cp (S n) n pbm (ad_yint_buy a) (ad_cid a) = None /\
      add_strategy e s a = (mkState (oset n o1 (orders s)) (trades s) (numtrades s) (S (S n)), false)) \/
     exists o2, sell_order e tkn2 (ad_amt_buy a) pbe pbs cp (S n) n pbm (ad_yint_buy a) (ad_cid a) = Some o2 /\
      add_strategy e s a = (mkState (oset (S n) o2 (oset n o1 (orders s))) (trades s) (numtrades s) (S (S n)), ui_ok o1 && ui_ok o2)).
Proof.
  cbv zeta. unfold add_strategy.
  destruct (get_carbon_pair e (ad_pair a)) as [cp|] eqn:Ecp; [|tauto].
  destruct (other cp (ad_tkn a)) as [tkn2|] eqn:Et; [|tauto].
  destruct (convert_price cp (ad_psell_marg a) (ad_tkn a)) as [psm|] eqn:Epsm; [|tauto].
  destruct (convert_price cp (ad_psell_start a) (ad_tkn a)) as [pss|] eqn:Epss; [|tauto].
  destruct (convert_price cp (ad_psell_end a) (ad_tkn a)) as [pse|] eqn:Epse; [|tauto].
  destruct (convert_price cp (ad_pbuy_start a) tkn2) as [pbs|] eqn:Epbs; [|tauto].
  destruct (convert_price cp (ad_pbuy_end a) tkn2) as [pbe|] eqn:Epbe; [|tauto].
  destruct (convert_price cp (ad_pbuy_marg a) tkn2) as [pbm|] eqn:Epbm; [|tauto].
  cbn [orders trades numtrades next_id].
  destruct (sell_order e (ad_tkn a) _ _ _ _ _ _ _ _ _) as [o1|] eqn:E1; [|tauto].
  right; right. exists cp, tkn2. split; [reflexivity|]. split; [assumption|].
  exists psm, pss, pse, pbs, pbe, pbm, o1. repeat (split; [assumption|]).
  destruct (sell_order e tkn2 _ _ _ _ _ _ _ _ _) as [o2|] eqn:E2; [|left; auto].
  right. exists o2. auto.
Qed.

(** fresh keys *)
Lemma well_keyed_fresh s k : well_keyed s -> (next_id s <= k)%nat -> ~ In k (map fst (orders s)).
Proof.
  intros [_ H] Hk Hin. apply in_map_iff in Hin as ([k' o] & E & Hin). cbn in E. subst k'.
  destruct (H k o Hin). lia.
Qed.
Lemma NoDup_app_intro {A} (l1 l2 : list A) : NoDup l1 -> NoDup l2 -> (forall x, In x l1 -> ~ In x l2) -> NoDup (l1 ++ l2).
Proof.
  induction l1 as [|a l1 IH]; cbn; [auto|]. intros H1 H2 H. inversion H1; subst. constructor.
  - rewrite in_app_iff. intros [G|G]; [contradiction|]. apply (H a); auto.
  - apply IH; auto.
Qed.
Lemma well_keyed_app s ks ts nt nid : well_keyed s -> (next_id s <= nid)%nat ->
  NoDup (map fst ks) ->
  (forall k o, In (k, o) ks -> so_id o = k /\ (next_id s <= k < nid)%nat) ->
  well_keyed (mkState (orders s ++ ks) ts nt nid).
Proof.
  intros Hw Hn Hnd Hks. split; cbn.
  - rewrite map_app. apply NoDup_app_intro; [apply Hw|assumption|].
    intros x Hx Hx'. apply in_map_iff in Hx' as ([k o] & E & Hin). cbn in E. subst k.
    apply (well_keyed_fresh s x Hw); [|assumption]. apply Hks in Hin. lia.
  - intros k o Hin. apply in_app_iff in Hin as [Hin|Hin].
    + destruct Hw as [_ Hw]. destruct (Hw k o Hin). split; [assumption|lia].
    + destruct (Hks k o Hin). split; [assumption|lia].
Qed.

Lemma add_insert1 s o1 ts nt : well_keyed s -> oset (next_id s) o1 (orders s) = orders s ++ [(next_id s, o1)] /\
  (so_id o1 = next_id s -> well_keyed (mkState (orders s ++ [(next_id s, o1)]) ts nt (S (S (next_id s))))).
Proof.
  intros Hw. split; [apply oset_new, well_keyed_fresh; auto|]. intros Hid.
  apply well_keyed_app; auto; [cbn; repeat constructor; tauto|].
  intros k o [H|[]]. injection H as <- <-. split; [assumption|lia].
Qed.
Lemma add_insert2 s o1 o2 ts nt : well_keyed s ->
  oset (S (next_id s)) o2 (oset (next_id s) o1 (orders s)) = orders s ++ [(next_id s, o1); (S (next_id s), o2)] /\
  (so_id o1 = next_id s -> so_id o2 = S (next_id s) ->
   well_keyed (mkState (orders s ++ [(next_id s, o1); (S (next_id s), o2)]) ts nt (S (S (next_id s))))).
Proof.
  intros Hw. split.
  - destruct (add_insert1 s o1 [] 0 Hw) as [-> _].
    rewrite oset_new; [rewrite <- app_assoc; reflexivity|].
    rewrite map_app, in_app_iff. cbn. intros [H|[H|[]]]; [|lia].
    apply (well_keyed_fresh s (S (next_id s)) Hw); [lia|assumption].
  - intros H1 H2. apply well_keyed_app; auto.
    + cbn. repeat constructor; cbn; [|tauto]. intros [H|[]]. lia.
    + intros k o [H|[H|[]]]; injection H as <- <-; split; try assumption; lia.
Qed.

(** ** well_keyed is an invariant of every operation *)
Lemma well_keyed_next s n nid : well_keyed s -> (next_id s <= nid)%nat -> well_keyed (mkState (orders s) (trades s) n nid).
Proof. intros [H1 H2] H. split; [assumption|]. cbn. intros k o Hin. destruct (H2 k o Hin). split; [assumption|lia]. Qed.
Lemma add_well_keyed e s a : well_keyed s -> well_keyed (fst (add_strategy e s a)).
Proof.
  intros Hw. destruct (add_cases e s a) as [->|[->|H]]; cbn.
  - assumption.
  - apply well_keyed_next; [assumption|lia].
  - destruct H as (cp & tkn2 & _ & _ & psm & pss & pse & pbs & pbe & pbm & o1 & _ & _ & _ & _ & _ & _ & E1 & H).
    apply sell_order_fields in E1 as (I1 & _).
    destruct H as [[_ ->]|(o2 & E2 & ->)]; cbn.
    + destruct (add_insert1 s o1 (trades s) (numtrades s) Hw) as [-> H]. auto.
    + apply sell_order_fields in E2 as (I2 & _).
      destruct (add_insert2 s o1 o2 (trades s) (numtrades s) Hw) as [-> H]. auto.
Qed.
Lemma delete_well_keyed s i : well_keyed s -> well_keyed (fst (delete_order s i)).
Proof.
  intros [H1 H2]. assert (D : forall k ts nt, well_keyed (mkState (odel k (orders s)) ts nt (next_id s))).
  { intros k ts nt. split; cbn; [apply odel_NoDup; assumption|]. intros k' o Hin. apply odel_In in Hin. auto. }
  unfold delete_order. destruct (oget i (orders s)) as [o|]; [|split; assumption].
  destruct (Nat.eqb (so_lid o) i); [apply D|]. destruct (so_lid o) as [|l]; [apply D|].
  destruct (oget _ _); [|apply D]. cbn. split; cbn.
  - apply odel_NoDup, odel_NoDup. assumption.
  - intros k' o' Hin. apply odel_In, odel_In in Hin. auto.
Qed.

(** ** The route loop *)
(** orders before and after agree up to balances, and capacities grow *)
Definition evolves (os os' : list (nat * sorder)) : Prop :=
  map fst os' = map fst os /\
  forall k o, oget k os = Some o -> exists o', oget k os' = Some o' /\ same_terms o o' /\ (so_yint o <= so_yint o')%Q.
Lemma evolves_refl os : evolves os os.
Proof. split; [reflexivity|]. intros k o H. exists o. repeat split; [assumption|apply Qle_refl]. Qed.
Lemma evolves_trans a b c : evolves a b -> evolves b c -> evolves a c.
Proof.
  intros [K1 H1] [K2 H2]. split; [congruence|]. intros k o H.
  destruct (H1 k o H) as (o1 & E1 & S1 & Y1). destruct (H2 k o1 E1) as (o2 & E2 & S2 & Y2).
  exists o2. split; [assumption|]. split; [apply (same_terms_trans _ _ _ S1 S2)|apply (Qle_trans _ _ _ Y1 Y2)].
Qed.
Lemma evolves_set k o o' os : oget k os = Some o -> same_terms o o' -> (so_yint o <= so_yint o')%Q -> evolves os (oset k o' os).
Proof.
  intros H HS HY. split; [apply (oget_set_keys o' o os k H)|]. intros k' v Hk'. rewrite oget_oset.
  destruct (Nat.eq_dec k' k) as [->|Hn].
  - assert (v = o) by congruence. subst v. exists o'. auto.
  - exists v. repeat split; [assumption|apply Qle_refl].
Qed.
Lemma evolves_back os os' k o' : evolves os os' -> oget k os' = Some o' -> exists o, oget k os = Some o /\ same_terms o o'.
Proof.
  intros [K H] E. assert (Hin : In k (map fst os)) by (rewrite <- K; apply oget_Some_In; eauto).
  apply oget_Some_In in Hin as (o & Eo). destruct (H k o Eo) as (o'' & E' & Hs & _). exists o. split; [assumption|].
  congruence.
Qed.

Lemma Qlt_bool_false a b : Qlt_bool a b = false -> (b <= a)%Q.
Proof. unfold Qlt_bool. rewrite negb_false_iff. apply Qle_bool_iff. Qed.

(** the linked order after receiving [b] *)
Definition credited (l : sorder) (b : Q) : sorder :=
  let l := set_y l (so_y l + b)%Q in if Qlt_bool (so_yint l) (so_y l) then set_yint l (so_y l) else l.
Lemma credited_spec l b : same_terms l (credited l b) /\ (so_yint l <= so_yint (credited l b))%Q /\
  so_y (credited l b) = (so_y l + b)%Q /\ (so_y (credited l b) <= so_yint (credited l b))%Q.
Proof.
  unfold credited. cbn. destruct (Qlt_bool (so_yint l) (so_y l + b)) eqn:E; cbn.
  - apply Qlt_bool_iff in E. repeat split; [apply Qlt_le_weak; assumption|apply Qle_refl].
  - apply Qlt_bool_false in E. repeat split; [apply Qle_refl|assumption].
Qed.

(** [move] in terms of fills *)
Lemma move_cases (swap : bool) (i : nat) (a1 a2 : Q) (os : list (nat * sorder)) :
  let sold := if swap then a2 else a1 in let bought := if swap then a1 else a2 in
  (oget i os = None /\ move swap i a1 a2 os = (os, false)) \/
  exists o, oget i os = Some o /\
    let os1 := oset i (set_y o (so_y o - sold)%Q) os in
    ((so_lid o = i /\ move swap i a1 a2 os = (os1, true)) \/
     (so_lid o <> i /\ oget (so_lid o) os = None /\ move swap i a1 a2 os = (os1, false)) \/
     (exists l, so_lid o <> i /\ oget (so_lid o) os = Some l /\ move swap i a1 a2 os = (oset (so_lid o) (credited l bought) os1, true))).
Proof.
  cbv zeta. unfold move. destruct (oget i os) as [o|] eqn:E; [|tauto]. right. exists o. split; [reflexivity|].
  destruct (Nat.eqb_spec (so_lid o) i) as [H|H]; [tauto|]. right.
  rewrite oget_oset_other by assumption. destruct (oget (so_lid o) os) as [l|] eqn:El; [|tauto].
  right. exists l. repeat split; assumption.
Qed.
Lemma move_evolves swap i a1 a2 os : evolves os (fst (move swap i a1 a2 os)).
Proof.
  destruct (move_cases swap i a1 a2 os) as [[_ ->]|(o & E & H)]; [apply evolves_refl|]. cbv zeta in H.
  assert (V : evolves os (oset i (set_y o (so_y o - (if swap then a2 else a1))%Q) os)).
  { apply (evolves_set i o); [assumption|apply same_terms_set_y|apply Qle_refl]. }
  destruct H as [[_ ->]|[(_ & _ & ->)|(l & Hn & El & ->)]]; cbn [fst]; try assumption.
  apply (evolves_trans _ _ _ V). apply (evolves_set _ l); [rewrite oget_oset_other; assumption|apply credited_spec|apply credited_spec].
Qed.
(** balance effect of one fill on order [k] *)
Definition delta (os : list (nat * sorder)) (k : nat) (f : fill) : Q :=
  ((if Nat.eqb (f_id f) k then - f_sold f else 0) +
   match oget (f_id f) os with
   | Some o => if negb (Nat.eqb (so_lid o) (f_id f)) && Nat.eqb (so_lid o) k then f_bought f else 0
   | None => 0
   end)%Q.
Lemma move_delta swap i a1 a2 os os' : move swap i a1 a2 os = (os', true) ->
  forall k o, oget k os = Some o -> exists o', oget k os' = Some o' /\
    (so_y o' == so_y o + delta os k (mkFill i (if swap then a2 else a1) (if swap then a1 else a2)))%Q.
Proof.
  intros Hm k o Hk. unfold delta. cbn [f_id f_sold f_bought].
  destruct (move_cases swap i a1 a2 os) as [[_ E]|(oi & Ei & H)]; [congruence|]. cbv zeta in H.
  rewrite Ei. destruct H as [[Hl E]|[(_ & _ & E)|(l & Hn & El & E)]]; rewrite E in Hm; try discriminate; injection Hm as <-.
  - rewrite Hl, Nat.eqb_refl. cbn [negb andb]. rewrite oget_oset.
    destruct (Nat.eq_dec k i) as [->|Hki].
    + assert (oi = o) by congruence. subst oi. rewrite Nat.eqb_refl. eexists. split; [reflexivity|]. cbn. ring.
    + rewrite (proj2 (Nat.eqb_neq i k)) by congruence. exists o. split; [assumption|]. ring.
  - rewrite (proj2 (Nat.eqb_neq _ _) Hn). cbn [negb andb]. rewrite !oget_oset.
    destruct (Nat.eq_dec k i) as [->|Hki].
    + assert (oi = o) by congruence. subst oi. rewrite Nat.eqb_refl, (proj2 (Nat.eqb_neq _ _) Hn).
      destruct (Nat.eq_dec i (so_lid o)); [congruence|].
      eexists. split; [reflexivity|]. cbn. ring.
    + rewrite (proj2 (Nat.eqb_neq i k)) by congruence.
      destruct (Nat.eqb_spec (so_lid oi) k) as [Hlk|Hlk].
      * destruct (Nat.eq_dec k (so_lid oi)); [|congruence]. eexists. split; [reflexivity|].
        destruct (credited_spec l (if swap then a1 else a2)) as (_ & _ & -> & _).
        assert (l = o) by congruence. subst l. ring.
      * destruct (Nat.eq_dec k (so_lid oi)); [congruence|].
        exists o. split; [assumption|]. ring.
Qed.
(** frame *)
Lemma move_frame swap i a1 a2 os k : k <> i -> (forall o, oget i os = Some o -> so_lid o <> k) ->
  oget k (fst (move swap i a1 a2 os)) = oget k os.
Proof.
  intros Hk Hl. destruct (move_cases swap i a1 a2 os) as [[_ ->]|(o & E & H)]; [reflexivity|]. cbv zeta in H.
  specialize (Hl o E).
  destruct H as [[_ ->]|[(_ & _ & ->)|(l & Hn & El & ->)]]; cbn [fst]; rewrite ?oget_oset_other by congruence; reflexivity.
Qed.
(** when does it succeed *)
Lemma move_succeeds swap i a1 a2 os o : oget i os = Some o -> (so_lid o = i \/ exists l, oget (so_lid o) os = Some l) ->
  snd (move swap i a1 a2 os) = true.
Proof.
  intros Ho H. destruct (move_cases swap i a1 a2 os) as [[E _]|(o' & E & G)]; [congruence|]. cbv zeta in G.
  assert (o' = o) by congruence. subst o'.
  destruct G as [[_ ->]|[(Hn & El & ->)|(l & Hn & El & ->)]]; try reflexivity.
  exfalso. destruct H as [H|(l & H)]; congruence.
Qed.
