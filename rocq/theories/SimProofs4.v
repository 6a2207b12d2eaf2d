From Coq Require Import ZArith QArith Qabs List Bool Ascii String DecimalString DecimalNat Lia Lqa.
From Verif Require Import TradeModel TradeProofs PairModel PairSpec PairProofs SimModel SimSpec SimProofs SimProofs2 SimProofs3.
Import ListNotations.
Local Open Scope list_scope.

(** ** C17 *)
Definition conv (cp : pair) (tkn : string) (p : option Q) : option Q := option_map (token_price cp tkn) p.
Lemma convert_is_conv cp tkn p : tkn = tknb cp \/ tkn = tknq cp -> nonzero p -> convert_price cp p tkn = Some (conv cp tkn p).
Proof.
  intros Ht Hz. destruct p as [p|]; [|apply (convert_price_spec cp 0 tkn)].
  unfold conv, token_price, option_map. destruct (string_dec tkn (tknq cp)) as [E|E].
  - apply (proj1 (convert_price_spec cp p tkn) E).
  - destruct Ht as [Ht|Ht]; [|contradiction].
    apply (proj1 (proj2 (convert_price_spec cp p tkn)) Ht E). apply Hz. reflexivity.
Qed.
Lemma token_price_nonneg cp tkn p : ~ (p == 0)%Q -> ((0 <= token_price cp tkn p)%Q <-> (0 <= p)%Q).
Proof.
  intros Hz. unfold token_price. destruct (string_dec _ _); [tauto|]. split; intros H.
  - destruct (Qlt_le_dec p 0) as [L|L]; [|assumption]. exfalso.
    assert (N : (0 < 1 / (- p))%Q) by (apply Qpos_inv; lra).
    assert (E : (1 / - p == - (1 / p))%Q) by (field; assumption). lra.
  - assert (P : (0 < p)%Q) by (destruct (Qle_lt_or_eq _ _ H) as [|E]; [assumption|exfalso; apply Hz; symmetry; assumption]).
    apply Qlt_le_weak, Qpos_inv. assumption.
Qed.
Lemma Qlt_bool_dec a b : {(a < b)%Q /\ Qlt_bool a b = true} + {(b <= a)%Q /\ Qlt_bool a b = false}.
Proof.
  destruct (Qlt_bool a b) eqn:E.
  - left. split; [apply Qlt_bool_iff; assumption|reflexivity].
  - right. split; [apply Qlt_bool_false; assumption|reflexivity].
Qed.
Lemma sell_order_ok e tkn amt ps pe cp i1 i2 pm yi cid : nonzero ps -> nonzero pe ->
  (leg_ok e cp tkn amt ps pe pm yi ->
   exists o, sell_order e tkn amt (conv cp tkn pe) (conv cp tkn ps) cp i1 i2 (conv cp tkn pm) yi cid = Some o /\
     leg_terms cp tkn amt ps pe pm yi o /\ so_id o = i1 /\ so_lid o = i2) /\
  (forall o, sell_order e tkn amt (conv cp tkn pe) (conv cp tkn ps) cp i1 i2 (conv cp tkn pm) yi cid = Some o ->
   leg_ok e cp tkn amt ps pe pm yi).
Proof.
  intros Zs Ze. unfold sell_order. fold (amount_of amt).
  assert (Y : (exists m c, pm = Some m /\ yi = Some c) \/ (pm = None \/ yi = None)).
  { destruct pm as [m|], yi as [c|]; [left; eauto|right|right|right]; tauto. }
  destruct Y as [(m & c & -> & ->)|Y].
  { split; [intros [[H|H] _]; discriminate|intros o H; discriminate]. }
  set (cap := match yi with Some yi => if Qlt_bool yi (amount_of amt) then None else Some tt | None => Some tt end).
  assert (Hcap : (cap = Some tt /\ forall c, yi = Some c -> (amount_of amt <= c)%Q) \/ (cap = None /\ exists c, yi = Some c /\ (c < amount_of amt)%Q)).
  { unfold cap. destruct yi as [c|]; [|left; split; [reflexivity|discriminate]].
    destruct (Qlt_bool_dec c (amount_of amt)) as [[L ->]|[L ->]]; [right|left]; split; auto; [eauto|].
    intros c' H. injection H as <-. assumption. }
  set (mk := fun lo hi (d : bool) => match (match conv cp tkn pm, yi with
                | Some pm, _ => e_yint_marg e (amount_of amt) lo hi pm
                | None, Some yi => Some yi
                | None, None => Some (amount_of amt)
                end) with Some yi => Some (mkSorder i1 i2 tkn cp lo hi d (amount_of amt) yi (match cid with Some c => c | None => "" end)%string) | None => None end).
  assert (Hmk : forall lo hi d, (forall m, pm = Some m -> exists v, e_yint_marg e (amount_of amt) lo hi (token_price cp tkn m) = Some v) ->
     exists o, mk lo hi d = Some o /\ so_tkn o = tkn /\ so_pair o = cp /\ so_y o = amount_of amt /\ so_plow o = lo /\ so_phigh o = hi /\ so_disabled o = d /\
       so_id o = i1 /\ so_lid o = i2 /\ (pm = None -> so_yint o = match yi with Some c => c | None => amount_of amt end)).
  { intros lo hi d Hm. unfold mk. destruct pm as [m|]; cbn.
    - destruct (Hm m eq_refl) as (v & ->). eexists. split; [reflexivity|]. cbn. repeat split. discriminate.
    - destruct yi as [c|]; eexists; (split; [reflexivity|]); cbn; repeat split. }
  assert (Hmk' : forall lo hi d o, mk lo hi d = Some o -> forall m, pm = Some m -> exists v, e_yint_marg e (amount_of amt) lo hi (token_price cp tkn m) = Some v).
  { intros lo hi d o H m ->. unfold mk in H. cbn in H. destruct (e_yint_marg _ _ _ _ _) as [v|]; [eauto|discriminate]. }
  match goal with |- (_ -> exists o, ?t = Some o /\ _) /\ _ => assert (E : t =
     match ps, pe with
     | None, None => match cap with Some _ => mk 0%Q 0%Q true | None => None end
     | Some a, Some b =>
       match cap with
       | Some _ => if Qlt_bool (lower (token_price cp tkn b) (token_price cp tkn a)) 0 then None
                   else mk (lower (token_price cp tkn b) (token_price cp tkn a)) (higher (token_price cp tkn b) (token_price cp tkn a)) false
       | None => None
       end
     | _, _ => None
     end) end.
  { unfold mk, cap, lower, higher. destruct pm as [m|], yi as [c|]; [destruct Y; discriminate| | |];
    destruct ps as [a|], pe as [b|]; cbn; try reflexivity; try (destruct (Qlt_bool c (amount_of amt)); reflexivity);
    destruct (Qle_bool _ _); cbn; try reflexivity; destruct (Qlt_bool c (amount_of amt)); reflexivity. }
  rewrite E. clear E. clearbody mk cap. unfold leg_ok, leg_terms.
  assert (Hlow : forall a b, ps = Some a -> pe = Some b -> (0 <= lower (token_price cp tkn b) (token_price cp tkn a))%Q <-> (0 <= a)%Q /\ (0 <= b)%Q).
  { intros a b Ha Hb. rewrite <- (token_price_nonneg cp tkn a), <- (token_price_nonneg cp tkn b) by first [apply Zs; assumption|apply Ze; assumption].
    unfold lower. destruct (Qle_bool _ _) eqn:L.
    - apply Qle_bool_iff in L. split; [intros; split; lra|tauto].
    - assert (L' : (token_price cp tkn a < token_price cp tkn b)%Q) by (apply Qnot_le_lt; intros G; apply Qle_bool_iff in G; congruence).
      split; [intros; split; lra|tauto]. }
  destruct ps as [a|], pe as [b|].
  - specialize (Hlow a b eq_refl eq_refl). split.
    + intros (_ & [[? _]|(a' & b' & Ea & Eb & Pa & Pb)] & Hc & Hm); [discriminate|]. injection Ea as <-. injection Eb as <-.
      destruct Hcap as [[-> _]|(_ & c & Ec & Lc)]; [|specialize (Hc c Ec); exfalso; lra].
      destruct (Qlt_bool_dec (lower (token_price cp tkn b) (token_price cp tkn a)) 0) as [[L _]|[_ ->]].
      { exfalso. pose proof (proj2 Hlow (conj Pa Pb)). lra. }
      destruct (Hmk _ (higher (token_price cp tkn b) (token_price cp tkn a)) false Hm) as (o & -> & F1 & F2 & F3 & F4 & F5 & F6 & F7 & F8 & F9).
      exists o. repeat (split; [first [reflexivity|assumption]|]). split; [|auto].
      repeat (split; [first [reflexivity|assumption]|]). rewrite F4, F5. unfold lower, higher.
      destruct (Qle_bool _ _) eqn:L.
      * apply Qle_bool_iff in L. auto.
      * split; [|auto]. apply Qlt_le_weak, Qnot_le_lt. intros G; apply Qle_bool_iff in G; congruence.
    + intros o H. destruct Hcap as [[-> Hc]|[-> _]]; [|discriminate].
      destruct (Qlt_bool_dec (lower (token_price cp tkn b) (token_price cp tkn a)) 0) as [[_ G]|[G G']]; [rewrite G in H; discriminate|]. rewrite G' in H.
      apply (proj1 Hlow) in G. split; [assumption|]. split; [right; exists a, b; tauto|]. split; [assumption|]. apply (Hmk' _ _ _ _ H).
  - split; [intros (_ & [[? ?]|(? & ? & ? & ? & _)] & _); discriminate|discriminate].
  - split; [intros (_ & [[? ?]|(? & ? & ? & ? & _)] & _); discriminate|discriminate].
  - split.
    + intros (_ & _ & Hc & Hm). destruct Hcap as [[-> _]|(_ & c & Ec & Lc)]; [|specialize (Hc c Ec); exfalso; lra].
      destruct (Hmk 0%Q 0%Q true Hm) as (o & -> & F1 & F2 & F3 & F4 & F5 & F6 & F7 & F8 & F9).
      exists o. split; [reflexivity|]. split; [|auto]. repeat (split; [first [reflexivity|assumption]|]). assumption.
    + intros o H. destruct Hcap as [[-> Hc]|[-> _]]; [|discriminate].
      split; [assumption|]. split; [left; tauto|]. split; [assumption|]. apply (Hmk' _ _ _ _ H).
Qed.

Definition sell_leg (e : env) (cp : pair) (a : add_args) : Prop :=
  leg_ok e cp (ad_tkn a) (ad_amt_sell a) (ad_psell_start a) (ad_psell_end a) (ad_psell_marg a) (ad_yint_sell a).

Lemma add_outcomes e s a cp tkn2 : well_keyed s -> get_carbon_pair e (ad_pair a) = Some cp -> other cp (ad_tkn a) = Some tkn2 ->
  prices_nonzero a ->
  let n := next_id s in
  let sell_ok := leg_ok e cp (ad_tkn a) (ad_amt_sell a) (ad_psell_start a) (ad_psell_end a) (ad_psell_marg a) (ad_yint_sell a) in
  let buy_ok := leg_ok e cp tkn2 (ad_amt_buy a) (ad_pbuy_start a) (ad_pbuy_end a) (ad_pbuy_marg a) (ad_yint_buy a) in
  let sell_terms := leg_terms cp (ad_tkn a) (ad_amt_sell a) (ad_psell_start a) (ad_psell_end a) (ad_psell_marg a) (ad_yint_sell a) in
  let buy_terms := leg_terms cp tkn2 (ad_amt_buy a) (ad_pbuy_start a) (ad_pbuy_end a) (ad_pbuy_marg a) (ad_yint_buy a) in
  (~ sell_ok -> add_strategy e s a = (mkState (orders s) (trades s) (numtrades s) (S (S n)), false)) /\
  (sell_ok -> ~ buy_ok -> exists o1, sell_terms o1 /\ so_id o1 = n /\ so_lid o1 = S n /\
     add_strategy e s a = (mkState (orders s ++ [(n, o1)]) (trades s) (numtrades s) (S (S n)), false)) /\
  (sell_ok -> buy_ok -> exists o1 o2 ok, sell_terms o1 /\ buy_terms o2 /\ so_id o1 = n /\ so_lid o1 = S n /\ so_id o2 = S n /\ so_lid o2 = n /\
     add_strategy e s a = (mkState (orders s ++ [(n, o1); (S n, o2)]) (trades s) (numtrades s) (S (S n)), ok)).
Proof.
  intros Hw Ecp Eo (Z1 & Z2 & Z3 & Z4 & Z5 & Z6). cbv zeta.
  destruct (other_spec _ _ _ Eo) as [_ Ht]. unfold add_strategy. rewrite Ecp, Eo.
  assert (Ht1 : ad_tkn a = tknb cp \/ ad_tkn a = tknq cp) by tauto. assert (Ht2 : tkn2 = tknb cp \/ tkn2 = tknq cp) by tauto.
  rewrite !convert_is_conv by assumption.
  destruct (sell_order_ok e (ad_tkn a) (ad_amt_sell a) (ad_psell_start a) (ad_psell_end a) cp (next_id s) (S (next_id s)) (ad_psell_marg a) (ad_yint_sell a) (ad_cid a) Z1 Z2) as [S1 S2].
  destruct (sell_order_ok e tkn2 (ad_amt_buy a) (ad_pbuy_start a) (ad_pbuy_end a) cp (S (next_id s)) (next_id s) (ad_pbuy_marg a) (ad_yint_buy a) (ad_cid a) Z4 Z5) as [B1 B2].
  split; [|split].
  - intros N. destruct (sell_order e (ad_tkn a) _ _ _ _ _ _ _ _ _) as [o|]; [exfalso; apply N, (S2 o eq_refl)|reflexivity].
  - intros Y N. destruct (S1 Y) as (o1 & -> & T & I & L). exists o1. split; [assumption|]. split; [assumption|]. split; [assumption|].
    destruct (sell_order e tkn2 _ _ _ _ _ _ _ _ _) as [o|]; [exfalso; apply N, (B2 o eq_refl)|]. cbn.
    destruct (add_insert1 s o1 (trades s) (numtrades s) Hw) as [-> _]. reflexivity.
  - intros Y1 Y2. destruct (S1 Y1) as (o1 & -> & T & I & L). destruct (B1 Y2) as (o2 & -> & T' & I' & L').
    exists o1, o2, (ui_ok o1 && ui_ok o2). repeat (split; [assumption|]). cbn.
    destruct (add_insert2 s o1 o2 (trades s) (numtrades s) Hw) as [-> _]. reflexivity.
Qed.
Lemma add_bad_token e s a cp : get_carbon_pair e (ad_pair a) = Some cp -> ad_tkn a <> tknb cp -> ad_tkn a <> tknq cp ->
  add_strategy e s a = (s, false).
Proof.
  intros E H1 H2. unfold add_strategy. rewrite E. rewrite (proj2 (other_none cp (ad_tkn a))) by auto. reflexivity.
Qed.
(** whatever the arguments: a failing add keeps every existing order and appends 0, 1 or 2 *)
Lemma add_failure e s a s' : well_keyed s -> add_strategy e s a = (s', false) ->
  trades s' = trades s /\ numtrades s' = numtrades s /\
  exists new, orders s' = orders s ++ new /\ (List.length new <= 2)%nat.
Proof.
  intros Hw H. destruct (add_cases e s a) as [E|[E|E]].
  - rewrite E in H. injection H as <-. repeat split. exists []. rewrite app_nil_r. auto.
  - rewrite E in H. injection H as <-. repeat split. exists []. rewrite app_nil_r. auto.
  - destruct E as (cp & tkn2 & _ & _ & psm & pss & pse & pbs & pbe & pbm & o1 & _ & _ & _ & _ & _ & _ & E1 & D).
    destruct D as [[_ D]|(o2 & E2 & D)]; rewrite D in H; (injection H as <-; [] || injection H as <- _); cbn; (split; [reflexivity|]); (split; [reflexivity|]).
    + destruct (add_insert1 s o1 (trades s) (numtrades s) Hw) as [-> _]. eexists. split; [reflexivity|]. cbn. lia.
    + destruct (add_insert2 s o1 o2 (trades s) (numtrades s) Hw) as [-> _]. eexists. split; [reflexivity|]. cbn. lia.
Qed.

(** ** C18 *)
Lemma delete_spec s i : well_keyed s ->
  let r := delete_order s i in
  trades (fst r) = trades s /\ numtrades (fst r) = numtrades s /\ next_id (fst r) = next_id s /\
  match oget i (orders s) with
  | None => r = (s, inl [])
  | Some o =>
    let l := so_lid o in
    if orb (Nat.eqb l i) (Nat.eqb l 0) then
      snd r = inl [i] /\ forall k, oget k (orders (fst r)) = if Nat.eqb k i then None else oget k (orders s)
    else match oget l (orders s) with
         | Some _ => snd r = inl [i; l] /\ forall k, oget k (orders (fst r)) = if orb (Nat.eqb k i) (Nat.eqb k l) then None else oget k (orders s)
         | None => snd r = inr tt /\ forall k, oget k (orders (fst r)) = if Nat.eqb k i then None else oget k (orders s)
         end
  end.
Proof.
  intros [Hnd _]. cbv zeta. unfold delete_order. destruct (oget i (orders s)) as [o|] eqn:E; [|auto].
  assert (D1 : forall k, oget k (odel i (orders s)) = if Nat.eqb k i then None else oget k (orders s)).
  { intros k. destruct (Nat.eqb_spec k i) as [->|Hn]; [apply oget_odel_same|apply oget_odel_other]; assumption. }
  destruct (Nat.eqb_spec (so_lid o) i) as [El|El]; cbn [orb]; [cbn; auto|].
  destruct (so_lid o) as [|l] eqn:Eol; cbn [orb Nat.eqb]; [cbn; auto|].
  rewrite (D1 (S l)). rewrite (proj2 (Nat.eqb_neq (S l) i)) by assumption.
  destruct (oget (S l) (orders s)) as [lo|]; cbn [fst snd trades numtrades next_id orders]; (do 4 (split; [reflexivity|])); [|assumption].
  intros k. destruct (Nat.eq_dec k (S l)) as [->|Hn].
  - rewrite oget_odel_same by (apply odel_NoDup; assumption). rewrite Nat.eqb_refl, orb_true_r. reflexivity.
  - rewrite oget_odel_other by assumption. rewrite D1. rewrite (proj2 (Nat.eqb_neq k (S l)) Hn), orb_false_r. reflexivity.
Qed.
