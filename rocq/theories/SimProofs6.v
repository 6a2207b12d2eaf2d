From Coq Require Import ZArith QArith Qabs List Bool Ascii String Lia Lqa.
From Verif Require Import TradeModel TradeProofs PairModel PairSpec PairProofs SimModel SimSpec SimProofs SimProofs2 SimProofs3 SimProofs4 SimProofs5.
Import ListNotations.
Local Open Scope list_scope.

(** ** C19 *)
Lemma trade_preview e s tkn amt partial cp by_ lp la inpair use thr :
  let r := trade e s tkn amt partial cp by_ false lp la inpair use thr in
  orders (fst r) = orders s /\ (snd r = true -> exists t, log_of (uid_aggr (numtrades s)) (fst r) = Some t /\ t_exec t = false).
Proof.
  cbv zeta. split.
  - destruct (trade_cases e s tkn amt partial cp by_ false lp la inpair use thr) as [-> |E]; [reflexivity|].
    destruct E as (l & r0 & rs & price & lf & _ & _ & _ & _ & _ & os & ts & okl & El & D). cbv zeta in D, El.
    set (c := mkCtx _ _ _ _ _ _ _ _ _) in *.
    assert (Ex : lc_exec c = false) by (unfold c; cbn; destruct lf as [[|]|]; reflexivity).
    pose proof (loop_no_exec c 0 (r0 :: rs) (orders s) (trades s) Ex) as N. rewrite El in N. cbn in N. subst os.
    destruct D as [[_ ->]|(-> & ids & rp & Hi & Hp & ->)]; reflexivity.
  - destruct (trade _ _ _ _ _ _ _ _ _ _ _ _ _) as [s' ok] eqn:E. cbn. intros ->.
    apply trade_success in E as (t & recs & R). exists t. split; [apply R|].
    destruct (t_exec t) eqn:Ex; [|reflexivity]. apply (tres_exec _ _ _ _ _ _ _ _ _ R) in Ex as [Ex _]. discriminate.
Qed.
Lemma amm_preview e s a r : r = amm_buys e s a \/ r = amm_sells e s a -> tr_execute a = false ->
  orders (fst r) = orders s /\
  (snd r = true -> exists t, log_of (uid_aggr (numtrades s)) (fst r) = Some t /\ t_exec t = false).
Proof.
  intros Hr Hx.
  destruct (amm_ind e s a (fun r => orders (fst r) = orders s /\
    (snd r = true -> exists t, log_of (uid_aggr (numtrades s)) (fst r) = Some t /\ t_exec t = false))) as [A B].
  - split; [reflexivity|discriminate].
  - intros. rewrite Hx. apply trade_preview.
  - destruct Hr as [-> | ->]; assumption.
Qed.
Lemma limit_met_iff cp tkn l p : has_token cp tkn = true ->
  (match limit_is_met cp tkn l BUY p with Some true => false | _ => true end = false <-> limit_ok cp tkn l p).
Proof.
  intros Ht. unfold limit_is_met, limit_ok. rewrite Ht. cbn [negb]. unfold has_quotetoken.
  destruct (Qeq_bool p l) eqn:E.
  - apply Qeq_bool_iff in E. split; [|reflexivity]. intros _. destruct (string_dec _ _); lra.
  - apply Qeq_bool_false in E. destruct (String.eqb_spec tkn (tknq cp)) as [Eq|Eq]; cbn [negb].
    + destruct (string_dec tkn (tknq cp)); [|contradiction].
      destruct (Qlt_bool_dec l p) as [[L ->]|[L ->]]; split; intros H; try reflexivity; try discriminate; [lra|].
      exfalso. apply E. lra.
    + destruct (string_dec tkn (tknq cp)); [contradiction|].
      destruct (Qlt_bool_dec p l) as [[L ->]|[L ->]]; split; intros H; try reflexivity; try discriminate; [lra|].
      exfalso. apply E. lra.
Qed.
Lemma limit_ok_eq cp tkn l p p' : (p == p')%Q -> (limit_ok cp tkn l p <-> limit_ok cp tkn l p').
Proof. intros H. unfold limit_ok. destruct (string_dec _ _); rewrite H; tauto. Qed.

Lemma trade_limit e s tkn amt partial cp by_ execute lp la inpair use thr s' l :
  router_signs e -> has_token cp tkn = true -> limit_of cp tkn amt by_ lp la = Some (Some l) ->
  trade e s tkn amt partial cp by_ execute lp la inpair use thr = (s', true) ->
  exists t, log_of (uid_aggr (numtrades s)) s' = Some t /\ t_tkn1 t = tkn /\ (0 < t_amt1 t)%Q /\ (0 < t_amt2 t)%Q /\
    let p := if swap_of e by_ then pair_price cp tkn (t_amt2 t) (t_amt1 t) else pair_price cp tkn (t_amt1 t) (t_amt2 t) in
    (limit_ok cp tkn l p -> t_exec t = execute /\ t_limitfail t = Some false) /\
    (~ limit_ok cp tkn l p -> t_exec t = false /\ t_limitfail t = Some true /\ orders s' = orders s).
Proof.
  intros Hs Ht Hl H.
  destruct (trade_cases e s tkn amt partial cp by_ execute lp la inpair use thr) as [E|E]; [congruence|].
  destruct E as (l' & r0 & rs & price & lf & El' & _ & Er & Ep & Elf & os & ts & okl & El & D). cbv zeta in D, El.
  rewrite Hl in El'. injection El' as <-. destruct Elf as (p & -> & Elf).
  destruct (Hs _ _ _ _ Er) as [Ti To]. set (f := last (r0 :: rs) r0) in *. clearbody f.
  destruct D as [[_ D]|(-> & ids & rp & Hi & Hp & D)]; rewrite D in H; [discriminate|]. injection H as <-. clear D.
  match goal with |- exists t, log_of _ (mkState _ (tset _ ?rec _) _ _) = _ /\ _ => exists rec end.
  split. { unfold log_of. cbn [trades]. change (dget String.eqb) with tget. rewrite tget_tset. destruct (string_dec _ _); [reflexivity|contradiction]. }
  cbn [t_tkn1 t_amt1 t_amt2 t_exec t_limitfail orders].
  assert (Ai : (Qabs (rt_total_input f) == rt_total_input f)%Q) by (apply Qabs_pos; lra).
  assert (Ao : (Qabs (rt_total_output f) == - rt_total_output f)%Q) by (apply Qabs_neg; lra).
  split; [reflexivity|]. split; [destruct (swap_of e by_); [rewrite Ai|rewrite Ao]; lra|]. split; [destruct (swap_of e by_); [rewrite Ao|rewrite Ai]; lra|].
  assert (P : (pair_price cp tkn (Qabs (rt_total_output f)) (Qabs (rt_total_input f)) == p)%Q).
  { unfold price_of in Ep. rewrite qdiv_pos in Ep by assumption. cbv beta iota delta [bind] in Ep. unfold pair_price.
    destruct (string_dec tkn (tknq cp)) as [Eq|Eq].
    - rewrite (proj1 (convert_price_spec cp _ tkn) Eq) in Ep. injection Ep as <-. rewrite Ai, Ao. reflexivity.
    - apply has_token_spec in Ht. destruct Ht as [Ht|Ht]; [|contradiction].
      assert (Z : ~ (- rt_total_output f / rt_total_input f == 0)%Q).
      { apply Qpos_neq0. apply Qlt_shift_div_l; [assumption|]. rewrite Qmult_0_l. lra. }
      rewrite (proj1 (proj2 (convert_price_spec cp _ tkn)) Ht Eq Z) in Ep. injection Ep as <-.
      rewrite Ai, Ao. field. split; lra. }
  pose proof (limit_met_iff cp tkn l p Ht) as M.
  match goal with |- (limit_ok _ _ _ ?x -> _) /\ _ =>
    replace x with (pair_price cp tkn (Qabs (rt_total_output f)) (Qabs (rt_total_input f))) by (destruct (swap_of e by_); reflexivity) end.
  split; intros G.
  - apply (proj1 (limit_ok_eq _ _ _ _ _ P)) in G. apply (proj2 M) in G. rewrite Elf, G. auto.
  - assert (G' : match limit_is_met cp tkn l BUY p with Some true => false | _ => true end = true).
    { destruct (match limit_is_met cp tkn l BUY p with Some true => false | _ => true end) eqn:X; [reflexivity|]. exfalso. apply G.
      apply (proj2 (limit_ok_eq _ _ _ _ _ P)). apply (proj1 M). reflexivity. }
    rewrite Elf, G'. split; [reflexivity|]. split; [reflexivity|].
    set (c := mkCtx _ _ _ _ _ _ _ _ _) in El.
    assert (Ex : lc_exec c = false) by (unfold c; cbn; rewrite Elf, G'; reflexivity).
    pose proof (loop_no_exec c 0 (r0 :: rs) (orders s) (trades s) Ex) as N. rewrite El in N. exact N.
Qed.

(** the token the AMM gives and the way the amount is specified *)
Lemma amm_buys_nonneg e s a cp : (0 <= tr_amt a)%Q -> get_carbon_pair e (tr_pair a) = Some cp ->
  amm_buys e s a = (s, false) \/
  exists tkn, other cp (tr_tkn a) = Some tkn /\
   amm_buys e s a = trade e s tkn (tr_amt a) (tr_partial a) cp BySource (tr_execute a) (tr_limit_price a) (tr_limit_amt a)
             (tr_inpair a) (tr_use_positions a) (tr_threshold a).
Proof.
  intros Ha Ecp. unfold amm_buys. destruct (Qlt_bool_dec (tr_amt a) 0) as [[L _]|[_ ->]]; [exfalso; lra|].
  destruct (buys_body_cases e s a) as [-> |(cp' & tkn & E & Eo & ->)]; [tauto|]. right.
  assert (cp' = cp) by congruence. subst cp'. eauto.
Qed.
Lemma amm_sells_nonneg e s a cp : (0 <= tr_amt a)%Q -> get_carbon_pair e (tr_pair a) = Some cp ->
  amm_sells e s a = (s, false) \/
  amm_sells e s a = trade e s (tr_tkn a) (- tr_amt a)%Q (tr_partial a) cp ByTarget (tr_execute a) (tr_limit_price a) (tr_limit_amt a)
           (tr_inpair a) (tr_use_positions a) (tr_threshold a).
Proof.
  intros Ha Ecp. unfold amm_sells. destruct (Qlt_bool_dec (tr_amt a) 0) as [[L _]|[_ ->]]; [exfalso; lra|].
  destruct (sells_body_cases e s a) as [-> |(cp' & E & ->)]; [tauto|]. right.
  assert (cp' = cp) by congruence. subst cp'. reflexivity.
Qed.
Lemma other_has cp t u : other cp t = Some u -> has_token cp u = true.
Proof. intros H. apply other_spec in H as [_ H]. apply has_token_spec. tauto. Qed.

Lemma buys_limit_price e s a cp s' l : router_signs e -> (0 <= tr_amt a)%Q -> get_carbon_pair e (tr_pair a) = Some cp ->
  tr_limit_price a = Some l -> tr_limit_amt a = None -> amm_buys e s a = (s', true) ->
  exists t, log_of (uid_aggr (numtrades s)) s' = Some t /\ other cp (tr_tkn a) = Some (t_tkn1 t) /\ (0 < t_amt1 t)%Q /\ (0 < t_amt2 t)%Q /\
    let p := pair_price cp (t_tkn1 t) (t_amt1 t) (t_amt2 t) in
    (limit_ok cp (t_tkn1 t) l p -> t_exec t = tr_execute a /\ t_limitfail t = Some false) /\
    (~ limit_ok cp (t_tkn1 t) l p -> t_exec t = false /\ t_limitfail t = Some true /\ orders s' = orders s).
Proof.
  intros Hs Ha Ecp El Ela H. destruct (amm_buys_nonneg e s a cp Ha Ecp) as [E|(tkn & Eo & E)]; [congruence|].
  rewrite E in H. rewrite El, Ela in H.
  apply (trade_limit _ _ _ _ _ _ _ _ _ _ _ _ _ _ l Hs (other_has _ _ _ Eo)) in H; [|reflexivity].
  destruct H as (t & L & T & P1 & P2 & G). subst tkn. exists t. auto.
Qed.
Lemma sells_limit_price e s a cp s' l : router_signs e -> (0 <= tr_amt a)%Q -> get_carbon_pair e (tr_pair a) = Some cp ->
  has_token cp (tr_tkn a) = true -> tr_limit_price a = Some l -> tr_limit_amt a = None -> amm_sells e s a = (s', true) ->
  exists t, log_of (uid_aggr (numtrades s)) s' = Some t /\ t_tkn1 t = tr_tkn a /\ (0 < t_amt1 t)%Q /\ (0 < t_amt2 t)%Q /\
    let p := if e_fast e then pair_price cp (tr_tkn a) (t_amt2 t) (t_amt1 t) else pair_price cp (tr_tkn a) (t_amt1 t) (t_amt2 t) in
    (limit_ok cp (tr_tkn a) l p -> t_exec t = tr_execute a /\ t_limitfail t = Some false) /\
    (~ limit_ok cp (tr_tkn a) l p -> t_exec t = false /\ t_limitfail t = Some true /\ orders s' = orders s).
Proof.
  intros Hs Ha Ecp Ht El Ela H. destruct (amm_sells_nonneg e s a cp Ha Ecp) as [E|E]; [congruence|].
  rewrite E in H. rewrite El, Ela in H.
  apply (trade_limit _ _ _ _ _ _ _ _ _ _ _ _ _ _ l Hs Ht) in H; [|reflexivity]. exact H.
Qed.

(** ** limit amounts *)
Lemma frac_le a b c d : (0 < b)%Q -> (0 < d)%Q -> ((a / b <= c / d)%Q <-> (a * d <= c * b)%Q).
Proof.
  intros Hb Hd. split; intros H.
  - apply (Qmult_le_compat_r _ _ (b * d)) in H; [|nra].
    assert (E1 : (a / b * (b * d) == a * d)%Q) by (field; lra). assert (E2 : (c / d * (b * d) == c * b)%Q) by (field; lra). lra.
  - apply Qle_shift_div_l; [assumption|]. assert (E : (a / b * d == a * d / b)%Q) by (field; lra). rewrite E.
    apply Qle_shift_div_r; assumption.
Qed.
Lemma buys_limit_amt e s a cp s' la : router_signs e -> (0 < tr_amt a)%Q -> get_carbon_pair e (tr_pair a) = Some cp -> tknb cp <> tknq cp ->
  tr_limit_price a = None -> tr_limit_amt a = Some la -> (0 < la)%Q -> amm_buys e s a = (s', true) ->
  exists t, log_of (uid_aggr (numtrades s)) s' = Some t /\ other cp (tr_tkn a) = Some (t_tkn1 t) /\ (0 < t_amt1 t)%Q /\ (0 < t_amt2 t)%Q /\
    ((la * t_amt2 t <= tr_amt a * t_amt1 t)%Q -> t_exec t = tr_execute a) /\
    (~ (la * t_amt2 t <= tr_amt a * t_amt1 t)%Q -> t_exec t = false /\ orders s' = orders s).
Proof.
  intros Hs Ha Ecp Hne El Ela Hla H. destruct (amm_buys_nonneg e s a cp) as [E|(tkn & Eo & E)]; [lra|assumption|congruence|].
  rewrite E in H. rewrite El, Ela in H. pose proof (other_has _ _ _ Eo) as Ht.
  destruct (other_spec _ _ _ Eo) as [Eo2 Cs].
  assert (Q0 : (0 < tr_amt a / la)%Q) by (apply Qlt_shift_div_l; lra).
  assert (Qa : (Qabs (tr_amt a / la) == tr_amt a / la)%Q) by (apply Qabs_pos; lra).
  assert (L : exists l, limit_of cp tkn (tr_amt a) BySource None (Some la) = Some (Some l) /\
     (l == if string_dec tkn (tknq cp) then la / tr_amt a else tr_amt a / la)%Q).
  { unfold limit_of. rewrite qdiv_pos by assumption. cbv beta iota delta [bind]. rewrite Eo2.
    destruct Cs as [[Cs1 Cs2]|[Cs1 Cs2]].
    - rewrite (proj1 (proj2 (convert_price_spec cp (Qabs (tr_amt a / la)) (tr_tkn a)))) by (try congruence; apply Qpos_neq0; lra).
      eexists. split; [reflexivity|]. rewrite Cs2. destruct (string_dec _ _); [|contradiction]. rewrite Qa. field. split; lra.
    - rewrite (proj1 (convert_price_spec cp (Qabs (tr_amt a / la)) (tr_tkn a))) by congruence.
      eexists. split; [reflexivity|]. rewrite Cs2. destruct (string_dec _ _); [contradiction|]. assumption. }
  destruct L as (l & EL & Hl).
  apply (trade_limit _ _ _ _ _ _ _ _ _ _ _ _ _ _ l Hs Ht) in H; [|assumption].
  destruct H as (t & Lg & T & P1 & P2 & G). subst tkn. exists t. split; [assumption|]. split; [assumption|]. split; [assumption|]. split; [assumption|].
  cbn [swap_of] in G. cbv zeta in G.
  assert (M : limit_ok cp (t_tkn1 t) l (pair_price cp (t_tkn1 t) (t_amt1 t) (t_amt2 t)) <-> (la * t_amt2 t <= tr_amt a * t_amt1 t)%Q).
  { unfold limit_ok, pair_price. destruct (string_dec (t_tkn1 t) (tknq cp)).
    - rewrite Hl, frac_le by assumption. split; lra.
    - rewrite Hl, frac_le by assumption. split; lra. }
  rewrite M in G. destruct G as [G1 G2]. split; [intros X; apply (G1 X)|]. intros X. destruct (G2 X) as (? & _ & ?). auto.
Qed.
Lemma sells_limit_amt e s a cp s' la : router_signs e -> e_fast e = false -> (0 < tr_amt a)%Q -> get_carbon_pair e (tr_pair a) = Some cp -> tknb cp <> tknq cp ->
  has_token cp (tr_tkn a) = true ->
  tr_limit_price a = None -> tr_limit_amt a = Some la -> (0 < la)%Q -> amm_sells e s a = (s', true) ->
  exists t, log_of (uid_aggr (numtrades s)) s' = Some t /\ t_tkn1 t = tr_tkn a /\ (0 < t_amt1 t)%Q /\ (0 < t_amt2 t)%Q /\
    ((tr_amt a * t_amt2 t <= la * t_amt1 t)%Q -> t_exec t = tr_execute a) /\
    (~ (tr_amt a * t_amt2 t <= la * t_amt1 t)%Q -> t_exec t = false /\ orders s' = orders s).
Proof.
  intros Hs Hf Ha Ecp Hne Ht El Ela Hla H. destruct (amm_sells_nonneg e s a cp) as [E|E]; [lra|assumption|congruence|].
  rewrite E in H. rewrite El, Ela in H.
  assert (Q0 : (0 < tr_amt a / la)%Q) by (apply Qlt_shift_div_l; lra).
  assert (Qa : (Qabs (- tr_amt a / la) == tr_amt a / la)%Q).
  { setoid_replace (- tr_amt a / la)%Q with (- (tr_amt a / la))%Q by (field; lra). rewrite Qabs_opp. apply Qabs_pos. lra. }
  assert (L : exists l, limit_of cp (tr_tkn a) (- tr_amt a) ByTarget None (Some la) = Some (Some l) /\
     (l == if string_dec (tr_tkn a) (tknq cp) then tr_amt a / la else la / tr_amt a)%Q).
  { unfold limit_of. rewrite qdiv_pos by assumption. cbv beta iota delta [bind].
    destruct (string_dec (tr_tkn a) (tknq cp)) as [Eq|Eq].
    - rewrite (proj1 (convert_price_spec cp _ (tr_tkn a)) Eq). eexists. split; [reflexivity|]. assumption.
    - apply has_token_spec in Ht. destruct Ht as [Ht|Ht]; [|contradiction].
      rewrite (proj1 (proj2 (convert_price_spec cp (Qabs (- tr_amt a / la)) (tr_tkn a))) Ht Eq) by (apply Qpos_neq0; lra).
      eexists. split; [reflexivity|]. rewrite Qa. field. split; lra. }
  destruct L as (l & EL & Hl).
  apply (trade_limit _ _ _ _ _ _ _ _ _ _ _ _ _ _ l Hs Ht) in H; [|assumption].
  destruct H as (t & Lg & T & P1 & P2 & G). exists t. split; [assumption|]. split; [assumption|]. split; [assumption|]. split; [assumption|].
  cbn [swap_of] in G. rewrite Hf in G. cbv zeta in G.
  assert (M : limit_ok cp (tr_tkn a) l (pair_price cp (tr_tkn a) (t_amt1 t) (t_amt2 t)) <-> (tr_amt a * t_amt2 t <= la * t_amt1 t)%Q).
  { unfold limit_ok, pair_price. destruct (string_dec (tr_tkn a) (tknq cp)).
    - rewrite Hl, frac_le by assumption. split; lra.
    - rewrite Hl, frac_le by assumption. split; lra. }
  rewrite M in G. destruct G as [G1 G2]. split; [intros X; apply (G1 X)|]. intros X. destruct (G2 X) as (? & _ & ?). auto.
Qed.
