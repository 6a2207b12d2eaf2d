(** Simulated trades. *)
From Coq Require Import ZArith QArith Qabs List Bool String Lia Lqa.
From Verif Require Import TradeModel PairModel PairSpec PairProofs CurveModel SimModel SimSpec SimProofs SimProofs3 SimProofs5 SimProofs6 SimProofs7 SimProofs9.
From Verif Require Import AnalyticsModel AnalyticsSpec.
Import ListNotations.
Local Open Scope list_scope.

(** ** what a trade finds depends on the orders only *)
Lemma loop_same c c' ct routes os : lc_swap c = lc_swap c' -> lc_apps c = lc_apps c' -> lc_exec c = lc_exec c' -> lc_price c = lc_price c' -> forall ts ts',
  exists o t t' b, route_loop c ct routes os ts = (o, t, b) /\ route_loop c' ct routes os ts' = (o, t', b).
Proof.
  intros S A X P. revert ct os. induction routes as [|r routes IH]; intros ct os ts ts'; cbn [route_loop]; [eauto 10|].
  rewrite <- A. destruct (id_map _ _) as [ix|]; [|eauto 10]. rewrite <- X, <- S. destruct (if lc_exec c then _ else _) as [os' ok]. destruct (negb ok); [eauto 10|].
  assert (R : rec_price c' = rec_price c) by (unfold rec_price; rewrite S, P; reflexivity). rewrite R. destruct (rec_price c) as [pr|]; [|eauto 10]. apply IH.
Qed.
Definition alike (t t' : trec) : Prop := t_amt1 t = t_amt1 t' /\ t_tkn1 t = t_tkn1 t' /\ t_amt2 t = t_amt2 t' /\ t_tkn2 t = t_tkn2 t' /\ t_price t = t_price t'.
Definition agree (s s' : state) (r r' : state * bool) : Prop := snd r = snd r' /\ orders (fst r) = orders (fst r') /\
  (snd r = true -> exists t t', log_of (uid_aggr (numtrades s)) (fst r) = Some t /\ log_of (uid_aggr (numtrades s')) (fst r') = Some t' /\ alike t t').
Lemma log_tset u t os ts n nid : log_of u (mkState os (tset u t ts) n nid) = Some t.
Proof. unfold log_of. cbn [trades]. change (dget String.eqb) with tget. rewrite tget_tset. destruct (string_dec u u); [reflexivity|contradiction]. Qed.
Lemma agree_fail s s' : orders s = orders s' -> agree s s' (s, false) (s', false).
Proof. intros E. repeat split; [exact E|discriminate]. Qed.
Lemma trade_same e s s' tkn amt partial cp by_ execute lp la inpair use thr : orders s = orders s' ->
  agree s s' (trade e s tkn amt partial cp by_ execute lp la inpair use thr) (trade e s' tkn amt partial cp by_ execute lp la inpair use thr).
Proof.
  intros E. pose proof (agree_fail s s' E) as F. unfold trade.
  match goal with |- agree _ _ (match ?x with _ => _ end) _ => destruct x as [lp'|] end; [|exact F].
  destruct (negb inpair); [exact F|]. rewrite <- E. cbv zeta. destruct (e_router e _ _) as [[|r0 rs]|]; [exact F| |exact F].
  destruct (qdiv _ _) as [raw|]; [|exact F]. destruct (convert_price cp (Some raw) tkn) as [pa|]; [|exact F].
  match goal with |- agree _ _ (match ?x with _ => _ end) _ => destruct x as [lf|] end; [|exact F].
  match goal with |- agree _ _ ?A ?B => match A with context [route_loop ?c _ _ _ _] => match B with context [route_loop ?c' _ _ _ _] =>
    destruct (loop_same c c' 0 (r0 :: rs) (orders s) eq_refl eq_refl eq_refl eq_refl (trades s) (trades s')) as (o & t & t' & b & -> & ->) end end end.
  destruct (negb b); [repeat split; discriminate|].
  destruct (map_ids _ _) as [ids|]; [|repeat split; discriminate]. unfold rec_price. cbn [lc_price lc_swap].
  match goal with |- agree _ _ (match ?x with _ => _ end) _ => destruct x as [pr|] end; [|repeat split; discriminate].
  split; [reflexivity|]. split; [reflexivity|]. intros _. cbn [fst]. rewrite !log_tset. do 2 eexists. split; [reflexivity|]. split; [reflexivity|]. repeat split.
Qed.
Lemma body_same e s s' a : orders s = orders s' -> agree s s' (amm_buys_body e s a) (amm_buys_body e s' a) /\ agree s s' (amm_sells_body e s a) (amm_sells_body e s' a).
Proof.
  intros E. pose proof (agree_fail s s' E) as F. unfold amm_buys_body, amm_sells_body. destruct (get_carbon_pair e (tr_pair a)) as [cp|]; [|split; exact F]. rewrite <- E. split.
  - destruct (negb _); [exact F|]. destruct (other cp (tr_tkn a)); [|exact F]. apply trade_same, E.
  - destruct (negb _); [exact F|]. apply trade_same, E.
Qed.
Lemma amm_same e s s' a : orders s = orders s' -> agree s s' (amm_buys e s a) (amm_buys e s' a) /\ agree s s' (amm_sells e s a) (amm_sells e s' a).
Proof. intros E. unfold amm_buys, amm_sells. destruct (Qlt_bool _ _); split; apply body_same, E. Qed.
Lemma last_row_same s s' r r' : agree s s' r r' -> last_row s r = None /\ last_row s' r' = None \/ exists t t', last_row s r = Some t /\ last_row s' r' = Some t' /\ alike t t'.
Proof.
  intros (A & _ & B). unfold last_row. rewrite <- A. destruct (snd r); [|left; split; reflexivity]. right. destruct (B eq_refl) as (t & t' & X & Y & Z). exists t, t'. auto.
Qed.

(** ** one simulated trade *)
Lemma pair_of_slash e p : built p -> exists cp, get_carbon_pair e (ArgStr (slashpair_of p)) = Some cp /\ same_tokens cp p.
Proof.
  intros B. unfold get_carbon_pair. destruct (String.eqb_spec (slashpair_of p) "") as [E|_].
  - unfold slashpair_of in E. destruct (tknb p); discriminate.
  - apply slashpair_reconstruct. exact B.
Qed.
Lemma other_base cp p : same_tokens cp p -> other cp (tknb p) = Some (tknq p).
Proof. intros (A & B). unfold other, has_basetoken. rewrite A, B, String.eqb_refl. reflexivity. Qed.
Lemma other_quote cp p t : other cp (tknb p) = Some t -> same_tokens cp p -> other cp t = Some (tknb p).
Proof. intros H _. apply other_spec in H. tauto. Qed.
Definition outcome (s : state) (o : res (option Q) * option state) (t1 t2 : string) (col : trec -> Q) : Prop :=
  exists v s', o = (Ret v, Some s') /\ orders s' = orders s /\
   match v with
   | None => numtrades s' = numtrades s
   | Some x => numtrades s' = S (numtrades s) /\ exists t, log_of (uid_aggr (numtrades s)) s' = Some t /\ t_exec t = false /\ t_tkn1 t = t1 /\ t_tkn2 t = Some t2 /\ x = col t
   end.
Lemma outcome_intro e s p size col r t1 t2 : r = amm_buys e s (preview (tknb p) size (ArgStr (slashpair_of p))) \/ r = amm_sells e s (preview (tknb p) size (ArgStr (slashpair_of p))) ->
  (snd r = true -> exists t cp by_ recs, trade_result e s t1 cp by_ false (fst r) t recs /\ other cp t1 = Some t2) ->
  outcome s (Ret (option_map col (last_row s r)), Some (fst r)) t1 t2 col.
Proof.
  intros Hr H. destruct (amm_preview _ _ _ _ Hr eq_refl) as [O P]. destruct (amm_num _ _ _ _ Hr) as [N _]. unfold outcome. do 2 eexists. split; [reflexivity|]. split; [exact O|].
  unfold last_row. destruct (snd r) eqn:E; [|exact N]. destruct (H eq_refl) as (t & cp & by_ & recs & R & Oth). pose proof (tres_aggr _ _ _ _ _ _ _ _ _ R) as Ag. destruct (P eq_refl) as (t' & Ag' & Ex).
  assert (t' = t) by congruence. subst t'. change (dget String.eqb (uid_aggr (numtrades s)) (trades (fst r))) with (log_of (uid_aggr (numtrades s)) (fst r)). rewrite Ag. cbn [option_map].
  split; [exact N|]. exists t. rewrite (tres_tkn1 _ _ _ _ _ _ _ _ _ R), (tres_tkn2 _ _ _ _ _ _ _ _ _ R). auto.
Qed.
Lemma sim_sells self e s size p : built p -> (0 <= size)%Q -> outcome s (simulate_trades self size "amm_sells_tknb" (Some (mkSim e s)) (APair p)) (tknb p) (tknq p) t_amt2.
Proof.
  intros B Hs. unfold simulate_trades. change (String.eqb "amm_sells_tknb" AMM_SELLS_BASETOKEN) with true. cbn [sm_env sm_state]. cbv iota beta zeta.
  apply (outcome_intro e s p size); [right; reflexivity|]. destruct (pair_of_slash e p B) as (cp & G & Sm).
  destruct (amm_sells_nonneg e s (preview (tknb p) size (ArgStr (slashpair_of p))) cp Hs G) as [E|E]; rewrite E; [discriminate|]. intros Ok. destruct (trade _ _ _ _ _ _ _ _ _ _ _ _ _) as [s' ok] eqn:T. cbn [snd fst] in *. subst ok.
  destruct (trade_success _ _ _ _ _ _ _ _ _ _ _ _ _ _ T) as (t & recs & R). exists t, cp, ByTarget, recs. split; [exact R|apply other_base, Sm].
Qed.
Lemma sim_buys self e s size p : built p -> (0 <= size)%Q -> outcome s (simulate_trades self size "amm_buys_tknb" (Some (mkSim e s)) (APair p)) (tknq p) (tknb p) t_amt1.
Proof.
  intros B Hs. unfold simulate_trades. change (String.eqb "amm_buys_tknb" AMM_SELLS_BASETOKEN) with false. change (String.eqb "amm_buys_tknb" AMM_BUYS_BASETOKEN) with true. cbn [sm_env sm_state]. cbv iota beta zeta.
  apply (outcome_intro e s p size); [left; reflexivity|]. destruct (pair_of_slash e p B) as (cp & G & Sm).
  destruct (amm_buys_nonneg e s (preview (tknb p) size (ArgStr (slashpair_of p))) cp Hs G) as [E|(tkn & Eo & E)]; rewrite E; [discriminate|]. cbn [preview tr_tkn] in Eo. pose proof (other_base _ _ Sm) as Eo'. rewrite Eo' in Eo. injection Eo as <-.
  intros Ok. destruct (trade _ _ _ _ _ _ _ _ _ _ _ _ _) as [s' ok] eqn:T. cbn [snd fst] in *. subst ok.
  destruct (trade_success _ _ _ _ _ _ _ _ _ _ _ _ _ _ T) as (t & recs & R). exists t, cp, BySource, recs. split; [exact R|exact (other_quote _ _ _ Eo' Sm)].
Qed.
(** a negative size: the amount reported is one of the base token *)
Lemma sim_negative self e s size p : built p -> (size < 0)%Q -> outcome s (simulate_trades self size "amm_sells_tknb" (Some (mkSim e s)) (APair p)) (tknq p) (tknb p) t_amt2.
Proof.
  intros B Hs. unfold simulate_trades. change (String.eqb "amm_sells_tknb" AMM_SELLS_BASETOKEN) with true. cbn [sm_env sm_state]. cbv iota beta zeta.
  apply (outcome_intro e s p size); [right; reflexivity|]. destruct (pair_of_slash e p B) as (cp & G & Sm). rewrite neg_sells by exact Hs. cbn [preview tr_tkn tr_amt tr_pair tr_execute tr_inpair tr_limit_price tr_limit_amt tr_threshold tr_partial].
  match goal with |- context [amm_buys e s ?a] => destruct (amm_buys_nonneg e s a cp ltac:(cbn [tr_amt]; lra) G) as [E|(tkn & Eo & E)] end; rewrite E; [discriminate|]. cbn [tr_tkn] in Eo. pose proof (other_base _ _ Sm) as Eo'. rewrite Eo' in Eo. injection Eo as <-.
  intros Ok. destruct (trade _ _ _ _ _ _ _ _ _ _ _ _ _) as [s' ok] eqn:T. cbn [snd fst] in *. subst ok.
  destruct (trade_success _ _ _ _ _ _ _ _ _ _ _ _ _ _ T) as (t & recs & R). exists t, cp, BySource, recs. split; [exact R|exact (other_quote _ _ _ Eo' Sm)].
Qed.
Lemma sim_errors self size side sim cp : 
  (side <> "amm_sells_tknb" -> side <> "amm_buys_tknb" -> fst (simulate_trades self size side sim cp) = Raise ValueError)%string /\
  fst (simulate_trades self size side sim NotAPair) = Raise ValueError /\ fst (simulate_trades None size side sim NoPair) = Raise ValueError /\
  (forall m sim', simulate_trades (Some m) size side sim NoPair = simulate_trades (Some m) size side sim' NoPair).
Proof.
  split; [|repeat split]. intros N1 N2. unfold simulate_trades, AMM_SELLS_BASETOKEN, AMM_BUYS_BASETOKEN. destruct (String.eqb_spec side "amm_sells_tknb"); [contradiction|]. destruct (String.eqb_spec side "amm_buys_tknb"); [contradiction|].
  destruct cp; [|reflexivity|reflexivity]. destruct self as [m|]; [|reflexivity]. destruct (e_pair (sm_env m)); reflexivity.
Qed.
Lemma sim_default e s size side sim p : e_pair e = Some p -> simulate_trades (Some (mkSim e s)) size side sim NoPair = simulate_trades None size side (Some (mkSim e s)) (APair p).
Proof. intros E. unfold simulate_trades. cbn [sm_env]. rewrite E. reflexivity. Qed.

(** ** many simulated trades *)
Lemma sim_same e s s' size side p : orders s = orders s' -> fst (simulate_trades None size side (Some (mkSim e s)) (APair p)) = fst (simulate_trades None size side (Some (mkSim e s')) (APair p)).
Proof.
  intros E. unfold simulate_trades. cbn [sm_env sm_state]. cbv zeta iota beta. destruct (amm_same e s s' (preview (tknb p) size (ArgStr (slashpair_of p))) E) as [A B].
  apply last_row_same in A, B. destruct (String.eqb side _); [|destruct (String.eqb side _); [|reflexivity]]; cbn [fst].
  - destruct B as [[-> ->]|(t & t' & -> & -> & (_ & _ & Q & _))]; [reflexivity|]. cbn [option_map]. rewrite Q. reflexivity.
  - destruct A as [[-> ->]|(t & t' & -> & -> & (Q & _))]; [reflexivity|]. cbn [option_map]. rewrite Q. reflexivity.
Qed.
Lemma sim_returns e s size side p : (side = "amm_sells_tknb" \/ side = "amm_buys_tknb")%string -> exists v s', simulate_trades None size side (Some (mkSim e s)) (APair p) = (Ret v, Some s') /\ orders s' = orders s.
Proof.
  intros [-> | ->]; do 2 eexists; (split; [reflexivity|]); cbn [sm_env sm_state].
  - apply (amm_preview e s (preview (tknb p) size (ArgStr (slashpair_of p))) _ (or_intror eq_refl) eq_refl).
  - apply (amm_preview e s (preview (tknb p) size (ArgStr (slashpair_of p))) _ (or_introl eq_refl) eq_refl).
Qed.
Lemma sim_all e side p sizes : (side = "amm_sells_tknb" \/ side = "amm_buys_tknb")%string -> forall s s0, orders s = orders s0 ->
  orders (snd (simulate_all e s side p sizes)) = orders s0 /\ map (fun v => Ret v) (fst (simulate_all e s side p sizes)) = map (fun x => fst (simulate_trades None x side (Some (mkSim e s0)) (APair p))) sizes.
Proof.
  intros Hs. induction sizes as [|x xs IH]; intros s s0 E; cbn [simulate_all]; [split; [exact E|reflexivity]|].
  destruct (sim_returns e s x side p Hs) as (v & s' & R & O). rewrite R. destruct (IH s' s0 ltac:(congruence)) as [A B]. destruct (simulate_all e s' side p xs) as [vs s'']. cbn [fst snd map] in *. split; [exact A|].
  rewrite B. f_equal. rewrite <- (sim_same e s s0 x side p E), R. reflexivity.
Qed.

(** ** effective_price *)
Lemma eff_never self size tkn sim pair : forall side, (side = BID \/ side = ASK) -> forall v, fst (effective_price self size side tkn sim pair) <> Ret v.
Proof.
  intros side H v. unfold effective_price. cbv zeta.
  match goal with |- fst (match ?x with _ => _ end) <> _ => destruct x end; [|discriminate]. destruct pair as [pair|]; [|destruct (match sim with None => self | _ => sim end); discriminate].
  destruct H as [-> | ->]; [change (String.eqb BID BID_BOOK) with false; change (String.eqb BID ASK_BOOK) with false|change (String.eqb ASK BID_BOOK) with false; change (String.eqb ASK ASK_BOOK) with false]; discriminate.
Qed.
Lemma eff_nopair self size tkn sim side : forall v, fst (effective_price self size side tkn sim None) <> Ret v.
Proof.
  intros v. unfold effective_price. cbv zeta. match goal with |- fst (match ?x with _ => _ end) <> _ => destruct x end; [|discriminate]. destruct (match sim with None => self | _ => sim end); discriminate.
Qed.
Lemma eff_spec self e s size tkn pair (buys : bool) : let side := (if buys then "amm_buys" else "amm_sells")%string in
  exists v s', effective_price self size side (Some tkn) (Some (mkSim e s)) (Some pair) = (Ret v, Some s') /\ orders s' = orders s /\
   ((numtrades s' = numtrades s /\ v = (if buys then inject_Z (10 ^ 100) else 0%Q)) \/
    (numtrades s' = S (numtrades s) /\ exists t, log_of (uid_aggr (numtrades s)) s' = Some t /\ t_exec t = false /\ v = t_price t)).
Proof.
  cbv zeta. assert (G : forall r fail, r = amm_buys e s (preview tkn size pair) \/ r = amm_sells e s (preview tkn size pair) -> orders (fst r) = orders s /\
     ((numtrades (fst r) = numtrades s /\ match last_row s r with Some row => t_price row | None => fail end = fail) \/
      (numtrades (fst r) = S (numtrades s) /\ exists t, log_of (uid_aggr (numtrades s)) (fst r) = Some t /\ t_exec t = false /\ match last_row s r with Some row => t_price row | None => fail end = t_price t))).
  { intros r fail Hr. destruct (amm_preview _ _ _ _ Hr eq_refl) as [O P]. destruct (amm_num _ _ _ _ Hr) as [N _]. split; [exact O|]. unfold last_row. destruct (snd r) eqn:E; [|left; split; [exact N|reflexivity]].
    right. split; [exact N|]. destruct (P eq_refl) as (t & A & B). exists t. split; [exact A|]. split; [exact B|]. unfold log_of in A. rewrite A. reflexivity. }
  unfold effective_price. cbn [sm_env sm_state]. cbv zeta. destruct buys.
  - change (String.eqb "amm_buys" BID_BOOK) with true. cbv iota. do 2 eexists. split; [reflexivity|]. apply G. left. reflexivity.
  - change (String.eqb "amm_sells" BID_BOOK) with false. change (String.eqb "amm_sells" ASK_BOOK) with true. cbv iota. do 2 eexists. split; [reflexivity|]. apply G. right. reflexivity.
Qed.
