(** Properties C16-C25 and C61-C64 of carbon/simulators/carbon_simulator.py, and a consequence
    of C15. *)
From Coq Require Import ZArith QArith Qabs List Bool Ascii String.
From Verif Require Import TradeModel PairModel PairSpec SimModel SimSpec.
From Verif Require PairProofs.
From Verif Require Import SimProofs3 SimProofs4 SimProofs5 SimProofs6 SimProofs7 SimProofs8 SimProofs9.
Import ListNotations.
Local Open Scope list_scope.

(** ** Concrete data for the examples *)
Definition ex_pair : pair := mkPair "ETH" "USDC" "ETH" "USDC" false None None.
(** a router that sells 5 from the first order if it has them, against 10000 *)
Definition ex_router (apps : list sorder) (rq : request) : option (list route) :=
  match apps with
  | o :: _ => if Qle_bool 5 (so_y o) then Some [mkRoute 0 10000 (-5) 10000 (-5)] else None
  | [] => None
  end.
Definition ex_env : env := mkEnv ex_router false (fun _ _ _ _ => None) (Some ex_pair) true.
Definition ex_fast : env := mkEnv (fun apps rq => match apps with [] => None | _ => Some [mkRoute 0 5 (-10000) 5 (-10000)] end)
  true (fun _ _ _ _ => None) (Some ex_pair) true.
(** 10 ETH between 2000 and 2500, 20000 USDC between 1500 and 1000 *)
Definition ex_add : add_args :=
  mkAdd "ETH" ArgNone None (Some 10%Q) (Some 2000%Q) (Some 2500%Q) None None (Some 20000%Q) (Some 1500%Q) (Some 1000%Q) None None.
(** the buy leg has only one of its two prices *)
Definition ex_add_half : add_args :=
  mkAdd "ETH" ArgNone None (Some 10%Q) (Some 2000%Q) (Some 2500%Q) None None (Some 20000%Q) (Some 1500%Q) None None None.
Definition ex_sell (execute : bool) (limit_price limit_amt : option Q) : trade_args :=
  mkTrade "ETH" 5 ArgNone execute true limit_price limit_amt None None true.
Definition ex_buy (limit_price limit_amt : option Q) : trade_args :=
  mkTrade "USDC" 10000 ArgNone true true limit_price limit_amt None None true.
Definition ex_book : state := run ex_env init [OpAdd ex_add].

Example ex_router_signs : router_signs ex_env.
Proof.
  intros [|o apps] rq r0 rs H; cbn in H; [discriminate|]. destruct (Qle_bool 5 (so_y o)); [|discriminate]. injection H as <- <-. split; reflexivity.
Qed.
Example ex_fast_signs : router_signs ex_fast.
Proof. intros [|o apps] rq r0 rs H; cbn in H; [discriminate|]. injection H as <- <-. split; reflexivity. Qed.
Example ex_router_valid : router_valid ex_env.
Proof.
  intros [|o apps] rq routes r H; cbn in H; [discriminate|]. destruct (Qle_bool 5 (so_y o)); [|discriminate]. injection H as <-.
  intros [<-|[]]. cbn. apply Nat.lt_0_succ.
Qed.
Example ex_router_bounded : router_bounded ex_env.
Proof.
  intros [|o apps] rq routes i o' Ho H Hi; cbn in H; [discriminate|]. destruct (Qle_bool 5 (so_y o)) eqn:E; [|discriminate]. injection H as <-.
  apply Qle_bool_iff in E. destruct i as [|i].
  - injection Hi as <-. destruct (rq_by rq); exact E.
  - cbn in Hi. cbn. destruct (Ho o') as [G _]; [right; apply nth_error_In in Hi; exact Hi|]. apply Qlt_le_weak. exact G.
Qed.
Example ex_book_linked : well_linked (orders ex_book).
Proof. intros k o [E|[E|[]]]; injection E as <- <-; eexists; [right; left|left]; reflexivity. Qed.
Example ex_book_keyed : well_keyed ex_book.
Proof. apply run_well_keyed. reflexivity. Qed.

(** ** C16 *)
(** ids are distinct, issued, and stored with their order *)
Theorem C16_ids_distinct e ops : e_exclude_future e = true ->
  let s := run e init ops in
  NoDup (map fst (orders s)) /\ forall k o, In (k, o) (orders s) -> so_id o = k /\ (k < next_id s)%nat.
Proof. exact (run_well_keyed e ops). Qed.
Print Assumptions C16_ids_distinct.
Example C16_ids_distinct_ex : map fst (orders (run ex_env init [OpAdd ex_add; OpAdd ex_add_half; OpDelete 0; OpAdd ex_add])) = [2; 4; 5]%nat.
Proof. vm_compute. reflexivity. Qed.
(** an id that has been issued and is no longer in the book never comes back *)
Theorem C16_ids_not_reused e ops ops' k : e_exclude_future e = true ->
  let s := run e init ops in
  (k < next_id s)%nat -> oget k (orders s) = None -> oget k (orders (run e s ops')) = None.
Proof. intros He s. apply (run_absent e ops' s k He). exact (run_well_keyed e ops He). Qed.
Print Assumptions C16_ids_not_reused.
Example C16_ids_not_reused_ex : let s := run ex_env init [OpAdd ex_add; OpDelete 0] in (0 < next_id s)%nat /\ oget 0 (orders s) = None.
Proof. vm_compute. split; [repeat constructor|reflexivity]. Qed.
(** as long as an order stays in the book its terms do not change and its capacity does not shrink *)
Theorem C16_terms_persist e ops ops' k o o' : e_exclude_future e = true ->
  let s := run e init ops in
  oget k (orders s) = Some o -> oget k (orders (run e s ops')) = Some o' -> same_terms o o' /\ (so_yint o <= so_yint o')%Q.
Proof. intros He s. apply (run_persist e ops' s k o o' He). exact (run_well_keyed e ops He). Qed.
Print Assumptions C16_terms_persist.
Example C16_terms_persist_ex : let s := run ex_env init [OpAdd ex_add] in
  exists o o', oget 1 (orders s) = Some o /\ oget 1 (orders (run ex_env s [OpSell (ex_sell true None None)])) = Some o' /\ (so_y o < so_y o')%Q.
Proof. vm_compute. eexists; eexists. repeat split. Qed.
(** a successful add_strategy appends two mutually linked orders that sell the two tokens *)
Theorem C16_add_strategy e s a s' : well_keyed s -> add_strategy e s a = (s', true) ->
  exists o1 o2 cp, orders s' = orders s ++ [(next_id s, o1); (S (next_id s), o2)] /\
    next_id s' = S (S (next_id s)) /\ trades s' = trades s /\ numtrades s' = numtrades s /\
    so_id o1 = next_id s /\ so_lid o1 = S (next_id s) /\ so_id o2 = S (next_id s) /\ so_lid o2 = next_id s /\
    so_pair o1 = cp /\ so_pair o2 = cp /\ so_tkn o1 = ad_tkn a /\
    ((so_tkn o1 = tknb cp /\ so_tkn o2 = tknq cp) \/ (so_tkn o1 = tknq cp /\ so_tkn o2 = tknb cp)).
Proof. exact (add_success e s a s'). Qed.
Print Assumptions C16_add_strategy.
Example C16_add_strategy_ex : well_keyed ex_book /\ snd (add_strategy ex_env ex_book ex_add) = true.
Proof. split; [exact ex_book_keyed|vm_compute; reflexivity]. Qed.
(** links join neighbours of opposite tokens, back and forth, in every reachable book *)
Theorem C16_links e ops k o : e_exclude_future e = true ->
  let s := run e init ops in oget k (orders s) = Some o ->
  (so_lid o = S k \/ k = S (so_lid o)) /\
  forall l, oget (so_lid o) (orders s) = Some l -> so_lid l = k /\ so_pair l = so_pair o /\ other (so_pair o) (so_tkn o) = Some (so_tkn l).
Proof. intros He s. exact (run_paired e ops He k o). Qed.
Print Assumptions C16_links.
Example C16_links_ex : exists o, oget 1 (orders ex_book) = Some o /\ so_lid o = 0%nat.
Proof. vm_compute. eexists. split; reflexivity. Qed.

(** ** C17 *)
Theorem C17_add_outcomes e s a cp tkn2 : well_keyed s -> get_carbon_pair e (ad_pair a) = Some cp ->
  other cp (ad_tkn a) = Some tkn2 -> prices_nonzero a ->
  let n := next_id s in
  let sell_ok := leg_ok e cp (ad_tkn a) (ad_amt_sell a) (ad_psell_start a) (ad_psell_end a) (ad_psell_marg a) (ad_yint_sell a) in
  let buy_ok := leg_ok e cp tkn2 (ad_amt_buy a) (ad_pbuy_start a) (ad_pbuy_end a) (ad_pbuy_marg a) (ad_yint_buy a) in
  let sell_terms := leg_terms cp (ad_tkn a) (ad_amt_sell a) (ad_psell_start a) (ad_psell_end a) (ad_psell_marg a) (ad_yint_sell a) in
  let buy_terms := leg_terms cp tkn2 (ad_amt_buy a) (ad_pbuy_start a) (ad_pbuy_end a) (ad_pbuy_marg a) (ad_yint_buy a) in
  (~ sell_ok -> add_strategy e s a = (mkState (orders s) (trades s) (numtrades s) (S (S n)), false)) /\
  (sell_ok -> ~ buy_ok -> exists o1, sell_terms o1 /\ so_id o1 = n /\ so_lid o1 = S n /\
     add_strategy e s a = (mkState (orders s ++ [(n, o1)]) (trades s) (numtrades s) (S (S n)), false)) /\
  (sell_ok -> buy_ok -> exists o1 o2 ok, sell_terms o1 /\ buy_terms o2 /\ so_id o1 = n /\ so_lid o1 = S n /\ so_id o2 = S n /\ so_lid o2 = n /\
     add_strategy e s a = (mkState (orders s ++ [(n, o1); (S n, o2)]) (trades s) (numtrades s) (S (S n)), ok)).
Proof. exact (add_outcomes e s a cp tkn2). Qed.
Print Assumptions C17_add_outcomes.
Example C17_add_outcomes_ex : well_keyed ex_book /\ get_carbon_pair ex_env (ad_pair ex_add_half) = Some ex_pair /\
  other ex_pair "ETH" = Some "USDC"%string /\ prices_nonzero ex_add_half /\
  leg_ok ex_env ex_pair "ETH" (Some 10%Q) (Some 2000%Q) (Some 2500%Q) None None /\
  ~ leg_ok ex_env ex_pair "USDC" (Some 20000%Q) (Some 1500%Q) None None None.
Proof.
  split; [exact ex_book_keyed|]. split; [reflexivity|]. split; [reflexivity|]. split.
  { repeat split; intros v H; cbn in H; try discriminate; injection H as <-; discriminate. }
  split.
  - repeat split; [auto| |discriminate|discriminate]. right. exists 2000%Q, 2500%Q. repeat split; discriminate.
  - intros (_ & [[H _]|(a & b & _ & H & _)] & _); discriminate.
Qed.
(** a single order: a valid leg and an empty, disabled order linked to it *)
Theorem C17_add_order e s tkn amt p1 p2 pair pm cap cp tkn2 : well_keyed s -> get_carbon_pair e pair = Some cp -> other cp tkn = Some tkn2 ->
  nonzero p1 -> nonzero p2 -> nonzero pm ->
  let n := next_id s in
  (~ leg_ok e cp tkn amt p1 p2 pm cap -> add_order e s tkn amt p1 p2 pair pm cap = (mkState (orders s) (trades s) (numtrades s) (S (S n)), false)) /\
  (leg_ok e cp tkn amt p1 p2 pm cap -> exists o1 o2 ok, leg_terms cp tkn amt p1 p2 pm cap o1 /\ so_tkn o2 = tkn2 /\ so_pair o2 = cp /\ so_y o2 = 0%Q /\ so_yint o2 = 0%Q /\ so_disabled o2 = true /\
     so_id o1 = n /\ so_lid o1 = S n /\ so_id o2 = S n /\ so_lid o2 = n /\
     add_order e s tkn amt p1 p2 pair pm cap = (mkState (orders s ++ [(n, o1); (S n, o2)]) (trades s) (numtrades s) (S (S n)), ok)).
Proof.
  intros K P O N1 N2 N3 n. set (a := mkAdd tkn pair None amt p1 p2 pm cap None None None None None).
  destruct (add_outcomes e s a cp tkn2 K P O) as (F & _ & S); [repeat split; try assumption; intros v H; discriminate|]. split; [exact F|].
  intros L. destruct (S L) as (o1 & o2 & ok & T1 & (B1 & B2 & B3 & B4 & B5) & I1 & L1 & I2 & L2 & E).
  - split; [left; reflexivity|]. split; [left; split; reflexivity|]. split; intros v H; discriminate.
  - exists o1, o2, ok. rewrite (B4 eq_refl). repeat (split; [assumption || reflexivity|]). exact E.
Qed.
Print Assumptions C17_add_order.
Example C17_add_order_ex : well_keyed ex_book /\ get_carbon_pair ex_env ArgNone = Some ex_pair /\ other ex_pair "ETH" = Some "USDC"%string /\
  leg_ok ex_env ex_pair "ETH" (Some 10%Q) (Some 2000%Q) (Some 2500%Q) None None /\ nonzero (Some 2000%Q) /\ nonzero (Some 2500%Q).
Proof.
  split; [exact ex_book_keyed|]. split; [reflexivity|]. split; [reflexivity|]. split; [|split; intros v [= <-]; discriminate].
  repeat split; [auto| |discriminate|discriminate]. right. exists 2000%Q, 2500%Q. repeat split; discriminate.
Qed.
(** the pair of an operation: none or an empty text is the simulator's own, a text with one slash is
    that pair as written, anything else fails *)
Theorem C17_pair_argument e : get_carbon_pair e ArgNone = e_pair e /\ get_carbon_pair e (ArgStr "") = e_pair e /\ (forall p, get_carbon_pair e (ArgPair p) = Some p) /\
  (forall b q, slash_free b -> slash_free q -> get_carbon_pair e (ArgStr (b ++ "/" ++ q)) = Some (mkPair (upper b) (upper q) b q false None None)) /\
  (forall s, s <> ""%string -> (forall b q, slash_free b -> slash_free q -> s <> (b ++ "/" ++ q)%string) -> get_carbon_pair e (ArgStr s) = None).
Proof.
  repeat (split; [reflexivity|]). split.
  - intros b q Hb Hq. cbn [get_carbon_pair]. destruct (String.eqb_spec (b ++ "/" ++ q) "") as [E|_]; [destruct b; discriminate|]. destruct (PairProofs.slash_construction b q false Hb Hq) as [-> _]. reflexivity.
  - intros s Hs H. cbn [get_carbon_pair]. destruct (String.eqb_spec s "") as [E|_]; [contradiction|]. destruct (mk_pair (SlashStr s) None None false) as [p|] eqn:M; [|reflexivity]. exfalso.
    destruct (proj1 (PairProofs.slash_accept s false) (ex_intro _ p M)) as (a & b & Ha & Hb & E). exact (H a b Ha Hb E).
Qed.
Print Assumptions C17_pair_argument.
Theorem C17_unknown_token e s a cp : get_carbon_pair e (ad_pair a) = Some cp -> ad_tkn a <> tknb cp -> ad_tkn a <> tknq cp ->
  add_strategy e s a = (s, false).
Proof. exact (add_bad_token e s a cp). Qed.
Print Assumptions C17_unknown_token.
Example C17_unknown_token_ex : get_carbon_pair ex_env ArgNone = Some ex_pair /\ "LINK"%string <> tknb ex_pair /\ "LINK"%string <> tknq ex_pair.
Proof. repeat split; discriminate. Qed.
(** "an add_strategy that fails leaves the book unchanged" is false *)
Theorem C17_atomic_refuted : exists e ops a, e_exclude_future e = true /\ let s := run e init ops in
  snd (add_strategy e s a) = false /\ exists o, oget (next_id s) (orders (fst (add_strategy e s a))) = Some o /\
    (0 < so_y o)%Q /\ oget (so_lid o) (orders (fst (add_strategy e s a))) = None.
Proof. exists ex_env, [OpAdd ex_add], ex_add_half. vm_compute. split; [reflexivity|]. split; [reflexivity|]. eexists. repeat split. Qed.
Print Assumptions C17_atomic_refuted.

(** ** C18 *)
Theorem C18_delete_order s i : well_keyed s ->
  let r := delete_order s i in
  trades (fst r) = trades s /\ numtrades (fst r) = numtrades s /\ next_id (fst r) = next_id s /\
  match oget i (orders s) with
  | None => r = (s, inl [])
  | Some o =>
    let l := so_lid o in
    if orb (Nat.eqb l i) (Nat.eqb l 0) then
      snd r = inl [i] /\ forall k, oget k (orders (fst r)) = if Nat.eqb k i then None else oget k (orders s)
    else match oget l (orders s) with
         | Some _ => snd r = inl [i; l] /\ forall k, oget k (orders (fst r)) = if orb (Nat.eqb k i) (Nat.eqb k l) then None else oget k (orders s)
         | None => snd r = inr tt /\ forall k, oget k (orders (fst r)) = if Nat.eqb k i then None else oget k (orders s)
         end
  end.
Proof. exact (delete_spec s i). Qed.
Print Assumptions C18_delete_order.
Example C18_delete_order_ex : well_keyed ex_book /\ snd (delete_order ex_book 0) = inl [0; 1]%nat.
Proof. split; [exact ex_book_keyed|vm_compute; reflexivity]. Qed.
(** "deleting either order of a strategy removes both" is false *)
Theorem C18_delete_both_refuted : exists e ops i o l, e_exclude_future e = true /\ let s := run e init ops in
  oget i (orders s) = Some o /\ oget (so_lid o) (orders s) = Some l /\ snd (delete_order s i) = inl [i] /\
  oget (so_lid o) (orders (fst (delete_order s i))) = Some l.
Proof. exists ex_env, [OpAdd ex_add], 1%nat. vm_compute. do 2 eexists. repeat split. Qed.
Print Assumptions C18_delete_both_refuted.

(** ** C19 *)
Theorem C19_preview e s a r : r = amm_buys e s a \/ r = amm_sells e s a -> tr_execute a = false ->
  orders (fst r) = orders s /\
  (snd r = true -> exists t, log_of (uid_aggr (numtrades s)) (fst r) = Some t /\ t_exec t = false).
Proof. exact (amm_preview e s a r). Qed.
Print Assumptions C19_preview.
Example C19_preview_ex : snd (amm_sells ex_env ex_book (ex_sell false None None)) = true.
Proof. vm_compute. reflexivity. Qed.
Theorem C19_buys_limit_price e s a cp s' l : router_signs e -> (0 <= tr_amt a)%Q -> get_carbon_pair e (tr_pair a) = Some cp ->
  tr_limit_price a = Some l -> tr_limit_amt a = None -> amm_buys e s a = (s', true) ->
  exists t, log_of (uid_aggr (numtrades s)) s' = Some t /\ other cp (tr_tkn a) = Some (t_tkn1 t) /\ (0 < t_amt1 t)%Q /\ (0 < t_amt2 t)%Q /\
    let p := pair_price cp (t_tkn1 t) (t_amt1 t) (t_amt2 t) in
    (limit_ok cp (t_tkn1 t) l p -> t_exec t = tr_execute a /\ t_limitfail t = Some false) /\
    (~ limit_ok cp (t_tkn1 t) l p -> t_exec t = false /\ t_limitfail t = Some true /\ orders s' = orders s).
Proof. exact (buys_limit_price e s a cp s' l). Qed.
Print Assumptions C19_buys_limit_price.
Example C19_buys_limit_price_ex : snd (amm_buys ex_env ex_book (ex_buy (Some 1999%Q) None)) = true /\
  orders (fst (amm_buys ex_env ex_book (ex_buy (Some 1999%Q) None))) = orders ex_book /\
  snd (amm_buys ex_env ex_book (ex_buy (Some 2000%Q) None)) = true /\
  orders (fst (amm_buys ex_env ex_book (ex_buy (Some 2000%Q) None))) <> orders ex_book.
Proof. vm_compute. repeat split. discriminate. Qed.
(** exact and alpha routers (for the fast router see C62) *)
Theorem C19_sells_limit_price e s a cp s' l : router_signs e -> e_fast e = false -> (0 <= tr_amt a)%Q -> get_carbon_pair e (tr_pair a) = Some cp ->
  has_token cp (tr_tkn a) = true -> tr_limit_price a = Some l -> tr_limit_amt a = None -> amm_sells e s a = (s', true) ->
  exists t, log_of (uid_aggr (numtrades s)) s' = Some t /\ t_tkn1 t = tr_tkn a /\ (0 < t_amt1 t)%Q /\ (0 < t_amt2 t)%Q /\
    let p := pair_price cp (tr_tkn a) (t_amt1 t) (t_amt2 t) in
    (limit_ok cp (tr_tkn a) l p -> t_exec t = tr_execute a /\ t_limitfail t = Some false) /\
    (~ limit_ok cp (tr_tkn a) l p -> t_exec t = false /\ t_limitfail t = Some true /\ orders s' = orders s).
Proof.
  intros Hr Hf Ha Hcp Ht Hl Hla H. destruct (sells_limit_price e s a cp s' l Hr Ha Hcp Ht Hl Hla H) as (t & X). rewrite Hf in X. exists t. exact X.
Qed.
Print Assumptions C19_sells_limit_price.
Example C19_sells_limit_price_ex : snd (amm_sells ex_env ex_book (ex_sell true (Some 1999%Q) None)) = true /\
  orders (fst (amm_sells ex_env ex_book (ex_sell true (Some 1999%Q) None))) = orders ex_book.
Proof. vm_compute. repeat split. Qed.

(** ** C61: a limit amount is a limit on the price per unit *)
Theorem C61_buys_limit_amt e s a cp s' la : router_signs e -> (0 < tr_amt a)%Q -> get_carbon_pair e (tr_pair a) = Some cp -> tknb cp <> tknq cp ->
  tr_limit_price a = None -> tr_limit_amt a = Some la -> (0 < la)%Q -> amm_buys e s a = (s', true) ->
  exists t, log_of (uid_aggr (numtrades s)) s' = Some t /\ other cp (tr_tkn a) = Some (t_tkn1 t) /\ (0 < t_amt1 t)%Q /\ (0 < t_amt2 t)%Q /\
    (la * t_amt2 t <= tr_amt a * t_amt1 t -> t_exec t = tr_execute a)%Q /\
    (~ (la * t_amt2 t <= tr_amt a * t_amt1 t)%Q -> t_exec t = false /\ orders s' = orders s).
Proof. exact (buys_limit_amt e s a cp s' la). Qed.
Print Assumptions C61_buys_limit_amt.
Example C61_buys_limit_amt_ex : snd (amm_buys ex_env ex_book (ex_buy None (Some 6%Q))) = true /\
  orders (fst (amm_buys ex_env ex_book (ex_buy None (Some 6%Q)))) = orders ex_book.
Proof. vm_compute. repeat split. Qed.
Theorem C61_sells_limit_amt e s a cp s' la : router_signs e -> e_fast e = false -> (0 < tr_amt a)%Q -> get_carbon_pair e (tr_pair a) = Some cp ->
  tknb cp <> tknq cp -> has_token cp (tr_tkn a) = true ->
  tr_limit_price a = None -> tr_limit_amt a = Some la -> (0 < la)%Q -> amm_sells e s a = (s', true) ->
  exists t, log_of (uid_aggr (numtrades s)) s' = Some t /\ t_tkn1 t = tr_tkn a /\ (0 < t_amt1 t)%Q /\ (0 < t_amt2 t)%Q /\
    (tr_amt a * t_amt2 t <= la * t_amt1 t -> t_exec t = tr_execute a)%Q /\
    (~ (tr_amt a * t_amt2 t <= la * t_amt1 t)%Q -> t_exec t = false /\ orders s' = orders s).
Proof. exact (sells_limit_amt e s a cp s' la). Qed.
Print Assumptions C61_sells_limit_amt.
Example C61_sells_limit_amt_ex : snd (amm_sells ex_env ex_book (ex_sell true None (Some 9000%Q))) = true /\
  orders (fst (amm_sells ex_env ex_book (ex_sell true None (Some 9000%Q)))) = orders ex_book /\
  orders (fst (amm_sells ex_env ex_book (ex_sell true None (Some 10000%Q)))) <> orders ex_book.
Proof. vm_compute. repeat split. discriminate. Qed.

(** ** C62: with the fast router by target the limit is compared with the reciprocal price *)
Theorem C62_fast_sells_limit_price e s a cp s' l : router_signs e -> e_fast e = true -> (0 <= tr_amt a)%Q -> get_carbon_pair e (tr_pair a) = Some cp ->
  has_token cp (tr_tkn a) = true -> tr_limit_price a = Some l -> tr_limit_amt a = None -> amm_sells e s a = (s', true) ->
  exists t, log_of (uid_aggr (numtrades s)) s' = Some t /\ t_tkn1 t = tr_tkn a /\ (0 < t_amt1 t)%Q /\ (0 < t_amt2 t)%Q /\
    let reciprocal := pair_price cp (tr_tkn a) (t_amt2 t) (t_amt1 t) in
    (limit_ok cp (tr_tkn a) l reciprocal -> t_exec t = tr_execute a /\ t_limitfail t = Some false) /\
    (~ limit_ok cp (tr_tkn a) l reciprocal -> t_exec t = false /\ t_limitfail t = Some true /\ orders s' = orders s).
Proof.
  intros Hr Hf Ha Hcp Ht Hl Hla H. destruct (sells_limit_price e s a cp s' l Hr Ha Hcp Ht Hl Hla H) as (t & X). rewrite Hf in X. exists t. exact X.
Qed.
Print Assumptions C62_fast_sells_limit_price.
Example C62_fast_ex : snd (amm_sells ex_fast ex_book (ex_sell true (Some 1999%Q) None)) = true.
Proof. vm_compute. reflexivity. Qed.
(** "an executed trade respects its limit price" is false for the fast router by target: here
    5 ETH are sold at 2000 although the limit is 1/100 *)
Theorem C62_limit_respected_refuted : exists e s a cp l t, router_signs e /\ get_carbon_pair e (tr_pair a) = Some cp /\
  tr_limit_price a = Some l /\ tr_limit_amt a = None /\ snd (amm_sells e s a) = true /\
  log_of (uid_aggr (numtrades s)) (fst (amm_sells e s a)) = Some t /\ t_exec t = true /\
  ~ limit_ok cp (tr_tkn a) l (pair_price cp (tr_tkn a) (t_amt1 t) (t_amt2 t)).
Proof.
  exists ex_fast, ex_book, (ex_sell true (Some (1 # 100)%Q) None), ex_pair, (1 # 100)%Q. eexists.
  split; [exact ex_fast_signs|]. do 3 (split; [reflexivity|]). split; [vm_compute; reflexivity|]. split; [vm_compute; reflexivity|].
  split; [reflexivity|]. vm_compute. intros H. apply H. reflexivity.
Qed.
Print Assumptions C62_limit_respected_refuted.

(** ** C20 *)
Theorem C20_balances e s a r : r = amm_buys e s a \/ r = amm_sells e s a -> snd r = true ->
  exists t recs, log_of (uid_aggr (numtrades s)) (fst r) = Some t /\ route_records (fst r) (numtrades s) recs /\
    recs <> [] /\ List.concat (map t_routeix recs) = t_routeix t /\
    (forall x, In x recs -> t_exec x = t_exec t /\ t_tkn1 x = t_tkn1 t /\ t_tkn2 x = t_tkn2 t /\ exists i, t_routeix x = [i]) /\
    (t_exec t = true -> map fst (orders (fst r)) = map fst (orders s) /\
       forall k o, oget k (orders s) = Some o -> exists o', oget k (orders (fst r)) = Some o' /\
         same_terms o o' /\ (so_yint o <= so_yint o')%Q /\
         (so_yint o' = so_yint o \/ (so_yint o' <= so_y o + qsum (bought_for (orders s) k) recs)%Q) /\
         (so_y o' == so_y o - qsum (sold_by k) recs + qsum (bought_for (orders s) k) recs)%Q).
Proof. exact (balances e s a r). Qed.
Print Assumptions C20_balances.
Example C20_balances_ex : let r := amm_sells ex_env ex_book (ex_sell true None None) in
  snd r = true /\ map (fun ko => Qred (so_y (snd ko))) (orders ex_book) = [10; 20000]%Q /\
  map (fun ko => Qred (so_y (snd ko))) (orders (fst r)) = [5; 30000]%Q.
Proof. vm_compute. repeat split. Qed.
(** totals over the book, without any assumption on the links *)
Theorem C20_totals e s a r t : well_keyed s -> r = amm_buys e s a \/ r = amm_sells e s a -> snd r = true ->
  log_of (uid_aggr (numtrades s)) (fst r) = Some t -> t_exec t = true ->
  exists recs, route_records (fst r) (numtrades s) recs /\ recs <> [] /\ List.concat (map t_routeix recs) = t_routeix t /\
   (forall x, In x recs -> t_exec x = t_exec t /\ t_tkn1 x = t_tkn1 t /\ t_tkn2 x = t_tkn2 t /\ exists i, t_routeix x = [i]) /\
   forall u, (book_total u (orders (fst r)) == book_total u (orders s)
      - (if string_dec (t_tkn1 t) u then qsum t_amt1 recs else 0) + qsum (credited_to (orders s) u) recs)%Q.
Proof. exact (totals e s a r t). Qed.
Print Assumptions C20_totals.
(** totals over a complete book whose orders of that name are orders of that pair *)
Theorem C20_strategy_totals e ops a r t : e_exclude_future e = true -> let s := run e init ops in
  well_linked (orders s) ->
  (forall cp k o, get_carbon_pair e (tr_pair a) = Some cp -> In (k, o) (orders s) ->
     so_pair_name o = pair_iso cp \/ so_pair_name o = pair_iso (reverse cp) -> same_pair (so_pair o) cp) ->
  r = amm_buys e s a \/ r = amm_sells e s a -> snd r = true ->
  log_of (uid_aggr (numtrades s)) (fst r) = Some t -> t_exec t = true ->
  exists recs tkn2, route_records (fst r) (numtrades s) recs /\ List.concat (map t_routeix recs) = t_routeix t /\ t_tkn2 t = Some tkn2 /\
   forall u, (book_total u (orders (fst r)) == book_total u (orders s)
      - (if string_dec (t_tkn1 t) u then qsum t_amt1 recs else 0) + (if string_dec tkn2 u then qsum t_amt2 recs else 0))%Q.
Proof. exact (strategy_totals e ops a r t). Qed.
Print Assumptions C20_strategy_totals.
Example C20_totals_ex : well_keyed ex_book /\ well_linked (orders ex_book) /\
  (forall cp k o, get_carbon_pair ex_env ArgNone = Some cp -> In (k, o) (orders ex_book) ->
     so_pair_name o = pair_iso cp \/ so_pair_name o = pair_iso (reverse cp) -> same_pair (so_pair o) cp) /\
  let r := amm_sells ex_env ex_book (ex_sell true None None) in
  snd r = true /\ exists t, log_of (uid_aggr (numtrades ex_book)) (fst r) = Some t /\ t_exec t = true /\
  (book_total "USDC" (orders (fst r)) == 30000 /\ book_total "ETH" (orders (fst r)) == 5)%Q.
Proof.
  split; [exact ex_book_keyed|]. split; [exact ex_book_linked|]. split.
  - intros cp k o E Hin _. injection E as <-. destruct Hin as [H|[H|[]]]; injection H as <- <-; left; split; reflexivity.
  - vm_compute. split; [reflexivity|]. eexists. repeat split.
Qed.

(** ** C15, continued: a trade of one pair can be filled by an order of another pair *)
Definition iso_add (p : string) : add_args :=
  mkAdd "A" (ArgStr p) None (Some 10%Q) (Some 2%Q) (Some 3%Q) None None (Some 20%Q) (Some 1%Q) (Some (1#2)%Q) None None.
Definition iso_env : env := mkEnv (fun apps rq => match apps with [] => None | _ => Some [mkRoute 0 7 (-5) 7 (-5)] end)
  false (fun _ _ _ _ => None) None true.
Definition iso_sell (tkn p : string) : trade_args := mkTrade tkn 5 (ArgStr p) true true None None None None true.
(** the trade log records AB for A, the book receives BA *)
Theorem C15_wrong_book_refuted : exists e ops a t, e_exclude_future e = true /\ let s := run e init ops in
  well_linked (orders s) /\ tr_pair a = ArgStr "AB/A" /\ snd (amm_sells e s a) = true /\
  log_of (uid_aggr (numtrades s)) (fst (amm_sells e s a)) = Some t /\ t_exec t = true /\
  t_tkn1 t = "A"%string /\ t_tkn2 t = Some "AB"%string /\
  (book_total "AB" (orders (fst (amm_sells e s a))) == 0)%Q /\
  (book_total "BA" (orders s) < book_total "BA" (orders (fst (amm_sells e s a))))%Q.
Proof.
  exists iso_env, [OpAdd (iso_add "A/BA")], (iso_sell "A" "AB/A"). eexists. split; [reflexivity|]. cbv zeta.
  split; [intros k o [E|[E|[]]]; injection E as <- <-; eexists; [right; left|left]; reflexivity|].
  vm_compute. repeat split.
Qed.
Print Assumptions C15_wrong_book_refuted.

(** ** C21 *)
Theorem C21_buys_touch e s a cp s' ok k : well_keyed s -> (0 <= tr_amt a)%Q -> get_carbon_pair e (tr_pair a) = Some cp ->
  amm_buys e s a = (s', ok) -> oget k (orders s') <> oget k (orders s) ->
  exists i o, oget i (orders s) = Some o /\ (k = i \/ k = so_lid o) /\
    (so_pair_name o = pair_iso cp \/ so_pair_name o = pair_iso (reverse cp)) /\
    other cp (tr_tkn a) = Some (so_tkn o) /\ so_disabled o = false /\ (0 < so_y o)%Q /\
    (forall u, tr_use_positions a = Some u -> In i u) /\
    (ok = true -> exists t, log_of (uid_aggr (numtrades s)) s' = Some t /\ t_exec t = true /\ In i (t_routeix t)).
Proof. exact (buys_touch e s a cp s' ok k). Qed.
Print Assumptions C21_buys_touch.
Theorem C21_sells_touch e s a cp s' ok k : well_keyed s -> (0 <= tr_amt a)%Q -> get_carbon_pair e (tr_pair a) = Some cp ->
  amm_sells e s a = (s', ok) -> oget k (orders s') <> oget k (orders s) ->
  exists i o, oget i (orders s) = Some o /\ (k = i \/ k = so_lid o) /\
    (so_pair_name o = pair_iso cp \/ so_pair_name o = pair_iso (reverse cp)) /\
    so_tkn o = tr_tkn a /\ so_disabled o = false /\ (0 < so_y o)%Q /\
    (forall u, tr_use_positions a = Some u -> In i u) /\
    (ok = true -> exists t, log_of (uid_aggr (numtrades s)) s' = Some t /\ t_exec t = true /\ In i (t_routeix t)).
Proof. exact (sells_touch e s a cp s' ok k). Qed.
Print Assumptions C21_sells_touch.
Example C21_touch_ex : let s := run ex_env ex_book [OpAdd ex_add] in
  let a := mkTrade "ETH" 5 ArgNone true true None None None (Some [2%nat]) true in
  map (fun k => match oget k (orders (fst (amm_sells ex_env s a))) with Some o => Qred (so_y o) | None => 0%Q end) [0; 1; 2; 3]%nat
  = [10; 20000; 5; 30000]%Q.
Proof. vm_compute. reflexivity. Qed.

(** ** C22 *)
Theorem C22_balance_bounds e ops k o : e_exclude_future e = true -> router_bounded e -> Forall (legit e) ops ->
  oget k (orders (run e init ops)) = Some o -> (0 <= so_y o)%Q /\ (so_y o <= so_yint o)%Q.
Proof. exact (run_bounded e ops k o). Qed.
Print Assumptions C22_balance_bounds.
Example C22_balance_bounds_ex : router_bounded ex_env /\
  Forall (legit ex_env) [OpAdd ex_add; OpSell (ex_sell true None None); OpSell (ex_sell true None None); OpSell (ex_sell true None None)] /\
  exists o, oget 0 (orders (run ex_env init [OpAdd ex_add; OpSell (ex_sell true None None); OpSell (ex_sell true None None); OpSell (ex_sell true None None)])) = Some o /\ (so_y o == 0)%Q.
Proof.
  split; [exact ex_router_bounded|]. split.
  - repeat constructor; cbn; try discriminate. 
  - vm_compute. eexists. split; reflexivity.
Qed.
Theorem C22_capacity_monotone e ops ops' k o o' : e_exclude_future e = true ->
  let s := run e init ops in
  oget k (orders s) = Some o -> oget k (orders (run e s ops')) = Some o' -> (so_yint o <= so_yint o')%Q.
Proof. intros He s H H'. apply (C16_terms_persist e ops ops' k o o' He H H'). Qed.
Print Assumptions C22_capacity_monotone.

(** ** C23 *)
Theorem C23_append_only e ops s m u : (m < numtrades s)%nat -> uid_of m u -> log_of u (run e s ops) = log_of u s.
Proof. exact (run_log e ops s m u). Qed.
Print Assumptions C23_append_only.
Theorem C23_count e ops s : numtrades (run e s ops) = (numtrades s + successes e s ops)%nat.
Proof. exact (run_numtrades e ops s). Qed.
Print Assumptions C23_count.
Example C23_ex : let ops := [OpAdd ex_add; OpSell (ex_sell true None None); OpSell (ex_sell false None None); OpDelete 0; OpSell (ex_sell true None None)] in
  successes ex_env init ops = 2%nat /\ map fst (trades (run ex_env init ops)) = ["0.0"; "0"; "1.0"; "1"]%string.
Proof. vm_compute. split; reflexivity. Qed.
Theorem C23_records e s a r : r = amm_buys e s a \/ r = amm_sells e s a -> snd r = true ->
  exists t recs, log_of (uid_aggr (numtrades s)) (fst r) = Some t /\ t_uid t = uid_aggr (numtrades s) /\ t_id t = numtrades s /\ t_subid t = None /\
    route_records (fst r) (numtrades s) recs /\ List.length recs = List.length (t_routeix t) /\ recs <> [].
Proof. exact (appended e s a r). Qed.
Print Assumptions C23_records.
Theorem C23_unique n m u : uid_of n u -> uid_of m u -> n = m.
Proof. exact (uid_of_inj n m u). Qed.
Print Assumptions C23_unique.
Example C23_unique_ex : uid_of 12 "12.3" /\ uid_of 12 "12".
Proof. split; [right; exists 3%nat; reflexivity|left; reflexivity]. Qed.
Theorem C23_other_operations e s o : (forall a, o <> OpBuy a /\ o <> OpSell a) ->
  trades (step e s o) = trades s /\ numtrades (step e s o) = numtrades s.
Proof. exact (other_ops_log e s o). Qed.
Print Assumptions C23_other_operations.

(** ** C24 *)
Theorem C24_failed_trade_noop e s a r cp : well_keyed s -> well_linked (orders s) -> router_valid e -> router_signs e ->
  get_carbon_pair e (tr_pair a) = Some cp -> has_token cp (tr_tkn a) = true ->
  r = amm_buys e s a \/ r = amm_sells e s a -> snd r = false -> orders (fst r) = orders s.
Proof. exact (amm_noop e s a r cp). Qed.
Print Assumptions C24_failed_trade_noop.
Example C24_failed_trade_noop_ex : well_linked (orders ex_book) /\ router_valid ex_env /\ router_signs ex_env /\
  snd (amm_sells ex_env ex_book (mkTrade "ETH" 5 ArgNone true true None None None (Some []) true)) = false.
Proof. split; [exact ex_book_linked|]. split; [exact ex_router_valid|]. split; [exact ex_router_signs|vm_compute; reflexivity]. Qed.
Theorem C24_dangling_link e s a cp tkn i o r0 rs : well_keyed s -> (0 <= tr_amt a)%Q -> get_carbon_pair e (tr_pair a) = Some cp ->
  other cp (tr_tkn a) = Some tkn -> tr_limit_price a = None -> tr_limit_amt a = None -> tr_inpair a = true ->
  tr_execute a = true -> tr_use_positions a = None ->
  oget i (orders s) = Some o -> so_tkn o = tkn -> so_pair_name o = pair_iso cp -> so_disabled o = false -> (0 < so_y o)%Q ->
  so_lid o <> i -> oget (so_lid o) (orders s) = None -> router_signs e ->
  (forall apps rq, In o apps -> e_router e apps rq = Some (r0 :: rs) /\ nth_error apps (rt_index r0) = Some o) ->
  let r := amm_buys e s a in
  snd r = false /\ oget i (orders (fst r)) = Some (set_y o (so_y o - Qabs (rt_output r0))%Q).
Proof. exact (buys_dangling e s a cp tkn i o r0 rs). Qed.
Print Assumptions C24_dangling_link.
(** "a failing trade changes nothing" is false in a reachable book: *)
Theorem C24_noop_refuted : exists e ops a o o', e_exclude_future e = true /\ router_valid e /\ router_signs e /\ let s := run e init ops in
  snd (amm_sells e s a) = false /\ oget 0 (orders s) = Some o /\ oget 0 (orders (fst (amm_sells e s a))) = Some o' /\ (so_y o' < so_y o)%Q.
Proof.
  exists ex_env, [OpAdd ex_add; OpDelete 1], (ex_sell true None None). do 2 eexists.
  split; [reflexivity|]. split; [exact ex_router_valid|]. split; [exact ex_router_signs|]. vm_compute. repeat split.
Qed.
Print Assumptions C24_noop_refuted.
(** ... and even in a complete book, when names of pairs collide and the token is not one of the pair *)
Theorem C24_collision_noop_refuted : exists e ops a o o', e_exclude_future e = true /\ let s := run e init ops in
  well_linked (orders s) /\ snd (amm_sells e s a) = false /\
  oget 1 (orders s) = Some o /\ oget 1 (orders (fst (amm_sells e s a))) = Some o' /\ (so_y o' < so_y o)%Q.
Proof.
  exists iso_env, [OpAdd (iso_add "A/BA")], (iso_sell "BA" "AB/A"). do 2 eexists. split; [reflexivity|]. cbv zeta.
  split; [intros k o [E|[E|[]]]; injection E as <- <-; eexists; [right; left|left]; reflexivity|].
  vm_compute. repeat split.
Qed.
Print Assumptions C24_collision_noop_refuted.

(** ** C25 *)
Theorem C25_negative_buy e s a : (tr_amt a < 0)%Q ->
  amm_buys e s a = amm_sells e s (mkTrade (tr_tkn a) (- tr_amt a) (tr_pair a) (tr_execute a) (tr_inpair a) (tr_limit_price a)
    (tr_limit_amt a) (tr_threshold a) None (tr_partial a)).
Proof. exact (neg_buys e s a). Qed.
Print Assumptions C25_negative_buy.
Theorem C25_negative_sell e s a : (tr_amt a < 0)%Q ->
  amm_sells e s a = amm_buys e s (mkTrade (tr_tkn a) (- tr_amt a) (tr_pair a) (tr_execute a) (tr_inpair a) (tr_limit_price a)
    (tr_limit_amt a) (tr_threshold a) None (tr_partial a)).
Proof. exact (neg_sells e s a). Qed.
Print Assumptions C25_negative_sell.
Theorem C25_positions_ignored e s a u : (tr_amt a < 0)%Q ->
  let a' := mkTrade (tr_tkn a) (tr_amt a) (tr_pair a) (tr_execute a) (tr_inpair a) (tr_limit_price a) (tr_limit_amt a) (tr_threshold a) u (tr_partial a) in
  amm_buys e s a' = amm_buys e s a /\ amm_sells e s a' = amm_sells e s a.
Proof. exact (neg_ignores e s a u). Qed.
Print Assumptions C25_positions_ignored.
Example C25_ex : snd (amm_buys ex_env ex_book (mkTrade "ETH" (-5) ArgNone true true None None None (Some []) true)) = true.
Proof. vm_compute. reflexivity. Qed.

(** ** C63 *)
Theorem C63_liquidity s pn tkn : well_keyed s -> well_linked (orders s) -> (forall k o, In (k, o) (orders s) -> ui_ok o = true) ->
  exists q, liquidity pn tkn (orders s) = Some q /\
    (q == qsum (fun ko => if string_dec (so_pair_name (snd ko)) pn then if string_dec (so_tkn (snd ko)) tkn then so_y (snd ko) else 0 else 0) (orders s))%Q.
Proof. exact (liquidity_ok s pn tkn). Qed.
Print Assumptions C63_liquidity.
Theorem C63_dangling s pn tkn k o : well_keyed s -> oget k (orders s) = Some o -> oget (so_lid o) (orders s) = None ->
  liquidity pn tkn (orders s) = None.
Proof. exact (liquidity_dangling s pn tkn k o). Qed.
Print Assumptions C63_dangling.
Example C63_ex : (forall k o, In (k, o) (orders ex_book) -> ui_ok o = true) /\
  (exists q, liquidity "ETHUSDC" "USDC" (orders ex_book) = Some q /\ (q == 20000)%Q) /\
  liquidity "ETHUSDC" "USDC" (orders (run ex_env ex_book [OpDelete 1])) = None.
Proof.
  split; [intros k o [E|[E|[]]]; injection E as <- <-; vm_compute; reflexivity|].
  split; [eexists; split; vm_compute; reflexivity|vm_compute; reflexivity].
Qed.

(** ** C64 *)
Theorem C64_single_order e s tkn amt ps pe pm pr oid lid s' i l :
  add_replace_single_order e s tkn amt ps pe pm pr oid lid = (s', Some (i, l)) ->
  e_exclude_future e = false /\
  i = match oid with Some i => i | None => next_id s end /\ l = match lid with Some l => l | None => i end /\
  exists o, so_id o = i /\ so_lid o = l /\ so_tkn o = tkn /\ so_y o = amount_of amt /\
    forall k, oget k (orders s') = if Nat.eq_dec k i then Some o else oget k (orders s).
Proof. exact (single_success e s tkn amt ps pe pm pr oid lid s' i l). Qed.
Print Assumptions C64_single_order.
Theorem C64_excluded e s tkn amt ps pe pm pr oid lid : e_exclude_future e = true ->
  add_replace_single_order e s tkn amt ps pe pm pr oid lid = (s, None).
Proof. exact (single_excluded e s tkn amt ps pe pm pr oid lid). Qed.
Print Assumptions C64_excluded.
Definition ex_future : env := mkEnv ex_router false (fun _ _ _ _ => None) (Some ex_pair) false.
Example C64_ex : snd (add_replace_single_order ex_future init "ETH" (Some 10%Q) (Some 2000%Q) (Some 2500%Q) None ArgNone None None) = Some (0, 0)%nat.
Proof. vm_compute. reflexivity. Qed.
(** "ids are never reused" is false once single orders are allowed: an explicit id is not
    reserved, the counter issues it again and the strategy overwrites the order *)
Theorem C64_fresh_ids_refuted : exists e ops o o', let s := run e init ops in
  oget 0 (orders s) = Some o /\ exists a, snd (add_strategy e s a) = true /\
  oget 0 (orders (fst (add_strategy e s a))) = Some o' /\ so_y o <> so_y o'.
Proof.
  exists ex_future, [OpSingle "ETH" (Some 7%Q) (Some 2000%Q) (Some 2500%Q) None ArgNone (Some 0%nat) None].
  do 2 eexists. split; [vm_compute; reflexivity|]. exists ex_add. split; [vm_compute; reflexivity|]. split; [vm_compute; reflexivity|]. cbn. discriminate.
Qed.
Print Assumptions C64_fresh_ids_refuted.
