(** Vocabulary for statements about the simulator. *)
From Coq Require Import QArith Qabs List Bool String.
From Verif Require Import PairModel SimModel.
Import ListNotations.

(** every stored order carries its key as id, keys are distinct and already issued *)
Definition well_keyed (s : state) : Prop :=
  NoDup (map fst (orders s)) /\
  forall k o, In (k, o) (orders s) -> so_id o = k /\ (k < next_id s)%nat.

(** everything except balance and capacity agrees *)
Definition same_terms (o o' : sorder) : Prop :=
  so_id o' = so_id o /\ so_lid o' = so_lid o /\ so_tkn o' = so_tkn o /\ so_pair o' = so_pair o /\
  so_plow o' = so_plow o /\ so_phigh o' = so_phigh o /\ so_disabled o' = so_disabled o /\ so_cid o' = so_cid o.

(** sum of [f] over the elements satisfying [P] *)
Fixpoint qsum {A : Type} (f : A -> Q) (l : list A) : Q :=
  match l with [] => 0 | a :: l => f a + qsum f l end.

(** One fill: the order that sells, the amount it sells, the amount it buys. *)
Record fill := mkFill { f_id : nat; f_sold : Q; f_bought : Q }.
(** the fills a route list stands for. By source (and with the exact routers always) a
    route's output is sold and its input is bought; the fast router by target has them the
    other way round. *)
Definition fill_of (swap : bool) (id : nat) (r : route) : fill :=
  if swap then mkFill id (Qabs (rt_input r)) (Qabs (rt_output r))
  else mkFill id (Qabs (rt_output r)) (Qabs (rt_input r)).

(** total balance of token [t] in the book *)
Definition book_total (t : string) (os : list (nat * sorder)) : Q :=
  qsum (fun ko => if string_dec (so_tkn (snd ko)) t then so_y (snd ko) else 0) os.

(** every link points to an order in the book *)
Definition well_linked (os : list (nat * sorder)) : Prop :=
  forall k o, In (k, o) os -> exists l, In (so_lid o, l) os.

(** the price of a fill in units of the pair (quote per base): [tkn] is the token leaving
    the AMM, [paid] the amount of the other token paid for [got] *)
Definition pair_price (cp : pair) (tkn : string) (got paid : Q) : Q :=
  if string_dec tkn (tknq cp) then got / paid else paid / got.

(** ** Strategies *)
(** a price given in the pair's units (quote per base), in the units of an order selling
    [tkn]: unchanged when [tkn] is the quote token, inverted otherwise *)
Definition token_price (cp : pair) (tkn : string) (p : Q) : Q := if string_dec tkn (tknq cp) then p else 1 / p.
Definition amount_of (amt : option Q) : Q := match amt with Some a => a | None => 0 end.
Definition lower (a b : Q) : Q := if Qle_bool a b then a else b.
Definition higher (a b : Q) : Q := if Qle_bool a b then b else a.
(** one leg of a strategy is acceptable *)
Definition leg_ok (e : env) (cp : pair) (tkn : string) (amt p_start p_end p_marg cap : option Q) : Prop :=
  (p_marg = None \/ cap = None) /\
  ((p_start = None /\ p_end = None) \/
   exists a b, p_start = Some a /\ p_end = Some b /\ 0 <= a /\ 0 <= b) /\
  (forall c, cap = Some c -> amount_of amt <= c) /\
  (forall m, p_marg = Some m -> exists v,
     e_yint_marg e (amount_of amt)
       (match p_start, p_end with Some a, Some b => lower (token_price cp tkn b) (token_price cp tkn a) | _, _ => 0 end)
       (match p_start, p_end with Some a, Some b => higher (token_price cp tkn b) (token_price cp tkn a) | _, _ => 0 end)
       (token_price cp tkn m) = Some v).
(** the order that results from it *)
Definition leg_terms (cp : pair) (tkn : string) (amt p_start p_end p_marg cap : option Q) (o : sorder) : Prop :=
  so_tkn o = tkn /\ so_pair o = cp /\ so_y o = amount_of amt /\
  (p_marg = None -> so_yint o = match cap with Some c => c | None => amount_of amt end) /\
  match p_start, p_end with
  | Some a, Some b => so_disabled o = false /\ so_plow o <= so_phigh o /\
      ((so_plow o = token_price cp tkn a /\ so_phigh o = token_price cp tkn b) \/
       (so_plow o = token_price cp tkn b /\ so_phigh o = token_price cp tkn a))
  | _, _ => so_disabled o = true
  end.
Definition nonzero (p : option Q) : Prop := forall v, p = Some v -> ~ v == 0.
Definition prices_nonzero (a : add_args) : Prop :=
  nonzero (ad_psell_start a) /\ nonzero (ad_psell_end a) /\ nonzero (ad_psell_marg a) /\
  nonzero (ad_pbuy_start a) /\ nonzero (ad_pbuy_end a) /\ nonzero (ad_pbuy_marg a).

(** ** Trades *)
(** a limit price (quote per base) is respected by a trade in which the AMM gives [tkn]:
    the base token may not cost more, the quote token not less than the limit *)
Definition limit_ok (cp : pair) (tkn : string) (limit price : Q) : Prop :=
  if string_dec tkn (tknq cp) then limit <= price else price <= limit.

(** assumptions on routers; each theorem says which of them it needs *)
Definition router_signs (e : env) : Prop := forall apps rq r0 rs,
  e_router e apps rq = Some (r0 :: rs) ->
  0 < rt_total_input (last (r0 :: rs) r0) /\ rt_total_output (last (r0 :: rs) r0) < 0.
Definition router_valid (e : env) : Prop := forall apps rq routes r,
  e_router e apps rq = Some routes -> In r routes -> (rt_index r < List.length apps)%nat.
(** no order is asked for more than it has *)
Definition sold_of (e : env) (b : match_by) (r : route) : Q :=
  match b with
  | BySource => Qabs (rt_output r)
  | ByTarget => if e_fast e then Qabs (rt_input r) else Qabs (rt_output r)
  end.
Definition router_bounded (e : env) : Prop := forall apps rq routes i o,
  (forall o, In o apps -> 0 < so_y o /\ so_y o <= so_yint o) -> e_router e apps rq = Some routes -> nth_error apps i = Some o ->
  qsum (fun r => if Nat.eqb (rt_index r) i then sold_of e (rq_by rq) r else 0) routes <= so_y o.

(** the log *)
Definition log_of (uid : string) (s : state) : option trec := dget String.eqb uid (trades s).
(** the uids that belong to trade number [n] *)
Definition uid_of (n : nat) (uid : string) : Prop := uid = uid_aggr n \/ exists j, uid = uid_route n j.
(** the fills as recorded in the log *)
Definition sold_by (k : nat) (t : trec) : Q := if list_eq_dec Nat.eq_dec (t_routeix t) [k] then t_amt1 t else 0.
Definition bought_for (os : list (nat * sorder)) (k : nat) (t : trec) : Q :=
  match t_routeix t with
  | [i] => if Nat.eq_dec i k then 0
           else match oget i os with
                | Some o => if Nat.eq_dec (so_lid o) k then t_amt2 t else 0
                | None => 0
                end
  | _ => 0
  end.
(** [recs] are the route records of trade [n] in the log *)
Definition route_records (s : state) (n : nat) (recs : list trec) : Prop :=
  forall j t, nth_error recs j = Some t -> log_of (uid_route n j) s = Some t /\ t_uid t = uid_route n j /\ t_id t = n /\ t_subid t = Some j.
(** amount recorded in [t] that goes to a stored partner selling token [u] *)
Definition credited_to (os : list (nat * sorder)) (u : string) (t : trec) : Q :=
  match t_routeix t with
  | [i] => match oget i os with
           | Some o => if Nat.eq_dec (so_lid o) i then 0
                       else match oget (so_lid o) os with
                            | Some l => if string_dec (so_tkn l) u then t_amt2 t else 0
                            | None => 0
                            end
           | None => 0
           end
  | _ => 0
  end.
(** same two tokens, in either order *)
Definition same_pair (p q : pair) : Prop := (tknb p = tknb q /\ tknq p = tknq q) \/ (tknb p = tknq q /\ tknq p = tknb q).
(** links join two consecutive ids, back and forth, across the two tokens of one pair *)
Definition paired (s : state) : Prop :=
  forall k o, oget k (orders s) = Some o ->
    (so_lid o = S k \/ k = S (so_lid o)) /\
    forall l, oget (so_lid o) (orders s) = Some l ->
      so_lid l = k /\ so_pair l = so_pair o /\ other (so_pair o) (so_tkn o) = Some (so_tkn l).
(** no negative balance, none above the capacity *)
Definition bounded (os : list (nat * sorder)) : Prop :=
  forall k o, oget k os = Some o -> (0 <= so_y o)%Q /\ (so_y o <= so_yint o)%Q.
(** the only operations that set balances set non-negative ones; a capacity computed from a
    marginal price is at least the balance *)
Definition legit (e : env) (o : op) : Prop :=
  match o with
  | OpAdd a => (0 <= amount_of (ad_amt_sell a))%Q /\ (0 <= amount_of (ad_amt_buy a))%Q /\
      ((ad_psell_marg a = None /\ ad_pbuy_marg a = None) \/ forall y l h m v, e_yint_marg e y l h m = Some v -> (y <= v)%Q)
  | _ => True
  end.
(** the number of trades that succeed in a history *)
Fixpoint successes (e : env) (s : state) (ops : list op) : nat :=
  match ops with
  | [] => 0
  | o :: ops => (match o with
                 | OpBuy a => if snd (amm_buys e s a) then 1 else 0
                 | OpSell a => if snd (amm_sells e s a) then 1 else 0
                 | _ => 0
                 end + successes e (step e s o) ops)%nat
  end.
