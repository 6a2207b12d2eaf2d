(** Model of carbon/simulators/carbon_simulator.py (class CarbonSimulatorUI) and of the
    parts of carbon/order.py it stores.

    The simulator is a state machine. Two ingredients are arbitrary functions, collected in
    [env], so that every theorem holds for each of their instances:
    - the router (self.matcher): any function from the applicable orders and the request to
      an exception or a list of routes;
    - the capacity computed from a marginal price (order.py:183-188), which needs square
      roots.
    Amounts and prices are exact rationals: the [round(float(x), decimals)] and
    [Decimal(str(x))] conversions (lines 762-766, 841-842, 960, 1043 ...) are identities
    here. Exceptions are caught by the simulator and reported as success=False (or re-raised
    if raiseonerror is set; the effect on the state is the same): [false] here. Printing,
    pandas data frames, the [verbose]/[debug] output and human readable notes are not
    modelled. *)
From Coq Require Import ZArith QArith Qabs List Bool Ascii String DecimalString DecimalNat.
From Verif Require Import TradeModel PairModel.
Import ListNotations.
Local Open Scope string_scope.

(** order.py:27-61, as filled in by carbon_simulator.py:232-256. The derived fields B, S, D,
    C, adj_n_mode (functions of prices and the initial capacity) are not stored;
    [pair_name] is always [pair_iso] of [pair] (line 239). *)
Record sorder := mkSorder {
  so_id : nat; so_lid : nat; so_tkn : string; so_pair : pair;
  so_plow : Q; so_phigh : Q; so_disabled : bool;
  so_y : Q; so_yint : Q; so_cid : string
}.
Definition so_pair_name (o : sorder) : string := pair_iso (so_pair o).
Definition set_y (o : sorder) (y : Q) : sorder :=
  mkSorder (so_id o) (so_lid o) (so_tkn o) (so_pair o) (so_plow o) (so_phigh o) (so_disabled o) y (so_yint o) (so_cid o).
Definition set_yint (o : sorder) (yint : Q) : sorder :=
  mkSorder (so_id o) (so_lid o) (so_tkn o) (so_pair o) (so_plow o) (so_phigh o) (so_disabled o) (so_y o) yint (so_cid o).

(** routers/base_router.py:43-60 Action, the fields read by [_trade] *)
Record route := mkRoute {
  rt_index : nat; rt_input : Q; rt_output : Q; rt_total_input : Q; rt_total_output : Q
}.

(** what [_trade] passes to the router (carbon_simulator.py:706-710) *)
Inductive match_by := BySource | ByTarget.
Record request := mkRequest {
  rq_by : match_by; rq_x : Q; rq_threshold : option nat; rq_partial : bool
}.

Record env := mkEnv {
  e_router : list sorder -> request -> option (list route);
  e_fast : bool;             (* isinstance(self.matcher, FastRouter) *)
  e_yint_marg : Q -> Q -> Q -> Q -> option Q;  (* y, p_low, p_high, p_marginal *)
  e_pair : option pair;      (* self._carbon_pair, line 70 *)
  e_exclude_future : bool    (* line 68 *)
}.

(** one line of self.trades (lines 825-870 and 892-916); the keys uid, id, subid, aggr,
    exec, partial, limitfail, amt1, tkn1, amt2, tkn2, pair, routeix, nroutes, price *)
Record trec := mkTrec {
  t_uid : string; t_id : nat; t_subid : option nat; (* None is "A" *)
  t_exec : bool; t_partial : bool; t_limitfail : option bool;
  t_amt1 : Q; t_tkn1 : string; t_amt2 : Q; t_tkn2 : option string;
  t_pair : string; t_routeix : list nat; t_price : Q
}.

(** Python dict: association list in insertion order *)
Fixpoint dget {K V : Type} (eqb : K -> K -> bool) (k : K) (d : list (K * V)) : option V :=
  match d with [] => None | (k', v) :: d => if eqb k k' then Some v else dget eqb k d end.
Fixpoint dset {K V : Type} (eqb : K -> K -> bool) (k : K) (v : V) (d : list (K * V)) : list (K * V) :=
  match d with
  | [] => [(k, v)]
  | (k', v') :: d => if eqb k k' then (k', v) :: d else (k', v') :: dset eqb k v d
  end.
Fixpoint ddel {K V : Type} (eqb : K -> K -> bool) (k : K) (d : list (K * V)) : list (K * V) :=
  match d with [] => [] | (k', v) :: d => if eqb k k' then d else (k', v) :: ddel eqb k d end.
Definition oget := @dget nat sorder Nat.eqb.
Definition oset := @dset nat sorder Nat.eqb.
Definition odel := @ddel nat sorder Nat.eqb.
Definition tset := @dset string trec String.eqb.

(** lines 66, 72, 92-94 *)
Record state := mkState {
  orders : list (nat * sorder);
  trades : list (string * trec);
  numtrades : nat;
  next_id : nat   (* the itertools.count of line 66: the next id it will yield *)
}.
Definition init : state := mkState [] [] 0 0.

(** lines 137-150 *)
Definition get_carbon_pair (e : env) (arg : create_arg) : option pair :=
  match arg with
  | ArgNone => e_pair e
  | ArgStr s => if String.eqb s "" then e_pair e else mk_pair (SlashStr s) None None false
  | ArgPair p => Some p
  end.

(** lines 174-273 together with order.py:127-214 (Order.__post_init__): the new order, or
    None if an exception is raised. (All callers pass id1 and id2.) A negative price makes
    [math.sqrt] raise at order.py:170. *)
Definition sell_order (e : env) (tkn : string) (amt : option Q) (p_lo p_hi : option Q) (cp : pair)
    (id1 id2 : nat) (p_marginal y_int : option Q) (cid : option string) : option sorder :=
  let cid := match cid with Some c => c | None => "" end in                (* 208 *)
  let amt := match amt with Some a => a | None => 0%Q end in               (* 221-222 *)
  match p_marginal, y_int with
  | Some _, Some _ => None                                                 (* 224-225 *)
  | _, _ =>
    do prices <- (match p_lo, p_hi with
                  | None, None => Some (0%Q, 0%Q, true)                    (* 242-245 *)
                  | Some lo, Some hi =>
                    Some (if Qle_bool lo hi then (lo, hi, false) else (hi, lo, false))  (* 233-240 *)
                  | _, _ => None                                           (* 230-231 *)
                  end);
    let '(lo, hi, disabled) := prices in
    do _ <- (match y_int with Some yi => if Qlt_bool yi amt then None else Some tt | None => Some tt end); (* 265-266 *)
    if Qlt_bool lo 0 then None                                             (* order.py:170 *)
    else
      do yi <- (match p_marginal, y_int with
                | Some pm, _ => e_yint_marg e amt lo hi pm                 (* order.py:183-188 *)
                | None, Some yi => Some yi
                | None, None => Some amt                                   (* 269 *)
                end);
      Some (mkSorder id1 id2 tkn cp lo hi disabled amt yi cid)
  end.

(** whether CarbonOrderUI.from_order and _to_pandas (lines 1082-1117) succeed on an order:
    carbon_order_ui.py:81-105 builds CarbonPair(pair), needs the token in the pair and
    inverts the prices of a base token order, 545-549 raises if yint = 0 < y *)
Definition ui_ok (o : sorder) : bool :=
  match mk_pair (SlashPair (so_pair o)) None None false with
  | None => false
  | Some p =>
    let tkn := upper (so_tkn o) in
    has_token p tkn &&
    ((Qeq_bool (so_plow o) 0 && Qeq_bool (so_phigh o) 0) ||
     (negb (has_basetoken p tkn && Qeq_bool (so_plow o) 0) &&
      negb (Qeq_bool (so_yint o) 0 && Qlt_bool 0 (so_y o)))) &&
    (so_disabled o ||
     match convert_price (so_pair o) (Some (so_phigh o)) (so_tkn o), convert_price (so_pair o) (Some (so_plow o)) (so_tkn o) with
     | Some (Some _), Some (Some _) => true
     | _, _ => false
     end)
  end.

(** arguments of add_strategy (lines 438-454) *)
Record add_args := mkAdd {
  ad_tkn : string; ad_pair : create_arg; ad_cid : option string;
  ad_amt_sell : option Q; ad_psell_start : option Q; ad_psell_end : option Q;
  ad_psell_marg : option Q; ad_yint_sell : option Q;
  ad_amt_buy : option Q; ad_pbuy_start : option Q; ad_pbuy_end : option Q;
  ad_pbuy_marg : option Q; ad_yint_buy : option Q
}.

(** lines 496-552 *)
Definition add_strategy (e : env) (s : state) (a : add_args) : state * bool :=
  match get_carbon_pair e (ad_pair a) with
  | None => (s, false)
  | Some cp =>
    match other cp (ad_tkn a) with
    | None => (s, false)                                                   (* 501-502 *)
    | Some tkn2 =>
      let id1 := next_id s in let id2 := S (next_id s) in                  (* 505-506 *)
      let s := mkState (orders s) (trades s) (numtrades s) (S (S (next_id s))) in
      match convert_price cp (ad_psell_marg a) (ad_tkn a), convert_price cp (ad_psell_start a) (ad_tkn a),
            convert_price cp (ad_psell_end a) (ad_tkn a), convert_price cp (ad_pbuy_start a) tkn2,
            convert_price cp (ad_pbuy_end a) tkn2, convert_price cp (ad_pbuy_marg a) tkn2 with
      | Some psm, Some pss, Some pse, Some pbs, Some pbe, Some pbm =>       (* 509-514 *)
        match sell_order e (ad_tkn a) (ad_amt_sell a) pse pss cp id1 id2 psm (ad_yint_sell a) (ad_cid a) with
        | None => (s, false)
        | Some o1 =>
          let s := mkState (oset id1 o1 (orders s)) (trades s) (numtrades s) (next_id s) in
          match sell_order e tkn2 (ad_amt_buy a) pbe pbs cp id2 id1 pbm (ad_yint_buy a) (ad_cid a) with
          | None => (s, false)
          | Some o2 =>
            (mkState (oset id2 o2 (orders s)) (trades s) (numtrades s) (next_id s),
             ui_ok o1 && ui_ok o2)                                         (* 550-559 *)
          end
        end
      | _, _, _, _, _, _ => (s, false)
      end
    end
  end.

(** lines 275-315 *)
Definition add_order (e : env) (s : state) (tkn : string) (amt p_start p_end : option Q)
    (pair : create_arg) (p_marginal y_int : option Q) : state * bool :=
  add_strategy e s (mkAdd tkn pair None amt p_start p_end p_marginal y_int None None None None None).

(** lines 317-413, with y_int = None (line 353 asserts it). Returns also the two ids. *)
Definition add_replace_single_order (e : env) (s : state) (tkn : string) (amt p_start p_end p_marginal : option Q)
    (pair : create_arg) (oid lid : option nat) : state * option (nat * nat) :=
  if e_exclude_future e then (s, None)
  else
    match get_carbon_pair e pair with
    | None => (s, None)
    | Some cp =>
      if negb (has_token cp tkn) then (s, None)
      else
        let (id1, s) := match oid with
                        | Some i => (i, s)
                        | None => (next_id s, mkState (orders s) (trades s) (numtrades s) (S (next_id s)))
                        end in
        let id2 := match lid with Some l => l | None => id1 end in
        match convert_price cp p_start tkn, convert_price cp p_end tkn with
        | Some ps, Some pe =>
          match sell_order e tkn amt pe ps cp id1 id2 p_marginal None None with
          | None => (s, None)
          | Some o => (mkState (oset id1 o (orders s)) (trades s) (numtrades s) (next_id s),
                       if ui_ok o then Some (id1, id2) else None)
          end
        | _, _ => (s, None)
        end
    end.

(** lines 562-598. [inr tt] is the uncaught KeyError of line 586. *)
Definition delete_order (s : state) (position_id : nat) : state * (list nat + unit) :=
  match oget position_id (orders s) with
  | None => (s, inl [])
  | Some o =>
    let linked := if Nat.eqb (so_lid o) position_id then None else Some (so_lid o) in
    let os := odel position_id (orders s) in
    let truthy := match linked with Some (S _) => true | _ => false end in  (* [if linked_position_id:] *)
    match linked, truthy with
    | Some l, true =>
      match oget l os with
      | None => (mkState os (trades s) (numtrades s) (next_id s), inr tt)
      | Some _ => (mkState (odel l os) (trades s) (numtrades s) (next_id s), inl [position_id; l])
      end
    | _, _ => (mkState os (trades s) (numtrades s) (next_id s), inl [position_id])
    end
  end.

(** f"{numtrades}.{ct}" and f"{numtrades}" (lines 823, 889) *)
Definition nat_str (n : nat) : string := NilZero.string_of_uint (Nat.to_uint n).
Definition uid_route (n ct : nat) : string := nat_str n ++ "." ++ nat_str ct.
Definition uid_aggr (n : nat) : string := nat_str n.

(** lines 686-694: ids of the orders the trade may use *)
Definition eligible (cp : pair) (tkn : string) (o : sorder) : bool :=
  (String.eqb (so_pair_name o) (pair_iso cp) || String.eqb (so_pair_name o) (pair_iso (reverse cp)))
  && String.eqb (so_tkn o) tkn && negb (so_disabled o) && Qlt_bool 0 (so_y o).
Definition order_ids (cp : pair) (tkn : string) (os : list (nat * sorder)) : list nat :=
  map fst (filter (fun ko => eligible cp tkn (snd ko)) os).
(** lines 695-697; [id_map] maps the position in this list to the order's id field *)
Definition memb (n : nat) (l : list nat) : bool := existsb (Nat.eqb n) l.
Definition applicable (cp : pair) (tkn : string) (use_positions : option (list nat)) (os : list (nat * sorder)) : list sorder :=
  let ids := order_ids cp tkn os in
  let use := match use_positions with Some u => u | None => ids end in
  map snd (filter (fun ko => memb (fst ko) ids && memb (fst ko) use) os).
Definition id_map (apps : list sorder) (i : nat) : option nat := option_map so_id (nth_error apps i).

(** static data of the loop over the routes *)
Record loop_ctx := mkCtx {
  lc_swap : bool;      (* is_by_target and FastRouter *)
  lc_apps : list sorder; lc_exec : bool; lc_limitfail : option bool; lc_n : nat;
  lc_tkn : string; lc_tkno : option string; lc_pair : string;
  lc_price : option Q  (* price_avg; None is Python's None *)
}.

(** lines 812-819: move the balances for one route. Result false: KeyError, with the orders
    as left by the part already executed. *)
Definition move (swap : bool) (indx : nat) (amt1 amt2 : Q) (os : list (nat * sorder)) : list (nat * sorder) * bool :=
  match oget indx os with
  | None => (os, false)
  | Some o =>
    let os := oset indx (set_y o (so_y o - (if swap then amt2 else amt1))%Q) os in
    if Nat.eqb (so_lid o) indx then (os, true)
    else
      match oget (so_lid o) os with
      | None => (os, false)
      | Some l =>
        let l := set_y l (so_y l + (if swap then amt1 else amt2))%Q in
        let l := if Qlt_bool (so_yint l) (so_y l) then set_yint l (so_y l) else l in
        (oset (so_lid o) l os, true)
      end
  end.

(** lines 858-860, 912-914: the recorded price; None is an exception (float(None), or
    1/Decimal(0) with the fast router by target) *)
Definition rec_price (c : loop_ctx) : option Q :=
  match lc_price c with
  | None => None
  | Some p => if lc_swap c then qdiv 1 p else Some p
  end.

(** lines 797-876: the loop over the routes *)
Fixpoint route_loop (c : loop_ctx) (ct : nat) (routes : list route) (os : list (nat * sorder)) (ts : list (string * trec))
  : list (nat * sorder) * list (string * trec) * bool :=
  match routes with
  | [] => (os, ts, true)
  | r :: routes =>
    match id_map (lc_apps c) (rt_index r) with
    | None => (os, ts, false)                                              (* KeyError, 799 *)
    | Some indx =>
      let amt1 := Qabs (rt_output r) in let amt2 := Qabs (rt_input r) in
      let '(os, ok) := if lc_exec c then move (lc_swap c) indx amt1 amt2 os else (os, true) in
      if negb ok then (os, ts, false)
      else
        match rec_price c with
        | None => (os, ts, false)
        | Some price =>
          let uid := uid_route (lc_n c) ct in
          let t := mkTrec uid (lc_n c) (Some ct) (lc_exec c) false (lc_limitfail c)
                     (if lc_swap c then amt2 else amt1) (lc_tkn c) (if lc_swap c then amt1 else amt2) (lc_tkno c)
                     (lc_pair c) [indx] price in
          route_loop c (S ct) routes os (tset uid t ts)
        end
    end
  end.

(** mapping all routes to order ids (line 888) *)
Fixpoint map_ids (apps : list sorder) (routes : list route) : option (list nat) :=
  match routes with
  | [] => Some []
  | r :: routes => do i <- id_map apps (rt_index r); do is <- map_ids apps routes; Some (i :: is)
  end.

(** lines 605-918. [tkn] is the token sold by the AMM. *)
Definition trade (e : env) (s : state) (tkn : string) (amt : Q) (partial : bool) (cp : pair) (by_ : match_by)
    (execute : bool) (limit_price limit_amt : option Q) (inpair : bool) (use_positions : option (list nat))
    (threshold : option nat) : state * bool :=
  (* 660-675 *)
  match (match limit_amt with
         | None => Some limit_price
         | Some la =>
           match limit_price with
           | Some _ => None
           | None =>
             do q <- qdiv amt la;
             let rawprice := Qabs q in
             match (match by_ with ByTarget => Some tkn | BySource => other cp tkn end) with
             | Some t => convert_price cp (Some rawprice) t
             | None => Some None   (* convert_price with a token None returns None *)
             end
           end
         end) with
  | None => (s, false)
  | Some limit_price =>
    if negb inpair then (s, false)                                         (* 682-685 *)
    else
      let apps := applicable cp tkn use_positions (orders s) in
      match e_router e apps (mkRequest by_ amt threshold partial) with
      | None => (s, false)
      | Some [] => (s, false)                                              (* IndexError, 713 *)
      | Some (r0 :: rs) =>
        let routes := r0 :: rs in
        let final := last routes r0 in
        match qdiv (- rt_total_output final) (rt_total_input final) with   (* 728 *)
        | None => (s, false)
        | Some raw_price =>
          match convert_price cp (Some raw_price) tkn with                 (* 743 *)
          | None => (s, false)
          | Some price_avg =>
            match (match limit_price with                                  (* 764-774 *)
                   | None => Some None
                   | Some l =>
                     match price_avg with
                     | None => None                                        (* float(None) *)
                     | Some p => Some (Some (match limit_is_met cp tkn l BUY p with Some true => false | _ => true end))
                     end
                   end) with
            | None => (s, false)
            | Some limitfail =>
              let execute := match limitfail with Some true => false | _ => execute end in
              let swap := match by_ with ByTarget => e_fast e | BySource => false end in
              let c := mkCtx swap apps execute limitfail (numtrades s) tkn (other cp tkn) (pair_iso cp) price_avg in
              let '(os, ts, ok) := route_loop c 0 routes (orders s) (trades s) in
              if negb ok then (mkState os ts (numtrades s) (next_id s), false)
              else
                let amt1 := Qabs (rt_total_output final) in let amt2 := Qabs (rt_total_input final) in
                match map_ids apps routes, rec_price c with
                | Some ids, Some price =>
                  let uid := uid_aggr (numtrades s) in
                  let t := mkTrec uid (numtrades s) None execute (negb (Qeq_bool amt amt2)) limitfail
                             (if swap then amt2 else amt1) tkn (if swap then amt1 else amt2) (other cp tkn)
                             (pair_iso cp) ids price in
                  (mkState os (tset uid t ts) (S (numtrades s)) (next_id s), true)
                | _, _ => (mkState os ts (numtrades s) (next_id s), false)
                end
            end
          end
        end
      end
  end.

(** lines 1234-1257 *)
Definition position_is_valid (tkn : option string) (cp : pair) (os : list (nat * sorder)) : bool :=
  match tkn with
  | None => false
  | Some tkn =>
    existsb (fun ko => Qlt_bool 0 (so_y (snd ko)) && String.eqb (so_tkn (snd ko)) tkn) os &&
    existsb (fun ko => Qlt_bool 0 (so_y (snd ko)) &&
                       (String.eqb (so_pair_name (snd ko)) (pair_iso cp) || String.eqb (so_pair_name (snd ko)) (pair_iso (reverse cp)))) os
  end.

(** arguments of amm_buys and amm_sells (lines 920-933, 1000-1013); [use_positions_matchlevel]
    is accepted but has no effect (it is a parameter of [_trade] that is never read) *)
Record trade_args := mkTrade {
  tr_tkn : string; tr_amt : Q; tr_pair : create_arg; tr_execute : bool; tr_inpair : bool;
  tr_limit_price : option Q; tr_limit_amt : option Q; tr_threshold : option nat;
  tr_use_positions : option (list nat); tr_partial : bool
}.
(** lines 959-966, 1040-1047: the arguments of the mirrored call; use_positions is dropped,
    so it takes its default None *)
Definition mirror (a : trade_args) : trade_args :=
  mkTrade (tr_tkn a) (- tr_amt a)%Q (tr_pair a) (tr_execute a) (tr_inpair a) (tr_limit_price a) (tr_limit_amt a)
    (tr_threshold a) None (tr_partial a).

(** lines 971-991, the body for a non-negative amount *)
Definition amm_buys_body (e : env) (s : state) (a : trade_args) : state * bool :=
  match get_carbon_pair e (tr_pair a) with
  | None => (s, false)
  | Some cp =>
    let tkno := other cp (tr_tkn a) in
    if negb (position_is_valid tkno cp (orders s)) then (s, false)
    else match tkno with
         | None => (s, false)
         | Some tkno =>
           trade e s tkno (tr_amt a) (tr_partial a) cp BySource (tr_execute a) (tr_limit_price a) (tr_limit_amt a)
             (tr_inpair a) (tr_use_positions a) (tr_threshold a)
         end
  end.
(** lines 1051-1073 *)
Definition amm_sells_body (e : env) (s : state) (a : trade_args) : state * bool :=
  match get_carbon_pair e (tr_pair a) with
  | None => (s, false)
  | Some cp =>
    if negb (position_is_valid (Some (tr_tkn a)) cp (orders s)) then (s, false)
    else trade e s (tr_tkn a) (- tr_amt a)%Q (tr_partial a) cp ByTarget (tr_execute a) (tr_limit_price a) (tr_limit_amt a)
           (tr_inpair a) (tr_use_positions a) (tr_threshold a)
  end.
(** lines 920-998 and 1000-1078; -amt is positive when amt < 0, so the calls do not recurse further *)
Definition amm_buys (e : env) (s : state) (a : trade_args) : state * bool :=
  if Qlt_bool (tr_amt a) 0 then amm_sells_body e s (mirror a) else amm_buys_body e s a.
Definition amm_sells (e : env) (s : state) (a : trade_args) : state * bool :=
  if Qlt_bool (tr_amt a) 0 then amm_buys_body e s (mirror a) else amm_sells_body e s a.

(** lines 1119-1187 [state], the part that reads the orders: the reported orders, or None when
    it fails (success=False). [pairs]: None for everything, else the list of pair names. A
    selection that leaves no order makes pd.concat raise. *)
Definition state_report (pairs : option (list string)) (os : list (nat * sorder)) : option (list sorder) :=
  match os with
  | [] => Some []
  | _ =>
    let app := map snd (filter (fun ko => match pairs with
                                          | None => true
                                          | Some ps => existsb (String.eqb (so_pair_name (snd ko))) ps
                                          end) os) in
    match app with
    | [] => None
    | _ => if forallb ui_ok app && forallb (fun o => memb (so_lid o) (map so_id app)) app then Some app else None
    end
  end.
(** lines 1190-1217 [liquidity]: total balance of a token in a pair, None if [state] failed
    (the result dict then has no key "orders") *)
Definition liquidity (pair_name tkn : string) (os : list (nat * sorder)) : option Q :=
  do app <- state_report None os;
  Some (fold_right (fun o acc => if String.eqb (so_pair_name o) pair_name && String.eqb (so_tkn o) tkn then (so_y o + acc)%Q else acc) 0%Q app).

(** the public mutating operations *)
Inductive op :=
| OpAdd (a : add_args)
| OpSingle (tkn : string) (amt p_start p_end p_marginal : option Q) (pair : create_arg) (oid lid : option nat)
| OpDelete (id : nat)
| OpBuy (a : trade_args)
| OpSell (a : trade_args).
Definition step (e : env) (s : state) (o : op) : state :=
  match o with
  | OpAdd a => fst (add_strategy e s a)
  | OpSingle tkn amt ps pe pm pr oid lid => fst (add_replace_single_order e s tkn amt ps pe pm pr oid lid)
  | OpDelete id => fst (delete_order s id)
  | OpBuy a => fst (amm_buys e s a)
  | OpSell a => fst (amm_sells e s a)
  end.
Definition run (e : env) (s : state) (ops : list op) : state := fold_left (step e) ops s.
