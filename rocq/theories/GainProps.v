(** What sequences of trades can take out of the simulator (C160): carbon/simulators/carbon_simulator.py
    together with the routers' prices. *)
From Coq Require Import ZArith QArith Qabs List Bool String Permutation Reals Lra Lia Lqa.
From Verif Require Import TradeModel PairModel SimModel SimSpec FastModel FastSpec SimProofs9 SimProps FastProofs FastProofs3 FastProofs4.
From Verif Require Import GainSpec GainProofs GainProofs2 GainProofs3.
From Verif Require CurveModel CurveProofs OrderModel ExactModel AlphaModel GainProofs4.
Import ListNotations.
Local Open Scope Q_scope.

(** ** Concrete data *)
(** curve parameters inside the prices of the orders of the examples, with rational entries *)
Definition gx_ab (o : sorder) : Q * Q :=
  if Qeq_bool (so_phigh o) 1500 then (6, 32) else if Qeq_bool (so_phigh o) (1 # 2000) then (1 # 450, 1 # 50) else
  if Qeq_bool (so_phigh o) 2000 then (11 # 10, 436 # 10) else if Qeq_bool (so_phigh o) (1 # 1000) then (14 # 10000, 302 # 10000) else (0, 0).
Definition gx_env : env := mkEnv (fast_router isort gx_ab) true (fun _ _ _ _ => None) (Some ex_pair) true.
Definition gx_sell (q : Q) : op := OpSell (mkTrade "ETH" q ArgNone true true None None None None true).
Definition gx_buy (q : Q) : op := OpBuy (mkTrade "ETH" q ArgNone true true None None None None true).
(** the AMM sells 5 ETH and buys 4 back *)
Definition gx_ops : list op := [OpAdd ex_add].
Definition gx_trades : list op := [gx_sell 5; gx_buy 4].
Definition gx_weights (t : string) : Q := if string_dec t "ETH" then 1750 else 1.
Example gx_fits o : proper o -> fits_high gx_ab o.
Proof.
  intros [H1 H2]. unfold fits_high, gx_ab. 
  destruct (Qeq_bool (so_phigh o) 1500) eqn:E1; [apply Qeq_bool_iff in E1; rewrite E1; repeat split; discriminate|].
  destruct (Qeq_bool (so_phigh o) (1 # 2000)) eqn:E2; [apply Qeq_bool_iff in E2; rewrite E2; repeat split; discriminate|].
  destruct (Qeq_bool (so_phigh o) 2000) eqn:E3; [apply Qeq_bool_iff in E3; rewrite E3; repeat split; discriminate|].
  destruct (Qeq_bool (so_phigh o) (1 # 1000)) eqn:E4; [apply Qeq_bool_iff in E4; rewrite E4; repeat split; discriminate|].
  cbn. repeat split; try discriminate. lra.
Qed.
Example gx_priced : runs_fast_priced gx_env.
Proof. split; [reflexivity|]. exists isort, gx_ab. split; [exact isort_perm|]. split; [intros o H _ _; exact (gx_fits o H)|reflexivity]. Qed.
Example gx_legit : Forall (legit gx_env) (gx_ops ++ gx_trades).
Proof. repeat constructor; cbn; discriminate. Qed.

(** ** C160 *)
(** a strategy whose orders do not cross is never worth less after any sequence of operations *)
Theorem C160_strategy e ops ops' k o l o' l' w : e_exclude_future e = true -> router_bounded e -> router_priced e -> Forall (legit e) (ops ++ ops') ->
  oget k (orders (run e init ops)) = Some o -> oget (so_lid o) (orders (run e init ops)) = Some l ->
  oget k (orders (run e init (ops ++ ops'))) = Some o' -> oget (so_lid o) (orders (run e init (ops ++ ops'))) = Some l' ->
  0 <= w (so_tkn o) -> 0 <= w (so_tkn l) -> so_phigh o * w (so_tkn o) <= w (so_tkn l) -> so_phigh l * w (so_tkn l) <= w (so_tkn o) ->
  w (so_tkn o) * so_y o + w (so_tkn l) * so_y l <= w (so_tkn o') * so_y o' + w (so_tkn l') * so_y l'.
Proof. exact (strategy_worth e ops ops' k o l o' l' w). Qed.
Print Assumptions C160_strategy.
(** the same in the units of the pair: any price [m] between the buy and the sell range *)
Theorem C160_gap e ops a ops' cp m o l : e_exclude_future e = true -> router_bounded e -> router_priced e -> Forall (legit e) (ops ++ OpAdd a :: ops') ->
  get_carbon_pair e (ad_pair a) = Some cp -> ad_tkn a = tknb cp -> tknb cp <> tknq cp -> 0 < m ->
  (forall p, ad_psell_start a = Some p \/ ad_psell_end a = Some p -> m <= p) ->
  (forall p, ad_pbuy_start a = Some p \/ ad_pbuy_end a = Some p -> p <= m) ->
  let n := next_id (run e init ops) in let s := run e init (ops ++ OpAdd a :: ops') in
  oget n (orders s) = Some o -> oget (S n) (orders s) = Some l ->
  so_tkn o = tknb cp /\ so_tkn l = tknq cp /\ m * amount_of (ad_amt_sell a) + amount_of (ad_amt_buy a) <= m * so_y o + so_y l.
Proof. exact (gap_worth e ops a ops' cp m o l). Qed.
Print Assumptions C160_gap.
(** the whole book, under trades *)
Theorem C160_book e ops ops' w : e_exclude_future e = true -> router_bounded e -> router_priced e -> Forall (legit e) ops -> Forall is_trade ops' ->
  let s := run e init ops in well_linked (orders s) -> no_bargains w (orders s) -> (forall k o, In (k, o) (orders s) -> 0 <= w (so_tkn o)) ->
  qsum (fun ko => w (so_tkn (snd ko)) * so_y (snd ko)) (orders s) <= qsum (fun ko => w (so_tkn (snd ko)) * so_y (snd ko)) (orders (run e s ops')).
Proof. exact (book_never_falls e ops ops' w). Qed.
Print Assumptions C160_book.
(** if no order of the book is a bargain at some price list, a sequence of trades that takes
    some token out of the book puts another one in *)
Theorem C160_no_free_lunch e ops ops' w t : e_exclude_future e = true -> router_bounded e -> router_priced e -> Forall (legit e) ops -> Forall is_trade ops' ->
  let s := run e init ops in let s' := run e s ops' in
  well_linked (orders s) -> no_bargains w (orders s) -> (forall u, 0 < w u) ->
  book_total t (orders s') < book_total t (orders s) -> exists u, book_total u (orders s) < book_total u (orders s').
Proof. exact (no_free_lunch e ops ops' w t). Qed.
Print Assumptions C160_no_free_lunch.
(** the fast router trades inside the prices of each order, so the above hold with it *)
Theorem C160_fast_prices sort ab apps rq routes r o : perm_sort sort ->
  (forall o, In o apps -> 0 < so_y o /\ so_y o <= so_yint o /\ fits_high ab o) ->
  fast_router sort ab apps rq = Some routes -> In r routes -> nth_error apps (rt_index r) = Some o ->
  let sold := match rq_by rq with BySource => rt_output r | ByTarget => rt_input r end in
  let bought := match rq_by rq with BySource => rt_input r | ByTarget => rt_output r end in
  0 < sold /\ 0 < bought /\ sold <= so_phigh o * bought /\ (fits_low ab o -> so_plow o * bought <= sold).
Proof. exact (fast_prices sort ab apps rq routes r o). Qed.
Print Assumptions C160_fast_prices.
Theorem C160_fast e : runs_fast_priced e -> router_bounded e /\ router_priced e.
Proof. intros H. split; [exact (fast_bounded e (fast_priced_fast e H))|exact (fast_router_priced e H)]. Qed.
Print Assumptions C160_fast.
(** without the price gap the claim is false: a strategy that sells at 1000 to 1100 and buys at
    2000 to 1900 loses to a round trip of 5 ETH *)
Definition gx_cross : add_args :=
  mkAdd "ETH" ArgNone None (Some 10) (Some 1000) (Some 1100) None None (Some 20000) (Some 2000) (Some 1900) None None.
Theorem C160_crossing_refuted : exists e ops ops', runs_fast_priced e /\ e_exclude_future e = true /\ Forall (legit e) ops /\ Forall is_trade ops' /\
  let s := run e init ops in let s' := run e s ops' in
  book_total "ETH" (orders s') == book_total "ETH" (orders s) /\ book_total "USDC" (orders s') + 4000 < book_total "USDC" (orders s).
Proof.
  exists gx_env, [OpAdd gx_cross], [gx_sell 5; gx_buy 5]. split; [exact gx_priced|]. split; [reflexivity|].
  split; [repeat constructor; cbn; discriminate|]. split; [repeat constructor|]. vm_compute. split; reflexivity.
Qed.
Print Assumptions C160_crossing_refuted.
(** the example: both trades happen and the strategy is worth more at 1750 *)
Example C160_ex : map (fun ko => (fst ko, so_tkn (snd ko), Qred (so_y (snd ko)))) (orders (run gx_env init (gx_ops ++ gx_trades))) =
    [(0%nat, "ETH"%string, 9); (1%nat, "USDC"%string, 71368482500 # 2849183)] /\
  1750 * 10 + 20000 < 1750 * 9 + (71368482500 # 2849183) /\
  no_bargains gx_weights (orders (run gx_env init gx_ops)) /\ well_linked (orders (run gx_env init gx_ops)).
Proof.
  split; [vm_compute; reflexivity|]. split; [reflexivity|]. split.
  - intros k o l Ho Hl. vm_compute in Ho, Hl. destruct Ho as [E|[E|[]]]; injection E as <- <-; cbn in Hl; destruct Hl as [E|[E|[]]]; try discriminate; injection E as <-; unfold no_bargain; vm_compute; discriminate.
  - intros k o Ho. vm_compute in Ho. destruct Ho as [E|[E|[]]]; injection E as <- <-; eexists; [right; left|left]; reflexivity.
Qed.
Example C160_gap_ex o l : oget 0 (orders (run gx_env init (gx_ops ++ gx_trades))) = Some o -> oget 1 (orders (run gx_env init (gx_ops ++ gx_trades))) = Some l -> 37500 <= 1750 * so_y o + so_y l.
Proof.
  intros Ho Hl. destruct (C160_fast gx_env gx_priced) as [B P]. 
  destruct (C160_gap gx_env [] ex_add gx_trades ex_pair 1750 o l eq_refl B P gx_legit eq_refl eq_refl ltac:(discriminate) ltac:(reflexivity)) as (_ & _ & G); try assumption.
  - intros p [E|E]; injection E as <-; discriminate.
  - intros p [E|E]; injection E as <-; discriminate.
Qed.
(** both legs keep their prices in the example *)
Example C160_fits_ex : Forall (fun ko => fits_low gx_ab (snd ko)) (orders (run gx_env init gx_ops)).
Proof. vm_compute. repeat constructor; discriminate. Qed.

(** ** Prices of the exact and alpha routers *)
Import CurveModel OrderModel ExactModel AlphaModel.
Local Open Scope R_scope.
(** every fill of an order with a proper range is inside the range, whatever the split; an order
    that is treated as having one price stays within 1e-18 of it, relatively and twice *)
Theorem C160_exact fuel infuel os vs split x bt check level sp acts a o : rmap view os = Ret vs ->
  match_with fuel infuel vs split x bt check level sp = Some (Ret acts) -> In a acts -> nth_error os (ac_index a) = Some o ->
  0 <= o_y o -> o_y o <= o_yint o -> ac_output a < 0 ->
  0 <= o_y o + ac_output a /\
  (o_adj o = false -> 0 < o_plow o < o_phigh o -> 0 < ac_input a /\ o_plow o * ac_input a <= - ac_output a <= o_phigh o * ac_input a) /\
  (o_adj o = true -> 0 < o_phigh o -> o_plow o = o_phigh o -> 0 < ac_input a /\ o_phigh o * (1 - / 10 ^ 18) ^ 2 * ac_input a <= - ac_output a <= o_phigh o / (1 - / 10 ^ 18) ^ 2 * ac_input a).
Proof. exact (GainProofs4.match_prices fuel infuel os vs split x bt check level sp acts a o). Qed.
Print Assumptions C160_exact.
Theorem C160_alpha (by_target : bool) fuel infuel rank os x check k sp acts a o :
  (if by_target then alpha_by_target else alpha_by_source) fuel infuel rank os x check k sp = Some (Ret acts) -> In a acts -> nth_error os (ac_index a) = Some o ->
  o_adj o = false -> 0 < o_plow o < o_phigh o -> 0 <= o_y o -> o_y o <= o_yint o -> ac_output a < 0 ->
  0 <= o_y o + ac_output a /\ 0 < ac_input a /\ o_plow o * ac_input a <= - ac_output a <= o_phigh o * ac_input a.
Proof.
  intros H Ha Ho Hj Hp Hy Hz Hn.
  assert (M : exists vs split x' level, rmap view os = Ret vs /\ match_with fuel infuel vs split x' by_target check level sp = Some (Ret acts)).
  { destruct by_target; [exact (GainProofs4.alpha_target_match _ _ _ _ _ _ _ _ _ H)|exact (GainProofs4.alpha_source_match _ _ _ _ _ _ _ _ _ H)]. }
  destruct M as (vs & split & x' & level & Hv & M).
  destruct (C160_exact _ _ _ _ _ _ _ _ _ _ _ _ _ Hv M Ha Ho Hy Hz Hn) as (A & B & _). split; [exact A|]. apply B; assumption.
Qed.
Print Assumptions C160_alpha.
(** an order from 1 to 16 holding half its capacity of 6: of its 3 tokens, the first costs 1/5 *)
Definition gx_order : order := mkOrder (Some 1) (Some 3) 6 16 1 3 false.
Example C160_exact_ex : view gx_order = Ret (mkX (1 / 2) (1 / 2) 2 3) /\ dxdy (mkX (1 / 2) (1 / 2) 2 3) (-1) = Ret (1 / 5) /\ 1 * (1 / 5) <= - (-1) <= 16 * (1 / 5).
Proof.
  assert (N : o_n gx_order = Ret (1 / 2)).
  { unfold o_n. cbn [o_adj o_plow o_phigh gx_order]. rewrite CurveProofs.rdiv_ok by Lra.lra. cbn [rbind]. rewrite CurveProofs.rsqrt_ok by Lra.lra. cbn [rbind].
    replace (1 / 16) with ((1 / 4) * (1 / 4)) by field. rewrite sqrt_square by Lra.lra. rewrite CurveProofs.rsqrt_ok by Lra.lra. cbn [rbind]. replace (1 / 4) with ((1 / 2) * (1 / 2)) by field. rewrite sqrt_square by Lra.lra. f_equal. field. }
  assert (P : o_p gx_order = Ret 4).
  { unfold o_p. cbn [o_plow o_phigh gx_order]. rewrite CurveProofs.rsqrt_ok by Lra.lra. replace (16 * 1) with (4 * 4) by ring. rewrite sqrt_square by Lra.lra. reflexivity. }
  assert (Z : zmax gx_order = 6) by (unfold zmax; cbn [o_yint gx_order]; rewrite CurveProofs.rlt_false by Lra.lra; reflexivity).
  split. { unfold view, o_x0, o_y0. rewrite N, P, Z. cbn [rbind]. rewrite !CurveProofs.rdiv_ok by Lra.lra. cbn [rbind o_y gx_order]. f_equal. f_equal; field. }
  split; [|Lra.lra]. unfold dxdy. cbn [xo_n xo_x0 xo_y0 xo_y]. rewrite CurveProofs.rdiv_ok by Lra.lra. f_equal. field.
Qed.
