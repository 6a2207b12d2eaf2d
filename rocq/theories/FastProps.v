(** Properties C26-C28 of carbon/routers/fast_router.py, and what they give for the simulator
    run with this router (C19, C22, C24). *)
From Coq Require Import ZArith QArith Qabs List Bool String Permutation Sorted.
From Verif Require Import TradeModel PairModel SimModel SimSpec FastModel FastSpec.
From Verif Require Import SimProofs3 SimProofs4 SimProofs5 SimProofs6 SimProofs7 SimProofs8 SimProofs9 SimProps FastProofs FastProofs2 FastProofs3 FastProofs4.
Import ListNotations.
Local Open Scope Q_scope.

(** ** Concrete data *)
Definition fx_orders : list forder := [mkForder 10 10 1 2; mkForder 0 5 1 1; mkForder 20 40 1 3; mkForder 6 6 0 3].
Example fx_good : Forall good_order fx_orders.
Proof. repeat constructor; cbn; discriminate. Qed.
(** a sorting function that meets both assumptions *)
Example isort_ok : perm_sort isort /\ sorts isort.
Proof. split; [exact isort_perm|exact isort_sorts]. Qed.

(** ** C26 *)
Theorem C26_by_target sort orders x : perm_sort sort -> Forall good_order orders -> ~ x == 0 ->
  match match_by_target sort false orders x with
  | None => qsum fo_y orders == 0
  | Some routes => NoDup (map rt_index routes) /\ qsum rt_input routes == qmin (Qabs x) (qsum fo_y orders) /\ 0 < qsum fo_y orders /\
      forall r, In r routes -> exists o, nth_error orders (rt_index r) = Some o /\
        0 < rt_input r /\ rt_input r <= fo_y o /\ rt_output r == curve_cost o (rt_input r)
  end.
Proof. exact (target_fill sort orders x). Qed.
Print Assumptions C26_by_target.
Theorem C26_by_source sort orders x : perm_sort sort -> Forall good_order orders -> ~ x == 0 ->
  match match_by_src sort false orders x with
  | None => qsum (fun o => curve_cost o (fo_y o)) orders == 0
  | Some routes => NoDup (map rt_index routes) /\ qsum rt_input routes == qmin (Qabs x) (qsum (fun o => curve_cost o (fo_y o)) orders) /\
      0 < qsum (fun o => curve_cost o (fo_y o)) orders /\
      forall r, In r routes -> exists o, nth_error orders (rt_index r) = Some o /\
        0 < rt_input r /\ rt_input r <= curve_cost o (fo_y o) /\ rt_output r == curve_gain o (rt_input r)
  end.
Proof. exact (source_fill sort orders x). Qed.
Print Assumptions C26_by_source.
Theorem C26_zero_request_raises sort orders x : perm_sort sort -> x == 0 ->
  match_by_target sort false orders x = None /\ match_by_src sort false orders x = None.
Proof. intros Hs Hx. split; [exact (zero_raises sort _ _ orders x Hs quote_target_zero Hx)|exact (zero_raises sort _ _ orders x Hs quote_source_zero Hx)]. Qed.
Print Assumptions C26_zero_request_raises.
(** whatever the parameters of the orders: positive routes, no order twice, balances respected *)
Theorem C26_any_orders sort orders x routes by_target : perm_sort sort ->
  (if by_target : bool then match_by_target sort false orders x else match_by_src sort false orders x) = Some routes ->
  routes <> [] /\ NoDup (map rt_index routes) /\
  (forall r, In r routes -> exists o, nth_error orders (rt_index r) = Some o /\ 0 < rt_input r /\ 0 < rt_output r /\
     (if by_target then rt_input r else rt_output r) <= fo_y o) /\
  (forall r0, rt_total_input (last routes r0) == qsum rt_input routes /\ rt_total_output (last routes r0) == - qsum rt_output routes).
Proof. destruct by_target; [exact (target_sane sort orders x routes)|exact (source_sane sort orders x routes)]. Qed.
Print Assumptions C26_any_orders.
Definition show (l : option (list route)) : list (nat * Q * Q) :=
  match l with Some l => map (fun r => (rt_index r, Qred (rt_input r), Qred (rt_output r))) l | None => [] end.
Example C26_ex :
  show (match_by_target isort false fx_orders (-12)) = [(2%nat, 12, 15 # 14)] /\
  show (match_by_target isort false fx_orders 25) = [(2%nat, 20, 40 # 21); (3%nat, 5, 5 # 9)] /\
  show (match_by_target isort false fx_orders 100) = [(2%nat, 20, 40 # 21); (3%nat, 6, 2 # 3); (0%nat, 10, 5 # 3)] /\
  show (match_by_src isort false fx_orders 3) = [(2%nat, 40 # 21, 20); (3%nat, 2 # 3, 6); (0%nat, 3 # 7, 270 # 79)] /\
  match_by_target isort false [mkForder 0 5 1 1] 3 = None.
Proof. vm_compute. repeat split. Qed.

(** ** C27 *)
Theorem C27_comparator a b : positive (fq_rate a) -> positive (fq_rate b) ->
  ((cmp_min a b < 0)%Z <-> ranks_before (fq_rate a) (fq_rate b)) /\ ((cmp_min a b > 0)%Z <-> ranks_before (fq_rate b) (fq_rate a)) /\
  cmp_max a b = cmp_min b a.
Proof. intros Pa Pb. destruct (cmp_spec a b Pa Pb) as [H1 H2]. split; [exact H1|]. split; [exact H2|reflexivity]. Qed.
Print Assumptions C27_comparator.
Theorem C27_total_preorder l : (forall q, In q l -> positive (fq_rate q) \/ (fr_input (fq_rate q) == 0 /\ fr_output (fq_rate q) == 0)) ->
  fit cmp_min l /\ fit cmp_max l.
Proof. exact (cmp_fit l). Qed.
Print Assumptions C27_total_preorder.
Theorem C27_by_target_order sort orders x routes i j a b : perm_sort sort -> sorts sort -> Forall good_order orders ->
  match_by_target sort false orders x = Some routes -> (i < j)%nat -> nth_error routes i = Some a -> nth_error routes j = Some b ->
  exists oa ob, nth_error orders (rt_index a) = Some oa /\ nth_error orders (rt_index b) = Some ob /\
    let da := qmin (Qabs x) (fo_y oa) in let db := qmin (Qabs x) (fo_y ob) in
    curve_cost oa da / da <= curve_cost ob db / db /\ (curve_cost oa da / da == curve_cost ob db / db -> curve_cost oa da <= curve_cost ob db).
Proof. exact (target_ranked sort orders x routes i j a b). Qed.
Print Assumptions C27_by_target_order.
Theorem C27_by_source_order sort orders x routes i j a b : perm_sort sort -> sorts sort -> Forall good_order orders ->
  match_by_src sort false orders x = Some routes -> (i < j)%nat -> nth_error routes i = Some a -> nth_error routes j = Some b ->
  exists oa ob, nth_error orders (rt_index a) = Some oa /\ nth_error orders (rt_index b) = Some ob /\
    let da := qmin (Qabs x) (curve_cost oa (fo_y oa)) in let db := qmin (Qabs x) (curve_cost ob (fo_y ob)) in
    curve_gain ob db / db <= curve_gain oa da / da /\ (curve_gain ob db / db == curve_gain oa da / da -> curve_gain ob db <= curve_gain oa da).
Proof. exact (source_ranked sort orders x routes i j a b). Qed.
Print Assumptions C27_by_source_order.
Example C27_ex : cmp_min (mkFquote 0 (mkFrate 2 6)) (mkFquote 1 (mkFrate 3 6)) = (-1)%Z /\
  cmp_min (mkFquote 0 (mkFrate 1 2)) (mkFquote 1 (mkFrate 3 6)) = 1%Z /\
  map (fun q => fq_index q) (isort cmp_min [mkFquote 0 (mkFrate 3 6); mkFquote 1 (mkFrate 1 2); mkFquote 2 (mkFrate 2 6)]) = [2; 0; 1]%nat.
Proof. vm_compute. repeat split. Qed.

(** ** C28 *)
Theorem C28_target_then_source o dx : good_order o -> 0 <= dx -> curve_gain o dx <= fo_y o ->
  exists v w, amt_by_target false o dx = Some v /\ v == curve_gain o dx /\ amt_by_src false o v = Some w /\ w == dx.
Proof. exact (round_trip_source o dx). Qed.
Print Assumptions C28_target_then_source.
Theorem C28_source_then_target o dy : good_order o -> 0 <= dy -> dy <= fo_y o ->
  exists v w, amt_by_src false o dy = Some v /\ v == curve_cost o dy /\ amt_by_target false o v = Some w /\ w == dy.
Proof. exact (round_trip_target o dy). Qed.
Print Assumptions C28_source_then_target.
Theorem C28_floor_source o dx : good_order o -> integral o -> is_int dx -> 0 <= dx -> dx <= fo_y o ->
  exists v, amt_by_src true o dx = Some v /\ is_int v /\ curve_cost (unscale o) dx <= v /\ v < curve_cost (unscale o) dx + 1.
Proof. exact (floor_src o dx). Qed.
Print Assumptions C28_floor_source.
Theorem C28_floor_target o dx : good_order o -> 0 <= dx ->
  exists v, amt_by_target true o dx = Some v /\ is_int v /\ 0 <= v /\ v <= curve_gain (unscale o) dx /\
  (forall dx', 0 <= dx' -> dx' + inject_Z (2 ^ 32) / (fo_A o * fo_y o + fo_B o * fo_z o) <= dx -> curve_gain (unscale o) dx' < v + 1).
Proof. exact (floor_target o dx). Qed.
Print Assumptions C28_floor_target.
Theorem C28_floor_round_trip o dx : good_order o -> integral o -> is_int dx -> 0 <= dx -> curve_gain (unscale o) dx <= fo_y o ->
  exists v w, amt_by_target true o dx = Some v /\ amt_by_src true o v = Some w /\ w <= dx.
Proof. exact (floor_round_trip o dx). Qed.
Print Assumptions C28_floor_round_trip.
Example C28_ex : let o := mkForder 1000 2000 (inject_Z 3000000000) (inject_Z 2000000000) in
  good_order o /\ integral o /\ amt_by_src true o 100 = Some 158 /\ amt_by_target true o 100 = Some 64 /\ amt_by_src true o 64 = Some 100 /\
  option_map Qred (amt_by_src false (mkForder 10 10 1 2) 4) = Some (20 # 39).
Proof.
  split; [repeat split; discriminate|]. split; [|vm_compute; repeat split].
  repeat split; [exists 1000%Z|exists 2000%Z|exists 3000000000%Z|exists 2000000000%Z]; reflexivity.
Qed.

(** ** The simulator with the fast router *)
Theorem C22_fast_router e ops k o : e_exclude_future e = true -> runs_fast e -> Forall (legit e) ops ->
  oget k (orders (run e init ops)) = Some o -> (0 <= so_y o)%Q /\ (so_y o <= so_yint o)%Q.
Proof. intros He Hf. exact (run_bounded e ops k o He (fast_bounded e Hf)). Qed.
Print Assumptions C22_fast_router.
Theorem C24_fast_router e s a r cp : runs_fast e -> well_keyed s -> well_linked (orders s) ->
  get_carbon_pair e (tr_pair a) = Some cp -> has_token cp (tr_tkn a) = true ->
  r = amm_buys e s a \/ r = amm_sells e s a -> snd r = false -> orders (fst r) = orders s.
Proof. intros Hf Hk Hl. exact (amm_noop e s a r cp Hk Hl (fast_valid e Hf) (fast_signs e Hf)). Qed.
Print Assumptions C24_fast_router.
Theorem C19_fast_router e s a cp s' l : runs_fast e -> (0 <= tr_amt a)%Q -> get_carbon_pair e (tr_pair a) = Some cp ->
  tr_limit_price a = Some l -> tr_limit_amt a = None -> amm_buys e s a = (s', true) ->
  exists t, log_of (uid_aggr (numtrades s)) s' = Some t /\ other cp (tr_tkn a) = Some (t_tkn1 t) /\ (0 < t_amt1 t)%Q /\ (0 < t_amt2 t)%Q /\
    let p := pair_price cp (t_tkn1 t) (t_amt1 t) (t_amt2 t) in
    (limit_ok cp (t_tkn1 t) l p -> t_exec t = tr_execute a /\ t_limitfail t = Some false) /\
    (~ limit_ok cp (t_tkn1 t) l p -> t_exec t = false /\ t_limitfail t = Some true /\ orders s' = orders s).
Proof. intros Hf. exact (buys_limit_price e s a cp s' l (fast_signs e Hf)). Qed.
Print Assumptions C19_fast_router.
(** a simulator with the fast router: all orders have S = 1 and B = 40 here *)
Definition fx_env : env := mkEnv (fast_router isort (fun _ => (1, 40))) true (fun _ _ _ _ => None) (Some ex_pair) true.
Example fx_runs_fast : runs_fast fx_env.
Proof. split; [reflexivity|]. exists isort, (fun _ => (1, 40)). split; [exact isort_perm|reflexivity]. Qed.
Example C22_fast_router_ex : let ops := [OpAdd ex_add; OpSell (ex_sell true None None); OpBuy (ex_buy None None)] in
  Forall (legit fx_env) ops /\ snd (amm_sells fx_env ex_book (ex_sell true None None)) = true /\
  snd (amm_buys fx_env ex_book (ex_buy None None)) = true /\
  exists o, oget 0 (orders (run fx_env init [OpAdd ex_add; OpSell (ex_sell true None None)])) = Some o /\ Qred (so_y o) = 5.
Proof.
  split; [repeat constructor; cbn; discriminate|]. vm_compute. repeat split. eexists. split; reflexivity.
Qed.
