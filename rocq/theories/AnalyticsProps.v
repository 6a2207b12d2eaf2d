(** Properties C115-C118 of carbon/simulators/sim_analytics.py. *)
From Coq Require Import ZArith QArith List Bool String Lia Lqa.
From Verif Require Import TradeModel PairModel PairSpec CurveModel SimModel SimSpec SimProps AnalyticsModel AnalyticsSpec AnalyticsProofs AnalyticsProofs2.
Import ListNotations.
Local Open Scope nat_scope.

(** ** C115: grids of sizes and missing results *)
Theorem C115_grid xmax n eps eps2 : (0 < n)%Z -> let e := match eps with Some e => e | None => 1 # 10000 end in let e2 := match eps2 with Some e => e | None => 1 # 100000 end in
  exists v, linspace0 xmax n eps eps2 = Ret v /\ List.length v = S (Z.to_nat n) /\ at_ v 0 = e /\ at_ v (Z.to_nat n) = ((1 - e2) * xmax)%Q /\
   (forall i, 0 < i < Z.to_nat n -> (at_ v i == inject_Z (Z.of_nat i) * xmax / inject_Z n)%Q).
Proof. exact (lin_spec xmax n eps eps2). Qed.
Print Assumptions C115_grid.
Theorem C115_increasing xmax n eps eps2 v : (2 <= n)%Z -> (0 < xmax)%Q -> linspace0 xmax n eps eps2 = Ret v ->
  (increasing v <-> (match eps with Some e => e | None => 1 # 10000 end < xmax / inject_Z n)%Q /\ (match eps2 with Some e => e | None => 1 # 100000 end * inject_Z n < 1)%Q).
Proof. exact (lin_increasing xmax n eps eps2 v). Qed.
Print Assumptions C115_increasing.
Theorem C115_errors xmax n eps eps2 : (n < -1 -> linspace0 xmax n eps eps2 = Raise ValueError)%Z /\ (n = -1 -> linspace0 xmax n eps eps2 = Raise IndexError)%Z.
Proof. exact (lin_err xmax n eps eps2). Qed.
Print Assumptions C115_errors.
Example C115_ex : exists a b c d e, linspace0 10 4 None None = Ret [a; b; c; d; e] /\ (a == 1 # 10000 /\ b == 5 # 2 /\ c == 5 /\ d == 15 # 2 /\ e == 99999 # 10000)%Q.
Proof. do 5 eexists. split; [reflexivity|]. repeat split; vm_compute; reflexivity. Qed.
(** "the grid is increasing" is false for small amounts and for many points *)
Theorem C115_increasing_refuted : exists xmax n v, (2 <= n)%Z /\ (0 < xmax)%Q /\ linspace0 xmax n None None = Ret v /\ ~ increasing v.
Proof.
  exists (1 # 100000)%Q, 2%Z. eexists. split; [lia|]. split; [reflexivity|]. split; [reflexivity|]. intros H. specialize (H 0 ltac:(vm_compute; lia)). vm_compute in H. discriminate.
Qed.
Print Assumptions C115_increasing_refuted.
(** an order book drops the sizes at the end whose trades failed *)
Theorem C115_book src trg k st tt side : List.length trg <= List.length src ->
  (side = "ASK_amm_sells_src_tkn"%string \/ side = "BID_amm_buys_src_tkn"%string -> exists b, new_book (map Fin src) (map (fun t => Some (Fin t)) trg ++ repeat None k) st tt side = Ret b /\
    shows b (firstn (List.length trg) src) trg /\ (b_rev b = true <-> side = "BID_amm_buys_src_tkn"%string) /\ prices_u b = (tt ++ " per " ++ st)%string /\ pricesr_u b true = (st ++ " per " ++ tt)%string) /\
  (side <> "ASK_amm_sells_src_tkn"%string -> side <> "BID_amm_buys_src_tkn"%string -> new_book (map Fin src) (map (fun t => Some (Fin t)) trg ++ repeat None k) st tt side = Raise ValueError).
Proof. exact (book_spec src trg k st tt side). Qed.
Print Assumptions C115_book.
Example C115_book_ex : new_book [Fin 1; Fin 2; Fin 3] [Some (Fin 10); Some (Fin 25); None] "ETH" "USDC" "ASK_amm_sells_src_tkn" = Ret (mkBook [Fin 1; Fin 2] [Fin 10; Fin 25] "ETH" "USDC" false).
Proof. reflexivity. Qed.
(** "the book pairs every size with its own result" is false when a result in the middle is missing *)
Theorem C115_aligned_refuted : exists src trg b i j x y, new_book src trg "ETH" "USDC" "ASK_amm_sells_src_tkn" = Ret b /\ nth_error src i = Some x /\ nth_error trg i = Some (Some y) /\
  nth_error (b_trg b) j = Some y /\ nth_error (b_src b) j <> Some x.
Proof. exists [Fin 1; Fin 2; Fin 3], [Some (Fin 10); None; Some (Fin 45)]. eexists. exists 2, 1, (Fin 3), (Fin 45). split; [reflexivity|]. repeat split. discriminate. Qed.
Print Assumptions C115_aligned_refuted.

(** ** C116: prices and liquidity of an order book *)
Theorem C116_prices b src trg i : shows b src trg -> i < List.length src -> ~ (at_ src i == 0)%Q -> is (fat (prices b) i) (at_ trg i / at_ src i)%Q /\
  (~ (at_ trg i == 0)%Q -> is (fat (pricesr b true) i) (at_ src i / at_ trg i)%Q).
Proof. exact (price_at b src trg i). Qed.
Print Assumptions C116_prices.
Theorem C116_marginal b src trg i : shows b src trg -> S i < List.length src -> ~ (at_ src (S i) == at_ src i)%Q ->
  is (fat (marg_prices b) i) ((at_ trg (S i) - at_ trg i) / (at_ src (S i) - at_ src i))%Q /\
  (~ (at_ trg (S i) == at_ trg i)%Q -> is (fat (marg_pricesr b true) i) ((at_ src (S i) - at_ src i) / (at_ trg (S i) - at_ trg i))%Q).
Proof. exact (fun H A N => conj (marg_at b src trg i H A N) (margr_at b src trg i H A N)). Qed.
Print Assumptions C116_marginal.
Theorem C116_total b src trg n : shows b src trg -> List.length src = S n -> (forall i, S i < List.length src -> ~ (at_ src (S i) == at_ src i)%Q) ->
  exists a, vecdot (marg_src_amounts b) (marg_prices b) = Ret a /\ is a (at_ trg n - at_ trg 0)%Q.
Proof. exact (total b src trg n). Qed.
Print Assumptions C116_total.
Theorem C116_area b src trg n : shows b src trg -> List.length src = S (S n) -> (forall i, S i < List.length src -> ~ (at_ src (S i) == at_ src i)%Q) ->
  (forall i, S (S i) < List.length src -> ~ (slope src trg (S i) == slope src trg i)%Q) ->
  exists a, vecdot (dmarg_prices b) (ob_liquidity b) = Ret a /\ is a (((at_ trg n + at_ trg (S n)) - (at_ trg 0 + at_ trg 1)) / 2)%Q.
Proof. exact (area b src trg n). Qed.
Print Assumptions C116_area.
Theorem C116_flat b src trg i : shows b src trg -> S (S i) < List.length src -> ~ (at_ src (S i) == at_ src i)%Q -> ~ (at_ src (S (S i)) == at_ src (S i))%Q ->
  (slope src trg (S i) == slope src trg i)%Q -> ~ (at_ trg (S (S i)) == at_ trg i)%Q -> vecdot (dmarg_prices b) (ob_liquidity b) = Ret NaN.
Proof. exact (area_flat b src trg i). Qed.
Print Assumptions C116_flat.
Theorem C116_positive b src trg i : shows b src trg -> increasing src -> increasing trg -> worsening (b_rev b) src trg -> S (S i) < List.length src ->
  (exists q, is (fat (ob_liquidity b) i) q /\ 0 < q)%Q /\
  (exists p, is (fat (ob_prices b) i) p /\ if b_rev b then slope src trg (S i) < p /\ p < slope src trg i else slope src trg i < p /\ p < slope src trg (S i))%Q.
Proof. exact (positive b src trg i). Qed.
Print Assumptions C116_positive.
Theorem C116_sumproduct l l' q q' : Forall2 counts l q -> Forall2 counts l' q' -> (List.length l = List.length l' -> exists v, vecdot l l' = Ret v /\ is v (sumproduct q q')) /\
  (List.length l <> List.length l' -> vecdot l l' = Raise ValueError).
Proof. intros H H'. exact (conj (vecdot_counts l l' q q' H H') (vecdot_refused l l')). Qed.
Print Assumptions C116_sumproduct.
Example C116_sumproduct_ex : Forall2 counts [Fin 1; NaN; Fin 3] [1; 0; 3]%Q /\ Forall2 counts [Fin 2; Fin 5; NaN] [2; 5; 0]%Q /\ exists v, vecdot [Fin 1; NaN; Fin 3] [Fin 2; Fin 5; NaN] = Ret v /\ is v 2.
Proof.
  split; [|split]; [repeat apply Forall2_cons; try apply Forall2_nil; try (left; split; reflexivity); right; eexists; split; reflexivity..|]. eexists. split; [reflexivity|]. eexists. split; reflexivity.
Qed.
Definition ex_asks : book := mkBook (map Fin [1; 2; 3; 4]%Q) (map Fin [10; 21; 33; 46]%Q) "ETH" "USDC" false.
Example C116_ex : shows ex_asks [1; 2; 3; 4]%Q [10; 21; 33; 46]%Q /\ increasing [1; 2; 3; 4]%Q /\ increasing [10; 21; 33; 46]%Q /\ worsening false [1; 2; 3; 4]%Q [10; 21; 33; 46]%Q /\
  exists a, vecdot (dmarg_prices ex_asks) (ob_liquidity ex_asks) = Ret (Fin a) /\ (a == 24)%Q.
Proof.
  split; [repeat split|]. split; [|split; [|split]].
  - intros [|[|[|i]]] H; cbn in *; try lia; reflexivity.
  - intros [|[|[|i]]] H; cbn in *; try lia; reflexivity.
  - intros [|[|i]] H; cbn [List.length] in H; try lia; vm_compute; reflexivity.
  - eexists. split; [reflexivity|]. vm_compute. reflexivity.
Qed.
Definition ex_flat : book := mkBook (map Fin [1; 2; 3]%Q) (map Fin [10; 20; 30]%Q) "ETH" "USDC" true.
Example C116_flat_ex : shows ex_flat [1; 2; 3]%Q [10; 20; 30]%Q /\ (slope [1; 2; 3]%Q [10; 20; 30]%Q 1 == slope [1; 2; 3]%Q [10; 20; 30]%Q 0)%Q.
Proof. split; [repeat split|reflexivity]. Qed.

(** ** C117: simulated trades *)
Theorem C117_sells self e s size p : built p -> (0 <= size)%Q ->
  exists v s', simulate_trades self size "amm_sells_tknb" (Some (mkSim e s)) (APair p) = (Ret v, Some s') /\ orders s' = orders s /\
   match v with
   | None => numtrades s' = numtrades s
   | Some x => numtrades s' = S (numtrades s) /\ exists t, log_of (uid_aggr (numtrades s)) s' = Some t /\ t_exec t = false /\ t_tkn1 t = tknb p /\ t_tkn2 t = Some (tknq p) /\ x = t_amt2 t
   end.
Proof. exact (sim_sells self e s size p). Qed.
Print Assumptions C117_sells.
Theorem C117_buys self e s size p : built p -> (0 <= size)%Q ->
  exists v s', simulate_trades self size "amm_buys_tknb" (Some (mkSim e s)) (APair p) = (Ret v, Some s') /\ orders s' = orders s /\
   match v with
   | None => numtrades s' = numtrades s
   | Some x => numtrades s' = S (numtrades s) /\ exists t, log_of (uid_aggr (numtrades s)) s' = Some t /\ t_exec t = false /\ t_tkn1 t = tknq p /\ t_tkn2 t = Some (tknb p) /\ x = t_amt1 t
   end.
Proof. exact (sim_buys self e s size p). Qed.
Print Assumptions C117_buys.
Theorem C117_negative self e s size p : built p -> (size < 0)%Q ->
  exists v s', simulate_trades self size "amm_sells_tknb" (Some (mkSim e s)) (APair p) = (Ret v, Some s') /\ orders s' = orders s /\
   match v with
   | None => numtrades s' = numtrades s
   | Some x => numtrades s' = S (numtrades s) /\ exists t, log_of (uid_aggr (numtrades s)) s' = Some t /\ t_exec t = false /\ t_tkn1 t = tknq p /\ t_tkn2 t = Some (tknb p) /\ x = t_amt2 t
   end.
Proof. exact (sim_negative self e s size p). Qed.
Print Assumptions C117_negative.
Theorem C117_arguments self size side sim cp :
  (side <> "amm_sells_tknb" -> side <> "amm_buys_tknb" -> fst (simulate_trades self size side sim cp) = Raise ValueError)%string /\
  fst (simulate_trades self size side sim NotAPair) = Raise ValueError /\ fst (simulate_trades None size side sim NoPair) = Raise ValueError /\
  (forall m sim', simulate_trades (Some m) size side sim NoPair = simulate_trades (Some m) size side sim' NoPair) /\
  (forall e s p, e_pair e = Some p -> simulate_trades (Some (mkSim e s)) size side sim NoPair = simulate_trades None size side (Some (mkSim e s)) (APair p)).
Proof. destruct (sim_errors self size side sim cp) as (A & B & C & D). exact (conj A (conj B (conj C (conj D (fun e s p => sim_default e s size side sim p))))). Qed.
Print Assumptions C117_arguments.
Theorem C117_independent e s side p sizes : (side = "amm_sells_tknb" \/ side = "amm_buys_tknb")%string ->
  orders (snd (simulate_all e s side p sizes)) = orders s /\
  map (fun v => Ret v) (fst (simulate_all e s side p sizes)) = map (fun x => fst (simulate_trades None x side (Some (mkSim e s)) (APair p))) sizes.
Proof. exact (fun H => sim_all e side p sizes H s s eq_refl). Qed.
Print Assumptions C117_independent.
Example C117_ex : built ex_pair /\ fst (simulate_all ex_env ex_book "amm_sells_tknb" ex_pair [5; 5]%Q) = [Some 10000%Q; Some 10000%Q] /\
  numtrades (snd (simulate_all ex_env ex_book "amm_sells_tknb" ex_pair [5; 5]%Q)) = 2.
Proof. split; [|split; vm_compute; reflexivity]. exists (Some "ETH/USDC"%string), None, None, false. split; [discriminate|]. split; [discriminate|]. reflexivity. Qed.

(** ** C118: effective prices *)
Theorem C118_price self e s size tkn pair (buys : bool) : let side := (if buys then "amm_buys" else "amm_sells")%string in
  exists v s', effective_price self size side (Some tkn) (Some (mkSim e s)) (Some pair) = (Ret v, Some s') /\ orders s' = orders s /\
   ((numtrades s' = numtrades s /\ v = (if buys then inject_Z (10 ^ 100) else 0%Q)) \/
    (numtrades s' = S (numtrades s) /\ exists t, log_of (uid_aggr (numtrades s)) s' = Some t /\ t_exec t = false /\ v = t_price t)).
Proof. exact (eff_spec self e s size tkn pair buys). Qed.
Print Assumptions C118_price.
Example C118_ex : exists v, fst (effective_price None 5 "amm_sells" (Some "ETH"%string) (Some (mkSim ex_env ex_book)) (Some (ArgStr "ETH/USDC"))) = Ret v /\ (v == 2000)%Q.
Proof. eexists. split; [vm_compute; reflexivity|reflexivity]. Qed.
(** the documented constants BID and ASK, and the documented default of the pair, never give a price *)
Theorem C118_constants self size tkn sim pair side v : side = BID \/ side = ASK -> fst (effective_price self size side tkn sim pair) <> Ret v.
Proof. exact (fun H => eff_never self size tkn sim pair side H v). Qed.
Print Assumptions C118_constants.
Theorem C118_default_pair self size tkn sim side v : fst (effective_price self size side tkn sim None) <> Ret v.
Proof. exact (eff_nopair self size tkn sim side v). Qed.
Print Assumptions C118_default_pair.
