(** Chart data of order books (C166): carbon/simulators/sim_analytics.py. *)
From Coq Require Import QArith List Bool String Lia Arith.
From Verif Require Import CurveModel AnalyticsModel AnalyticsSpec AnalyticsProofs ChartModel.
Import ListNotations.
Local Open Scope nat_scope.
Local Open Scope string_scope.

(** the one entry of a dictionary under a key *)
Definition has (d : dict) (k : string) (c : cell) : Prop := In (k, c) d /\ forall c', In (k, c') d -> c' = c.
Definition vec_at (d : dict) (k : string) (v : list fl) : Prop := has d k (Vec v).
Definition text_at (d : dict) (k s : string) : Prop := has d k (Text s).
Ltac entry := split; [cbn; tauto | intros c' H; repeat (destruct H as [H|H]; [try discriminate H; injection H as <-; reflexivity|]); destruct H].

(** ** C166 *)
(** the amounts, under both names, with their tokens *)
Theorem C166_amounts b src trg : shows b src trg -> let d := data_tokenamount_chart b in
  vec_at d "x" (map Fin src) /\ vec_at d "src" (map Fin src) /\ vec_at d "y" (map Fin trg) /\ vec_at d "trg" (map Fin trg) /\ text_at d "src_unit" (b_srctkn b) /\ text_at d "trg_unit" (b_trgtkn b) /\
  f_columns (frame_tokenamount_chart b) = ["src_amt [" ++ b_srctkn b ++ "]"; "trg_amt [" ++ b_trgtkn b ++ "]"] /\ f_rows (frame_tokenamount_chart b) = map (fun i => [Fin (at_ src i); Fin (at_ trg i)]) (seq 0 (List.length src)).
Proof.
  intros (A & B & L) d. subst d. unfold data_tokenamount_chart, frame_tokenamount_chart, to_frame. cbn [f_columns f_rows fold_right map fst snd]. rewrite A, B. split; [entry|]. split; [entry|]. split; [entry|]. split; [entry|]. split; [entry|]. split; [entry|].
  split; [reflexivity|]. rewrite !map_length, <- L. replace (Nat.max (List.length src) (Nat.max (List.length src) 0)) with (List.length src) by lia.
  apply map_ext_in. intros i I. apply in_seq in I. rewrite <- !fin_at by lia. reflexivity.
Qed.
Print Assumptions C166_amounts.
(** effective prices stand at the trade sizes, marginal prices at the middle between two sizes *)
Theorem C166_prices b src trg reverse : shows b src trg -> exists x1 y1 x2 y2, let d := data_price_chart b reverse in
  vec_at d "x1" x1 /\ vec_at d "size1" x1 /\ vec_at d "y1" y1 /\ vec_at d "price1_eff" y1 /\ vec_at d "x2" x2 /\ vec_at d "size2" x2 /\ vec_at d "y2" y2 /\ vec_at d "price2_marg" y2 /\
  text_at d "size_unit" (b_srctkn b) /\ text_at d "prices_unit" (if reverse then b_srctkn b ++ " per " ++ b_trgtkn b else b_trgtkn b ++ " per " ++ b_srctkn b) /\
  List.length x1 = List.length src /\ List.length y1 = List.length src /\ List.length x2 = pred (List.length src) /\ List.length y2 = pred (List.length src) /\
  (forall i, i < List.length src -> is (fat x1 i) (at_ src i) /\ (~ (at_ src i == 0)%Q -> ~ (at_ trg i == 0)%Q -> is (fat y1 i) (if reverse then at_ src i / at_ trg i else at_ trg i / at_ src i)%Q)) /\
  (forall i, S i < List.length src -> is (fat x2 i) ((at_ src i + at_ src (S i)) / 2)%Q /\ (~ (at_ src (S i) == at_ src i)%Q -> ~ (at_ trg (S i) == at_ trg i)%Q ->
     is (fat y2 i) (if reverse then (at_ src (S i) - at_ src i) / (at_ trg (S i) - at_ trg i) else (at_ trg (S i) - at_ trg i) / (at_ src (S i) - at_ src i))%Q)).
Proof.
  intros Sh. pose proof Sh as (A & B & L). exists (b_src b), (pricesr b reverse), (midpoints (b_src b)), (marg_pricesr b reverse). cbv zeta. unfold data_price_chart.
  split; [entry|]. split; [entry|]. split; [entry|]. split; [entry|]. split; [entry|]. split; [entry|]. split; [entry|]. split; [entry|]. split; [entry|]. split; [destruct reverse; entry|].
  assert (P : List.length (prices b) = List.length src) by (unfold prices; rewrite vop_length; rewrite B; [|rewrite A]; rewrite ?map_length; congruence).
  split; [rewrite A, map_length; reflexivity|]. split; [destruct reverse; cbn [pricesr]; unfold reciprocals; rewrite ?map_length; exact P|]. split; [rewrite mid_length, A, map_length; reflexivity|].
  split; [destruct reverse; cbn [marg_pricesr]; unfold reciprocals; rewrite ?map_length; exact (marg_len b src trg Sh)|]. split.
  - intros i I. split; [rewrite A, fin_at by exact I; eexists; split; reflexivity|]. intros N M. destruct (price_at b src trg i Sh I N) as [E R]. destruct reverse; [exact (R M)|exact E].
  - intros i I. split; [rewrite A, mid_at by (rewrite map_length; exact I); apply is_mid; rewrite fin_at by lia; eexists; split; reflexivity|]. intros N M.
    destruct reverse; [exact (margr_at b src trg i Sh I N M)|exact (marg_at b src trg i Sh I N)].
Qed.
Print Assumptions C166_prices.
(** the data frame has one row per trade size; the last one has no marginal price *)
Theorem C166_frame b src trg reverse : shows b src trg -> (0 < List.length src)%nat -> let f := frame_price_chart b reverse in let u := if reverse then b_srctkn b ++ " per " ++ b_trgtkn b else b_trgtkn b ++ " per " ++ b_srctkn b in
  f_columns f = ["size1 [" ++ b_srctkn b ++ "]"; "price1_eff [" ++ u ++ "]"; "size2 [" ++ b_srctkn b ++ "]"; "price2_marg [" ++ u ++ "]"] /\ List.length (f_rows f) = List.length src /\
  exists x1 y1 x2 y2, vec_at (data_price_chart b reverse) "x1" x1 /\ vec_at (data_price_chart b reverse) "y1" y1 /\ vec_at (data_price_chart b reverse) "x2" x2 /\ vec_at (data_price_chart b reverse) "y2" y2 /\
  (forall i, S i < List.length src -> nth i (f_rows f) [] = [fat x1 i; fat y1 i; fat x2 i; fat y2 i]) /\ nth (pred (List.length src)) (f_rows f) [] = [fat x1 (pred (List.length src)); fat y1 (pred (List.length src)); NaN; NaN].
Proof.
  intros Sh Ne. pose proof Sh as (A & B & L). cbv zeta. assert (P : List.length (pricesr b reverse) = List.length src).
  { assert (P : List.length (prices b) = List.length src) by (unfold prices; rewrite vop_length; rewrite B; [|rewrite A]; rewrite ?map_length; congruence). destruct reverse; cbn [pricesr]; unfold reciprocals; rewrite ?map_length; exact P. }
  assert (M : List.length (marg_pricesr b reverse) = pred (List.length src)) by (destruct reverse; cbn [marg_pricesr]; unfold reciprocals; rewrite ?map_length; exact (marg_len b src trg Sh)).
  assert (X1 : List.length (b_src b) = List.length src) by (rewrite A, map_length; reflexivity). assert (X2 : List.length (midpoints (b_src b)) = pred (List.length src)) by (rewrite mid_length, X1; reflexivity).
  split; [destruct reverse; reflexivity|]. unfold frame_price_chart, to_frame. cbn [f_rows fold_right map snd]. rewrite X1, X2, P, M.
  replace (Nat.max (List.length src) (Nat.max (List.length src) (Nat.max (pred (List.length src)) (Nat.max (pred (List.length src)) 0)))) with (List.length src) by lia.
  split; [rewrite map_length, seq_length; reflexivity|]. exists (b_src b), (pricesr b reverse), (midpoints (b_src b)), (marg_pricesr b reverse).
  split; [unfold data_price_chart; entry|]. split; [unfold data_price_chart; entry|]. split; [unfold data_price_chart; entry|]. split; [unfold data_price_chart; entry|].
  assert (G : forall i, i < List.length src -> nth i (map (fun i0 => [nth i0 (b_src b) NaN; nth i0 (pricesr b reverse) NaN; nth i0 (midpoints (b_src b)) NaN; nth i0 (marg_pricesr b reverse) NaN]) (seq 0 (List.length src))) [] =
     [fat (b_src b) i; fat (pricesr b reverse) i; fat (midpoints (b_src b)) i; fat (marg_pricesr b reverse) i]).
  { intros i I. rewrite (nth_indep _ _ ((fun i0 => [nth i0 (b_src b) NaN; nth i0 (pricesr b reverse) NaN; nth i0 (midpoints (b_src b)) NaN; nth i0 (marg_pricesr b reverse) NaN]) 0)) by (rewrite map_length, seq_length; exact I).
    rewrite (map_nth (fun i0 => [nth i0 (b_src b) NaN; nth i0 (pricesr b reverse) NaN; nth i0 (midpoints (b_src b)) NaN; nth i0 (marg_pricesr b reverse) NaN])). rewrite seq_nth by exact I. reflexivity. }
  split; [intros i I; apply G; lia|]. rewrite G by lia. unfold fat at 3 4. rewrite (nth_overflow (midpoints (b_src b))) by lia. rewrite (nth_overflow (marg_pricesr b reverse)) by lia. reflexivity.
Qed.
Print Assumptions C166_frame.
(** the order book chart: liquidity and price of the same number belong together; the entries
    named x and y are the other way round than they are drawn *)
Theorem C166_orderbook b src trg : shows b src trg -> exists l p, let d := data_orderbook_chart b in
  vec_at d "liquidity" l /\ vec_at d "prices" p /\ vec_at d "x" l /\ vec_at d "y" p /\ drawn_orderbook_chart b = Ret (Vec p, Vec l) /\
  text_at d "liquidity_unit" (b_trgtkn b) /\ text_at d "prices_unit" (b_trgtkn b ++ " per " ++ b_srctkn b) /\ List.length l = pred (pred (List.length src)) /\ List.length p = pred (pred (List.length src)) /\
  f_columns (frame_orderbook_chart b) = ["Price [" ++ (b_trgtkn b ++ " per " ++ b_srctkn b) ++ "]"; "Liquidity [" ++ b_trgtkn b ++ "]"] /\
  f_rows (frame_orderbook_chart b) = map (fun i => [fat p i; fat l i]) (seq 0 (pred (pred (List.length src)))) /\
  (forall i, S (S i) < List.length src -> ~ (at_ src (S i) == at_ src i)%Q -> ~ (at_ src (S (S i)) == at_ src (S i))%Q ->
     is (fat p i) ((slope src trg i + slope src trg (S i)) / 2)%Q /\
     (~ (slope src trg (S i) == slope src trg i)%Q -> is (fat l i) ((at_ trg (S (S i)) - at_ trg i) / 2 / (if b_rev b then slope src trg i - slope src trg (S i) else slope src trg (S i) - slope src trg i))%Q)).
Proof.
  intros Sh. exists (ob_liquidity b), (ob_prices b). cbv zeta. unfold data_orderbook_chart. split; [entry|]. split; [entry|]. split; [entry|]. split; [entry|]. split; [reflexivity|]. split; [entry|]. split; [entry|].
  assert (Ll : List.length (ob_liquidity b) = pred (pred (List.length src))) by exact (liq_len b src trg Sh).
  assert (Lp : List.length (ob_prices b) = pred (pred (List.length src))) by (unfold ob_prices; rewrite mid_length, (marg_len b src trg Sh); reflexivity).
  split; [exact Ll|]. split; [exact Lp|]. split; [reflexivity|]. split.
  - unfold frame_orderbook_chart, to_frame. cbn [f_rows fold_right map snd]. rewrite Ll, Lp. replace (Nat.max (pred (pred (List.length src))) (Nat.max (pred (pred (List.length src))) 0)) with (pred (pred (List.length src))) by lia. reflexivity.
  - intros i I N M. split.
    + unfold ob_prices. rewrite mid_at by (rewrite (marg_len b src trg Sh); lia). apply is_mid; apply marg_at; auto; lia.
    + intros D. eapply is_eq; [apply (liq_at b src trg i Sh I N M D)|]. destruct (b_rev b); reflexivity.
Qed.
Print Assumptions C166_orderbook.
(** what the AMM does with the two tokens, and what the explanation says *)
Theorem C166_words src trg st tt b : (new_book src trg st tt "ASK_amm_sells_src_tkn" = Ret b -> amm_bidask b = "ask" /\ amm_buysell_src b = "sells" /\ amm_buysell_trg b = "buys" /\ src_token_outin b = "out" /\ trg_token_outin b = "in" /\
    text_at (data_price_chart b true) "ammm_buysell_src" "sells" /\ explain b = ["This is the ASK book."; "Source token = " ++ st ++ ", target token = " ++ tt ++ "."; "AMM sells " ++ st ++ " for " ++ tt ++ "."; "Base token = " ++ st ++ ", quote token = " ++ tt ++ ".";
      "Prices are quoted in " ++ (tt ++ " per " ++ st) ++ "."; "Order book amounts are quoted in " ++ tt ++ "."]) /\
  (new_book src trg st tt "BID_amm_buys_src_tkn" = Ret b -> amm_bidask b = "bid" /\ amm_buysell_src b = "buys" /\ amm_buysell_trg b = "sells" /\ src_token_outin b = "in" /\ trg_token_outin b = "out" /\
    text_at (data_price_chart b true) "ammm_buysell_src" "buys" /\ explain b = ["This is the BID book."; "Source token = " ++ st ++ ", target token = " ++ tt ++ "."; "AMM buys " ++ st ++ " for " ++ tt ++ "."; "Base token = " ++ st ++ ", quote token = " ++ tt ++ ".";
      "Prices are quoted in " ++ (tt ++ " per " ++ st) ++ "."; "Order book amounts are quoted in " ++ tt ++ "."]).
Proof.
  unfold new_book. destruct (truncate src trg) as [s t]. split; intros [= <-]; cbn [b_rev b_srctkn b_trgtkn amm_bidask amm_buysell_src amm_buysell_trg src_token_outin trg_token_outin];
    repeat (split; [reflexivity|]); (split; [unfold data_price_chart; entry|]); reflexivity.
Qed.
Print Assumptions C166_words.
Definition ex_book : book := mkBook (map Fin [1; 2; 3; 5]%Q) (map Fin [10; 22; 36; 72]%Q) "ETH" "USDC" false.
Example C166_ex : shows ex_book [1; 2; 3; 5]%Q [10; 22; 36; 72]%Q /\ is (fat (ob_prices ex_book) 0) 13 /\ is (fat (ob_liquidity ex_book) 0) (13 # 2).
Proof. split; [repeat split|]. split; (eexists; split; reflexivity). Qed.
(** "x and y are the horizontal and the vertical values of the chart", as they are for the
    other charts, is false of the order book chart *)
Theorem C166_axes_refuted : exists b l, vec_at (data_orderbook_chart b) "x" l /\ forall y, drawn_orderbook_chart b <> Ret (Vec l, y).
Proof. exists ex_book, (ob_liquidity ex_book). split; [unfold data_orderbook_chart; entry|]. intros y. vm_compute. discriminate. Qed.
Print Assumptions C166_axes_refuted.
