(** Model of the chart data of order books: carbon/simulators/sim_analytics.py:315-362, 561-581,
    625-655 and 657-710, on the order books of AnalyticsModel.v.

    A dictionary is the list of its entries in order. A data frame is its column names and
    rows; the entries a shorter column lacks are NaN. Drawing is left out except for the points
    that are drawn. *)
From Coq Require Import QArith List Bool String.
From Verif Require Import CurveModel AnalyticsModel.
Import ListNotations.
Local Open Scope string_scope.

Inductive cell := Vec (v : list fl) | Text (s : string).
Definition dict := list (string * cell).
Record frame := mkFrame { f_columns : list string; f_rows : list (list fl) }.
(** pd.DataFrame of a list of named series, transposed *)
Definition to_frame (cols : list (string * list fl)) : frame :=
  mkFrame (map fst cols)
    (map (fun i => map (fun c => nth i (snd c) NaN) cols) (seq 0 (fold_right (fun c n => Nat.max (List.length (snd c)) n) O cols))).

(** 315-323 *)
Definition base_tkn (b : book) : string := b_srctkn b.
Definition quote_tkn (b : book) : string := b_trgtkn b.
(** 338-361 *)
Definition src_token_outin (b : book) : string := if b_rev b then "in" else "out".
Definition trg_token_outin (b : book) : string := if b_rev b then "out" else "in".
Definition amm_buysell_src (b : book) : string := if b_rev b then "buys" else "sells".
Definition amm_buysell_trg (b : book) : string := if b_rev b then "sells" else "buys".
Definition amm_bidask (b : book) : string := if b_rev b then "bid" else "ask".
(** 325-336: the lines of the explanation; the book is a bid book iff it is reversed (299-313) *)
Definition ob_liquidity_u (b : book) : string := b_trgtkn b.
Definition explain (b : book) : list string :=
  [ "This is the " ++ (if b_rev b then "BID" else "ASK") ++ " book.";
    "Source token = " ++ b_srctkn b ++ ", target token = " ++ b_trgtkn b ++ ".";
    "AMM " ++ (if b_rev b then "buys" else "sells") ++ " " ++ b_srctkn b ++ " for " ++ b_trgtkn b ++ ".";
    "Base token = " ++ base_tkn b ++ ", quote token = " ++ quote_tkn b ++ ".";
    "Prices are quoted in " ++ prices_u b ++ ".";
    "Order book amounts are quoted in " ++ ob_liquidity_u b ++ "." ].

(** 561-581 *)
Definition data_tokenamount_chart (b : book) : dict :=
  [("x", Vec (b_src b)); ("src", Vec (b_src b)); ("y", Vec (b_trg b)); ("trg", Vec (b_trg b)); ("src_unit", Text (b_srctkn b)); ("trg_unit", Text (b_trgtkn b))].
Definition frame_tokenamount_chart (b : book) : frame :=
  to_frame [("src_amt [" ++ b_srctkn b ++ "]", b_src b); ("trg_amt [" ++ b_trgtkn b ++ "]", b_trg b)].
(** 625-655 *)
Definition data_price_chart (b : book) (reverse : bool) : dict :=
  let x1 := b_src b in let y1 := pricesr b reverse in let x2 := midpoints x1 in let y2 := marg_pricesr b reverse in
  [("x1", Vec x1); ("size1", Vec x1); ("y1", Vec y1); ("price1_eff", Vec y1); ("x2", Vec x2); ("size2", Vec x2); ("y2", Vec y2); ("price2_marg", Vec y2);
   ("ammm_buysell_src", Text (amm_buysell_src b)); ("size_unit", Text (b_srctkn b)); ("prices_unit", Text (pricesr_u b reverse))].
Definition frame_price_chart (b : book) (reverse : bool) : frame :=
  to_frame [("size1 [" ++ b_srctkn b ++ "]", b_src b); ("price1_eff [" ++ pricesr_u b reverse ++ "]", pricesr b reverse);
            ("size2 [" ++ b_srctkn b ++ "]", midpoints (b_src b)); ("price2_marg [" ++ pricesr_u b reverse ++ "]", marg_pricesr b reverse)].
(** 689-710 *)
Definition data_orderbook_chart (b : book) : dict :=
  let liq := ob_liquidity b in let prc := ob_prices b in
  [("liquidity", Vec liq); ("x", Vec liq); ("prices", Vec prc); ("y", Vec prc); ("liquidity_unit", Text (ob_liquidity_u b)); ("prices_unit", Text (prices_u b))].
Definition frame_orderbook_chart (b : book) : frame :=
  to_frame [("Price [" ++ prices_u b ++ "]", ob_prices b); ("Liquidity [" ++ ob_liquidity_u b ++ "]", ob_liquidity b)].
(** 666-672: what plot_orderbook_chart draws, horizontal and vertical values *)
Fixpoint at_key (d : dict) (k : string) : res cell :=
  match d with [] => Raise KeyError | (k', c) :: d => if String.eqb k' k then Ret c else at_key d k end.
Definition drawn_orderbook_chart (b : book) : res (cell * cell) :=
  let d := data_orderbook_chart b in
  let* x := at_key d "prices" in
  let* y := at_key d "liquidity" in
  Ret (x, y).
