(** Model of carbon/helpers/simulation.py (run_sim): a strategy, or several, traded along a
    price path.

    Floats are real numbers. A path is the list of its prices in the order of its dates (the
    index of the pandas series is taken to be increasing). The risk and the cash token of a
    strategy are taken to be two different names that CarbonPair leaves as they are, so that the
    first is the base and the second the quote token of the pair. A single strategy is a list
    of one (lines 51-52). Plotting (lines 136-end) and printing are left out. *)
From Coq Require Import Reals Bool String List Arith.
From Verif Require Import CurveModel OrderModel StrategyModel.
Import ListNotations.
Local Open Scope R_scope.

Fixpoint mapm {A B} (f : A -> res B) (l : list A) : res (list B) :=
  match l with [] => Ret [] | a :: l => let* b := f a in let* r := mapm f l in Ret (b :: r) end.

(** carbon/pair.py:394-409: convert_price for a token of the pair *)
Definition to_curve (base : bool) (p : R) : res R := if base then rdiv 1 p else Ret p.
Definition oto_curve (base : bool) (p : option R) : res (option R) := match p with None => Ret None | Some p => let* q := to_curve base p in Ret (Some q) end.
(** carbon/simulators/carbon_simulator.py:174-273 with both prices given, in curve numeraire;
    the order is only needed as the curve the user interface makes of it (548-549, 1155).
    Lines 542-547 and 1090-1112 ask for its marginal price. *)
Definition sell_order (base : bool) (amt : option R) (lo hi : R) (pm yint : option R) : res curve :=
  let amt := match amt with Some a => a | None => 0 end in
  match yint, pm with
  | Some _, Some _ => Raise ValueError
  | _, _ =>
    let '(lo, hi) := if rle lo hi then (lo, hi) else (hi, lo) in
    let* yi := match pm, yint with
               | Some _, _ => Ret None
               | None, Some z => if rlt z amt then Raise ValueError else Ret (Some z)
               | None, None => Ret (Some amt)
               end in
    let* o := make_order (mkIn None None yi (Some hi) (Some lo) pm (Some amt) None false false) in
    let* c := from_order base o in
    let* _ := p_marg c in
    Ret c
  end.
(** the two curves of a strategy: the one that sells the risk token ("BID", lines 86) and the
    one that sells the cash token ("ASK", line 87); each is linked to the other
    (carbon_simulator.py:1155-1157) *)
Record book := mkBook { b_rsk : curve; b_csh : curve }.
(** carbon_simulator.py:438-560 called with the keywords of helpers/strategym.py:391-408 *)
Definition add_strategy (s : strategy) : res book :=
  let* psm := oto_curve true (psell_marginal s) in
  let* pss := to_curve true (p_sell_a s) in
  let* pse := to_curve true (p_sell_b s) in
  let* a := sell_order true (amt_rsk s) pse pss psm (y_int_sell s) in
  let* b := sell_order false (amt_csh s) (p_buy_b s) (p_buy_a s) (pbuy_marginal s) (y_int_buy s) in
  Ret (mkBook a b).
(** simulation.py:72-75: errors are caught by add_strategy, which reports failure *)
Definition enter (s : strategy) : res book := match add_strategy s with Ret b => Ret b | Raise _ => Raise AssertionError end.

(** line 97 for one of the curves; an exception ends the simulation *)
Definition trade_curve (me other : curve) (spot : R) : res (curve * curve) :=
  let '(l, r) := tradeto (mkLinked me (Some other)) spot true in
  match r with
  | Raise e => Raise e
  | Ret _ => match l_other l with Some o => Ret (l_me l, o) | None => Raise AttributeError end
  end.
(** lines 96-97 for one strategy: its risk curve has the lower id *)
Definition trade_book (spot : R) (b : book) : res book :=
  let* r := trade_curve (b_rsk b) (b_csh b) spot in
  let* q := trade_curve (snd r) (fst r) spot in
  Ret (mkBook (snd q) (fst q)).
(** lines 98-102: what is recorded *)
Definition total (l : list R) : R := fold_right Rplus 0 l.
Record point := mkPoint { pt_rsk : R; pt_csh : R; pt_mbuy : list (option R); pt_msell : list (option R) }.
Definition observe (bs : list book) : res point :=
  let* mb := mapm p_marg (map b_rsk bs) in
  let* ms := mapm p_marg (map b_csh bs) in
  Ret (mkPoint (total (map (fun b => c_y (b_rsk b)) bs)) (total (map (fun b => c_y (b_csh b)) bs)) mb ms).
(** lines 95-105 *)
Fixpoint follow (bs : list book) (path : list R) : res (list point) :=
  match path with
  | [] => Ret []
  | spot :: path =>
    let* bs := mapm (trade_book spot) bs in
    let* pt := observe bs in
    let* rest := follow bs path in
    Ret (pt :: rest)
  end.
(** tuple(zip(...)), lines 107-108: cut to the shortest row *)
Definition shortest (rows : list (list (option R))) : nat := match rows with [] => 0 | r :: rows => fold_right (fun r n => Nat.min (length r) n) (length r) rows end.
Definition splice (rows : list (list (option R))) : list (list (option R)) := map (fun i => map (fun r => nth i r None) rows) (seq 0 (shortest rows)).
Fixpoint zip_with (f : R -> R -> R) (l m : list R) : list R := match l, m with a :: l, b :: m => f a b :: zip_with f l m | _, _ => [] end.

(** lines 26-35 *)
Record simresults := mkResults { r_strat : list strategy; spot_r : list R; rskamt_r : list R; cshamt_r : list R; value_r : list R; hodl_r : list R;
  margpbuy_r : list (list (option R)); margpsell_r : list (list (option R)) }.
(** lines 58-62: prices that are not positive are only removed if the first one is not positive *)
Definition usable (path : list R) : res (list R) :=
  match path with
  | [] => Raise ValueError
  | p :: _ => match filter (fun x => rlt 0 x) path with [] => Raise ValueError | q => Ret (if rlt 0 p then path else q) end
  end.
(** lines 38-123 *)
Definition run_sim (strat : list strategy) (path : list R) (shift : option R) : res simresults :=
  let shift := match shift with Some s => s | None => 0 end in
  match strat with
  | [] => Raise IndexError
  | s0 :: _ =>
    if negb (forallb (fun s => String.eqb (slashpair s) (slashpair s0)) strat) then Raise ValueError else
    let* path := usable path in
    let spot := hd 0 path in
    let* strat := mapm (fun s => rescale_strat s (spot * (1 + shift)) 100 false) strat in
    let* bs := mapm enter strat in
    let* pt := observe bs in
    let* rest := follow bs (tl path) in
    let pts := pt :: rest in
    let rsk := map pt_rsk pts in let csh := map pt_csh pts in
    Ret (mkResults strat path rsk csh (zip_with Rplus (zip_with Rmult rsk path) csh) (map (fun p => pt_rsk pt * p + pt_csh pt) path)
           (splice (map pt_mbuy pts)) (splice (map pt_msell pts)))
  end.
