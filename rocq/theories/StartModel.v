(** Model of carbon/helpers/simulation.py (class StartConditions, lines 258-328): a price
    path and a strategy read from stored start conditions.

    Floats are real numbers; times are days after 2020-01-01 (rounding to nanoseconds is left
    out), so the period is the 366 days of 2020. The stored data is a dictionary of sequences
    of numbers ([float(x)] of each entry is the entry). Reading the file (264-268) is left out.
    Dividing the period by zero raises ZeroDivisionError. *)
From Coq Require Import Reals String List Arith.
From Verif Require Import CurveModel StrategyModel.
Import ListNotations.
Local Open Scope R_scope.

(** 259-262: [_d] is None or a dictionary *)
Definition rawdata := option (list (string * list R)).
Fixpoint get (d : list (string * list R)) (k : string) : res (list R) :=
  match d with [] => Raise KeyError | (k', l) :: d => if String.eqb k' k then Ret l else get d k end.
Definition entry (d : rawdata) (k : string) : res (list R) :=
  match d with None => Raise TypeError | Some d => get d k end.
(** 261-262 in days *)
Definition start_dt : R := 0.
Definition end_dt : R := 366.

(** 300-302 *)
Definition path_raw (d : rawdata) : res (list R) := entry d "filtered price chart".
(** 314-328; the Uniswap ranges (330-332) are left out *)
Definition carbon_order_weights (d : rawdata) : res (list R) := entry d "carbon order weights".
Definition carbon_ranges_raw (d : rawdata) : res (list R) := entry d "carbon order boundaries".
Definition carbon_prices (d : rawdata) : res (list R) := entry d "carbon starting prices".
Definition starting_portfolio_valuation (d : rawdata) : res R :=
  let* l := entry d "starting portfolio valuation" in match l with [] => Raise IndexError | v :: _ => Ret v end.
(** 288-298 *)
Definition num_points (d : rawdata) : res nat := let* p := path_raw d in Ret (length p).
Definition time_period : R := end_dt - start_dt.
Definition time_step (d : rawdata) : res R := let* n := num_points d in rdiv time_period (INR n - 1).
(** 309-312: one point more than the path has *)
Definition datetime (d : rawdata) : res (list R) :=
  let* dt := time_step d in
  let* n := num_points d in
  Ret (map (fun i => start_dt + INR i * dt) (seq 0 (n + 1))).
(** 304-307: zip stops with the shorter one *)
Definition path (d : rawdata) : res (list (R * R)) :=
  let* t := datetime d in
  let* p := path_raw d in
  Ret (combine t p).

(** 270-286; sequences of another length cannot be unpacked *)
Definition strategy_carbon (d : rawdata) : res strategy :=
  let* r := carbon_ranges_raw d in
  match r with
  | [p_sell_b; p_sell_a; p_buy_a; p_buy_b] =>
    let* m := carbon_prices d in
    match m with
    | [psell_marginal; pbuy_marginal] =>
      let* w := carbon_order_weights d in
      match w with
      | [w0; w1] =>
        let* v := starting_portfolio_valuation d in
        let* fctr := rdiv v (w0 + w1) in
        let* p := path_raw d in
        match p with
        | [] => Raise IndexError
        | p0 :: _ =>
          let* amt_rsk := rdiv (fctr * w0) p0 in
          Ret (construct p_sell_a p_sell_b p_buy_a p_buy_b (Some amt_rsk) (Some (fctr * w1)) (Some psell_marginal) (Some pbuy_marginal)
                 None None (Some "RSK"%string) (Some "CSH"%string) true None)
        end
      | _ => Raise ValueError
      end
    | _ => Raise ValueError
    end
  | _ => Raise ValueError
  end.
