(** Model of carbon/routers/alpha_router_orig.py, the earlier version of the alpha router, which is
    kept beside the current one: it ranks the orders, looks for the first window of neighbours in the
    ranking that holds enough, and hands this window to the exact router.

    Decimals are real numbers. The pandas tables (lines 107-131, 229-261) are lists of rows; sorting
    is a function [rank] of the hypothetical amounts as in AlphaModel. use_floor_division is False.
    The number of orders is at least 1 (pandas windows of size 0 are not modelled). *)
From Coq Require Import Reals Bool List Arith.
From Verif Require Import CurveModel OrderModel ExactModel AlphaModel.
Import ListNotations.
Local Open Scope R_scope.

(** lines 124-127, 254-257: the window that ends at row [j]; the first windows are shorter *)
Definition window {A} (k j : nat) (l : list A) : list A := skipn (S j - k) (firstn (S j) l).
(** lines 126-129, 256-259: its sum, with 0 in place of the missing values of windows that are too short *)
Definition window_sum (k j : nat) (values : list R) : R := if Nat.ltb (S j) k then 0 else rsum (window k j values).
(** lines 132-133, 262-263: the first window with enough, None is the IndexError of an empty list *)
Definition first_window (k : nat) (ranked : list nat) (values : list R) (A : R) : option (list nat) :=
  option_map (fun j => window k j ranked) (find (fun j => rle A (window_sum k j values)) (seq 0 (length ranked))).
(** lines 135-145, 265-274, 276-295: the exact router on the orders of the window *)
Definition windowed (fuel infuel : nat) (os : list xorder) (ranked : list nat) (values : list R) (x : R) (by_target check : bool) (k : nat) : option (res (list action)) :=
  match first_window k ranked values (Rabs x) with
  | None => Some (Raise IndexError)
  | Some level => exact_match fuel infuel os x by_target check level false
  end.
(** lines 57-145 with 32-55. The balances of line 105 are in the order of the ranking, the other two
    columns of the table (lines 107-113) in the order of the book, so that row [i] of the table has the
    balance of the [i]-th order of the ranking *)
Definition legacy_by_target (fuel infuel : nat) (rank : ranking) (ords : list order) (x : R) (check : bool) (k : option nat) : option (res (list action)) :=
  match (let* os := rmap view ords in let* hs := rmap (fun o => hyp_target o x) ords in Ret (os, hs)) with
  | Raise e => Some (Raise e)
  | Ret (os, hs) =>
    let k := match k with Some k => k | None => 10%nat end in
    let ranked := rank (fun i => nth i hs 0) (indexes os) in
    let column := map (fun i => xo_y (getx os i)) ranked in
    windowed fuel infuel os ranked (map (fun i => nth i column 0) ranked) x true check k
  end.
(** lines 176-274 with 147-174 and 19-30; without a number of orders pandas refuses the window
    (lines 254-255) *)
Definition legacy_by_source (fuel infuel : nat) (rank : ranking) (ords : list order) (x : R) (check : bool) (k : option nat) : option (res (list action)) :=
  match (let* os := rmap view ords in let* hs := rmap (fun o => hyp_source o x) ords in
         let* vs := rmap (fun i => available_value (getx os i) (nth i hs 0) x) (indexes os) in Ret (os, hs, vs)) with
  | Raise e => Some (Raise e)
  | Ret (os, hs, vs) =>
    let ranked := rank (fun i => nth i hs 0) (indexes os) in
    match k with
    | None => Some (Raise ValueError)
    | Some k => windowed fuel infuel os ranked (map (fun i => nth i vs 0) ranked) x false check k
    end
  end.
