(** Specification vocabulary for simulations of strategies along a price path (C101-C107). *)
From Coq Require Import Reals List.
From Verif Require Import CurveModel CurveSpec StrategyModel RunModel.
Import ListNotations.
Local Open Scope R_scope.

Definition amount (a : option R) : R := match a with Some x => x | None => 0 end.
(** the ranges in which a strategy sells and buys the risk token *)
Definition sell_lo (s : strategy) : R := Rmin (p_sell_a s) (p_sell_b s).
Definition sell_hi (s : strategy) : R := Rmax (p_sell_a s) (p_sell_b s).
Definition buy_lo (s : strategy) : R := Rmin (p_buy_a s) (p_buy_b s).
Definition buy_hi (s : strategy) : R := Rmax (p_buy_a s) (p_buy_b s).
(** a strategy that can be entered: two proper ranges, amounts that are not negative, at most one
    of marginal price and capacity on each side, a marginal price inside the range (and not at
    the end where everything is sold), a capacity that is large enough *)
Definition sell_side (s : strategy) : Prop :=
  match psell_marginal s, y_int_sell s with
  | None, None => True | None, Some z => amount (amt_rsk s) <= z | Some m, None => sell_lo s <= m < sell_hi s | Some _, Some _ => False end.
Definition buy_side (s : strategy) : Prop :=
  match pbuy_marginal s, y_int_buy s with
  | None, None => True | None, Some z => amount (amt_csh s) <= z | Some m, None => buy_lo s < m <= buy_hi s | Some _, Some _ => False end.
Definition ready (s : strategy) : Prop :=
  0 < sell_lo s /\ sell_lo s < sell_hi s /\ 0 < buy_lo s /\ buy_lo s < buy_hi s /\ 0 <= amount (amt_rsk s) /\ 0 <= amount (amt_csh s) /\ sell_side s /\ buy_side s.
(** one that stays so when it is rescaled: its cash capacity would be multiplied, its cash not *)
Definition tradable (s : strategy) : Prop := ready s /\ (rescale s = true -> y_int_buy s = None).
(** no buying above the prices where selling starts *)
Definition separated (s : strategy) : Prop := buy_hi s <= sell_lo s.
(** the amounts of all strategies together *)
Definition all_rsk (l : list strategy) : R := fold_right (fun s t => amount (amt_rsk s) + t) 0 l.
Definition all_csh (l : list strategy) : R := fold_right (fun s t => amount (amt_csh s) + t) 0 l.
(** the two curves of a strategy after the spots of a path *)
Fixpoint after (b : book) (path : list R) : res book := match path with [] => Ret b | p :: path => let* b := trade_book p b in after b path end.
(** at the spot [p] less than 1e-10 tokens of a curve are on offer at the spot or better: selling
    more than that ends at a price beyond the spot *)
Definition cleared (p : R) (b : book) : Prop :=
  (forall e, / 10 ^ 10 <= e <= c_y (b_rsk b) -> p < price_at (b_rsk b) (c_y (b_rsk b) - e)) /\
  (forall e, / 10 ^ 10 <= e <= c_y (b_csh b) -> price_at (b_csh b) (c_y (b_csh b) - e) < p).
(** the highest price of a path *)
Definition peak (p : R) (path : list R) : R := fold_left Rmax path p.
(** and the lowest *)
Definition trough (p : R) (path : list R) : R := fold_left Rmin path p.
(** a strategy that cannot be entered: a marginal price together with a capacity, or a capacity
    below the amount *)
Definition refused (s : strategy) : Prop :=
  (psell_marginal s <> None /\ y_int_sell s <> None) \/ (pbuy_marginal s <> None /\ y_int_buy s <> None) \/
  (exists z, y_int_sell s = Some z /\ z < amount (amt_rsk s)) \/ (exists z, y_int_buy s = Some z /\ z < amount (amt_csh s)).
(** the arguments of a simulation: strategies on one pair, positive prices, and a shift above -100% *)
Definition simulable (strats : list strategy) (path : list R) (shift : option R) : Prop :=
  strats <> [] /\ (forall s s', In s strats -> In s' strats -> rsk s = rsk s' /\ csh s = csh s') /\ path <> [] /\ Forall (fun p => 0 < p) path /\ 0 < 1 + amount shift /\ Forall tradable strats.
(** the strategy [s'] is [s] with prices multiplied by [f]; without cash it gets a token amount *)
Definition moved (f : R) (s s' : strategy) : Prop :=
  p_sell_a s' = p_sell_a s * f /\ p_sell_b s' = p_sell_b s * f /\ p_buy_a s' = p_buy_a s * f /\ p_buy_b s' = p_buy_b s * f /\ amt_rsk s' = amt_rsk s /\
  amt_csh s' = (match amt_csh s with Some c => Some (if Req_EM_T c 0 then (if rescale s then / 10 ^ 10 else 0) else c) | None => None end).
(** what the holdings gain through price changes alone *)
Fixpoint gains (amounts path : list R) : R := match amounts, path with a :: amounts, p :: ((q :: _) as path) => a * (q - p) + gains amounts path | _, _ => 0 end.
