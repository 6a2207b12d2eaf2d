(** Specification vocabulary for the optimizer (C91-C100). *)
From Coq Require Import Reals List String ZArith Permutation.
From Verif Require Import PairSpec CurveModel CpcModel CpcSpec OptModel.
Import ListNotations.
Local Open Scope R_scope.

(** a trade the pool [c] can be part of (seen from the pool: positive amounts are paid in):
    it pays out no more than it has, and its reserves do not fall below the curve *)
Definition allowed (c : cpc) (dx dy : R) : Prop :=
  - x_act c <= dx /\ - y_act c <= dy /\ 0 < x c + dx /\ k c <= (x c + dx) * (y c + dy).

(** a pool in operation between two different tokens *)
Definition proper (c : cpc) : Prop := pool_ok c /\ tknx c <> tkny c /\ slash_free (tknx c) /\ slash_free (tkny c).

(** one trade on each of a list of pools, and what the pools receive of a token in total *)
Definition flow (t : string) (e : cpc * R * R) : R :=
  let '(c, dx, dy) := e in (if string_dec (tknx c) t then dx else 0) + (if string_dec (tkny c) t then dy else 0).
Fixpoint net (l : list (cpc * R * R)) (t : string) : R := match l with [] => 0 | e :: l => flow t e + net l t end.
Definition all_allowed (l : list (cpc * R * R)) : Prop := Forall (fun e => allowed (fst (fst e)) (snd (fst e)) (snd e)) l.
Definition pools (l : list (cpc * R * R)) : list cpc := map (fun e => fst (fst e)) l.

(** a pool between the tokens [a] and [b], in either orientation, and what it holds of one *)
Definition on_pair (a b : string) (c : cpc) : Prop := (tknx c = a /\ tkny c = b) \/ (tknx c = b /\ tkny c = a).
Definition holding (c : cpc) (t : string) : R := if string_dec (tknx c) t then x_act c else y_act c.
(** its price in units of [b] per [a] *)
Definition price_in (a : string) (c : cpc) : R := if string_dec (tknx c) a then y c / x c else x c / y c.

(** the trades [best] on the pools need nothing of [o] and give as much of [t] as possible: no
    trades of the same pools that need nothing of [o] leave less of [t] in the pools *)
Definition optimal (t o : string) (best : list (cpc * R * R)) : Prop :=
  all_allowed best /\ net best o = 0 /\
  forall l, pools l = pools best -> all_allowed l -> net l o <= 0 -> net best t <= net l t.

(** the value of amounts of tokens at given prices *)
Definition worth (price : string -> R) (tokens : list string) (amount : string -> R) : R :=
  fold_right (fun t s => price t * amount t + s) 0 tokens.

(** a pool with [s] times the reserves *)
Definition enlarge (s : R) (c : cpc) : cpc := mkCpc (s * s * k c) (s * x c) (s * x_act c) (s * y_act c) (tknx c) (tkny c).

(** the arbitrage with the result in the token [t]: no other token is needed in total, and no
    trades of the same pools that need no other token leave less of [t] in the pools *)
Definition arbitrage (t : string) (best : list (cpc * R * R)) : Prop :=
  all_allowed best /\ (forall u, u <> t -> net best u = 0) /\
  forall l, pools l = pools best -> all_allowed l -> (forall u, u <> t -> net l u <= 0) -> net best t <= net l t.

(** the tokens of the optimisation variable in the arguments of a constraint *)
Definition marked (data : list (string * sfcval)) (t : string) : Prop := exists w, In (t, Text w) data /\ (w = "AMMPays" \/ w = "AMMReceives" \/ w = "OptimizationVar")%string.
(** an amount that trade instructions treat as nothing *)
Definition tiny (a : R) : Prop := Rabs a < / 10 ^ 8.

(** the trade is the best one for that pool at the prices [P] (the pool pays out as much value as it can) *)
Definition marginal (P : string -> R) (e : cpc * R * R) : Prop :=
  let '(c, dx, dy) := e in allowed c dx dy /\
  forall dx' dy', allowed c dx' dy' -> P (tknx c) * dx + P (tkny c) * dy <= P (tknx c) * dx' + P (tkny c) * dy'.
(** positive prices in units of [target], those of [ts] being [v] *)
Definition prices (target : string) (ts : list string) (v : list R) (P : string -> R) : Prop :=
  (forall t, 0 < P t) /\ (forall t, ~ In t ts -> P t = 1) /\ P target = 1 /\ map P ts = v.
(** the pool [c'] is [c] after the trade [dx], [dy], and rests at the price [pr] as far as it has tokens to sell *)
Definition settled (pr : R) (c : cpc) (dx dy : R) (c' : cpc) : Prop :=
  pool_ok c' /\ k c' = k c /\ tknx c' = tknx c /\ tkny c' = tkny c /\ x c' = x c + dx /\ y c' = y c + dy /\ x_act c' = x_act c + dx /\ y_act c' = y_act c + dy /\
  (0 < x_act c' -> pr <= y c' / x c') /\ (0 < y_act c' -> y c' / x c' <= pr).
(** the instruction is to make that trade: pay in what the pool receives, take out what it gives *)
Definition instructs (i : instruction) (e : cpc * R * R) : Prop :=
  let '(c, dx, dy) := e in
  (0 < dx /\ dy < 0 /\ tknin i = tknx c /\ amtin i = dx /\ tknout i = tkny c /\ amtout i = dy) \/
  (dx < 0 /\ 0 < dy /\ tknin i = tkny c /\ amtin i = dy /\ tknout i = tknx c /\ amtout i = dx).

(** the successive logarithms of the prices [q] and steps [d] of Newton's method for [f] *)
Definition newton_run (solve : list (list R) -> list R -> list R) (f : list R -> res (list R)) (q d : nat -> list R) : Prop :=
  forall i, exists w J, f (q i) = Ret w /\ jacobian f (q i) None = Ret J /\ d i = solve J (map Ropp w) /\ q (S i) = zipw Rplus (q i) (d i).
(** the parameters eps and maxiter, with 0 for the default *)
Definition tolerance (eps : option R) : R := match eps with Some e => if Req_EM_T e 0 then / 10 ^ 6 else e | None => / 10 ^ 6 end.
Definition rounds (maxiter : option Z) : nat := match maxiter with Some n => if Z.eq_dec n 0 then 50%nat else Z.to_nat n | None => 50%nat end.
(** a set enumerated in some order *)
Definition order (o : list string -> list string) : Prop := forall l, Permutation (o l) l.

(** the result [m] reports, for the prices [v] of the tokens other than the target, the totals of the best trades at these prices *)
Definition reports (m : margp) (cs : list cpc) (target : string) (v : list R) (P : string -> R) (best : list (cpc * R * R)) : Prop :=
  m_curves m = cs /\ m_target m = target /\ m_p m = v /\ NoDup (m_tokens m) /\
  (forall t, In t (m_tokens m) <-> t <> target /\ exists c, In c cs /\ (tknx c = t \/ tkny c = t)) /\
  prices target (m_tokens m) v P /\ pools best = cs /\ Forall (marginal P) best /\
  (forall t, dget (m_dtokens m) t = net best t) /\ m_dt m = map (net best) (m_tokens m) /\ m_value m = net best target.

(** a solution of the problem posed to the convex solver *)
Definition solves (sc : string -> R) (s : sfc) (cs : list cpc) (l : list entry) : Prop :=
  pools l = cs /\ nofees_feasible sc s l /\ forall l', pools l' = cs -> nofees_feasible sc s l' -> nofees_objective s l <= nofees_objective s l'.
