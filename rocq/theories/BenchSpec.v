(** Vocabulary of BenchProps.v. *)
From Coq Require Import Reals ZArith QArith Qreals.
From Verif Require Import TradeModel TradeSpec BenchModel.
Local Open Scope R_scope.

(** [e] is a relative precision at which the price [v] can be stored: at least 2^-47 (the stored
    rate has 48 significant bits) and no finer than the step 2^-48 of its square root *)
Definition resolved (e : R) (v : Q) : Prop := / IZR (2 ^ 47) <= e /\ 1 <= e * (sqrt (Q2R v) * IZR (2 ^ 48)).

(** the two quotes of an order with [y] tokens left, end price [l]² and current price [m]²: tokens
    paid out for [x], and tokens to be paid for [x] *)
Definition curve_out (x y l m : R) : R := m * m * x * y / (m * (m - l) * x + y).
Definition curve_in (x y l m : R) : R := x * y / (m * (l - m) * x + m * m * y).

(** an order with whole liquidity [y] *)
Definition whole (y : Z) (lo hi mg : Q) : text_order := mkText (inject_Z y) lo hi mg.
(** an order with some liquidity and its current price between its two ends *)
Definition sane (o : text_order) : Prop := (0 <= t_liq o)%Q /\ (t_lo o <= t_mg o)%Q /\ (t_mg o <= t_hi o)%Q.
(** an encoded order whose price does not change *)
Definition fixed (o : order) : Prop := nonneg_order o /\ denoted (o_A o) = 0%Z.
