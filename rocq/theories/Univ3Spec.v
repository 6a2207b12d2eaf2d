(** What a Uniswap v3 position is, independent of Univ3Model.v: a pool with liquidity
    [liq], raw square root price [s] (token wei 1 per token wei 0) and range bounds with
    square roots [sa], [sb]. *)
From Coq Require Import Reals.
Local Open Scope R_scope.

(** wei amounts held by the position inside its range *)
Definition real_wei0 (liq s sb : R) : R := liq * (1 / s - 1 / sb).
Definition real_wei1 (liq s sa : R) : R := liq * (s - sa).

(** wei amounts of the virtual constant product pool *)
Definition virtual_wei0 (liq s : R) : R := liq / s.
Definition virtual_wei1 (liq s : R) : R := liq * s.

(** an amount of wei in token units *)
Definition in_tokens (wei : R) (decimals : BinNums.Z) : R := wei / powerRZ 10 decimals.
