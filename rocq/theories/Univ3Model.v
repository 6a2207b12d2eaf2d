(** Model of the price and reserve calculations of carbon/tools/univ3calc.py.

    Python floats are real numbers; exceptions of the float operations (division by zero)
    are [None]. Token names, [info] and the address tables are not modelled. *)
From Coq Require Import ZArith Reals.
From Verif Require Import HelperModel.
Local Open Scope R_scope.

(** univ3calc.py:32-40, 59-80: the fields after construction. A fee outside the four
    accepted ones is an AssertionError (78): see [tickab] in HelperModel.v. *)
Record univ3 := mkUniv3 {
  sp96 : Z; tick : Z; liquidity : Z; fee_const : Z; tkn0dec : Z; tkn1dec : Z
}.

(** univ3calc.py:87-90 *)
Definition fee (u : univ3) : R := IZR (fee_const u) / 1000000.

(** univ3calc.py:113-117 [papb_raw]; 1.0001 is the exact decimal number *)
Definition tick_price (t : Z) : R := powerRZ (10001 / 10000) t.
Definition papb_raw (u : univ3) : option (R * R) :=
  match tickab (tick u) (fee_const u) with
  | Some (ta, tb) => Some (tick_price ta, tick_price tb)
  | None => None
  end.

(** univ3calc.py:132-136 [decf] *)
Definition decf (u : univ3) : R := powerRZ 10 (tkn0dec u - tkn1dec u).

(** univ3calc.py:119-124 [papb] *)
Definition papb (u : univ3) : option (R * R) :=
  match papb_raw u with
  | Some (par, pbr) => Some (par * decf u, pbr * decf u)
  | None => None
  end.

(** univ3calc.py:126-130 [papb_tkn0_per_tkn1] *)
Definition papb_inv (u : univ3) : option (R * R) :=
  match papb u with
  | Some (pa, pb) => Some (1 / pa, 1 / pb)
  | None => None
  end.

(** univ3calc.py:138-141 [_price_f] *)
Definition price_f (sp : R) : R := sp ^ 2 / 2 ^ 192.

(** univ3calc.py:143-147 [p] *)
Definition p (u : univ3) : R := price_f (IZR (sp96 u)) * decf u.

(** univ3calc.py:149-152 [price_tkn0_per_tkn1] *)
Definition p_inv (u : univ3) : option R :=
  if Req_EM_T (p u) 0 then None else Some (1 / p u).

(** univ3calc.py:158-161 [sp96_from_price]; [None] is the ValueError of math.sqrt *)
Definition sp96_from_price (price : R) : option R :=
  if Rlt_dec price 0 then None else Some (sqrt price * 2 ^ 96).

(** univ3calc.py:163-166 [L] and 168-182 [Lsquared], [k], [kbar] *)
Definition L (u : univ3) : R := IZR (liquidity u) / Rpower 10 (1 / 2 * IZR (tkn0dec u + tkn1dec u)).
Definition k (u : univ3) : R := L u ^ 2.
Definition kbar (u : univ3) : R := L u.

(** univ3calc.py:184-193 [tkn0reserve] *)
Definition tkn0reserve (u : univ3) : option R :=
  match papb u with
  | None => None
  | Some (_, pb) =>
    let sqrtPb := sqrt pb in
    let sqrtP := sqrt (p u) in
    if Req_EM_T (sqrtP * sqrtPb) 0 then None
    else Some (IZR (liquidity u) * (sqrtPb - sqrtP) / (sqrtP * sqrtPb) * decf u)
  end.

(** univ3calc.py:195-204 [tkn1reserve] *)
Definition tkn1reserve (u : univ3) : option R :=
  match papb u with
  | None => None
  | Some (pa, _) => Some (IZR (liquidity u) * (sqrt (p u) - sqrt pa) * decf u)
  end.

(** univ3calc.py:206-213 [tvl] *)
Definition tvl (u : univ3) (astkn0 : bool) : option R :=
  match tkn0reserve u, tkn1reserve u, p_inv u with
  | Some r0, Some r1, Some pi =>
    let tvl_tkn0 := r0 + r1 * pi in
    Some (if astkn0 then tvl_tkn0 else tvl_tkn0 * p u)
  | _, _, _ => None
  end.
