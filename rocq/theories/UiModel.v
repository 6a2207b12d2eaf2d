(** Model of the parts of carbon/carbon_order_ui.py that read strategies of the SDK and write
    curves for the contracts, and of calc_liquidity_approx of carbon/simulators/sim_analytics.py.

    Floats are real numbers, as in CurveModel.v. *)
From Coq Require Import Reals ZArith List Bool String.
From Verif Require Import PairModel CurveModel.
From Verif Require SdkModel.
Import ListNotations.
Local Open Scope R_scope.

(** a CarbonOrderUI object with its pair and its token (the rest is in [curve]) *)
Record ui := mkUi { u_pair : pair; u_tkn : string; u_curve : curve }.

(** ** rounding (1219-1236) *)
(** the integer part of log10; Python's round to the nearest integer, ties to the even one *)
Definition magnitude (x : R) : Z := Int_part (ln x / ln 10).
Definition round0 (x : R) : Z :=
  let f := Int_part x in
  if rlt (x - IZR f) (/ 2) then f else if rlt (/ 2) (x - IZR f) then (f + 1)%Z else if Z.even f then f else (f + 1)%Z.
(** round(x, n), for any sign of [n] *)
Definition round_to (x : R) (n : Z) : R := IZR (round0 (x * powerRZ 10 n)) / powerRZ 10 n.
(** zero and negative numbers have no logarithm: they are returned as they are *)
Definition roundsd (x : R) (nsd : option Z) : R :=
  match nsd with
  | None => x
  | Some n =>
    if rle x 0 then x else
    let m := magnitude x in
    if Z.leb m n then round_to x (n - m - 1)
    else powerRZ 10 (m - n) * IZR (round0 (x / powerRZ 10 (m - n)))
  end.

(** ** strategies of the SDK (275-327) *)
(** the entries of the dict that are read; bn2int is applied already (1199-1207) *)
Record sdk_strategy := mkSdk {
  k_buyLow : R; k_buyHigh : R; k_buyBudget : R; k_sellLow : R; k_sellHigh : R; k_sellBudget : R;
  k_base : string; k_quote : string; k_token0 : string; k_token1 : string;
  k_y0 : Z; k_z0 : Z; k_y1 : Z; k_z1 : Z
}.
(** {a, b} == {c, d} as sets *)
Definition set2_eqb (a b c d : string) : bool :=
  let mem x y z := String.eqb x y || String.eqb x z in mem a c d && mem b c d && mem c a b && mem d a b.
(** 306-308, 310-312: the token is looked up by ticker, the argument is the address *)
Definition sdk_name (tokens : SdkModel.container) (addr dflt : string) : res string :=
  let* t := SdkModel.byticker tokens addr (Some false) false in
  Ret (match t with Some t => SdkModel.t_T t | None => dflt end).
Definition ratio (y z : Z) : res R := if Z.eqb z 0 then Raise ZeroDivision else Ret (IZR y / IZR z).
(** 165-211 together with 81-86: the constructor of the curve copies the pair and checks the token *)
Definition ui_from_prices (p : pair) (tkn : string) (pa pb yint y : R) : res ui :=
  match mk_pair (SlashPair p) None None false with
  | None => Raise ValueError
  | Some p =>
    let* c := from_prices (has_basetoken p tkn) pa pb yint y in
    if has_token p (upper tkn) then Ret (mkUi p (upper tkn) c) else Raise ValueError
  end.
(** the two curves are linked with each other (324-325); ids are not modelled *)
Definition from_SDK (tokens : SdkModel.container) (k : sdk_strategy) (nsd : option Z) : res (ui * ui) :=
  if negb (set2_eqb (k_base k) (k_quote k) (k_token0 k) (k_token1 k)) then Raise ValueError else
  let '(yb, zb, yq, zq) := if String.eqb (k_base k) (k_token0 k) then (k_y0 k, k_z0 k, k_y1 k, k_z1 k) else (k_y1 k, k_z1 k, k_y0 k, k_z0 k) in
  let* tknq := sdk_name tokens (k_quote k) "TKNQ" in
  let* tknql := ratio yq zq in
  let* tknb := sdk_name tokens (k_base k) "TKNB" in
  let* tknbl := ratio yb zb in
  match mk_pair NoSlash (Some tknb) (Some tknq) false with
  | None => Raise ValueError
  | Some p =>
    let* sell := ui_from_prices p tknb (roundsd (k_sellLow k) nsd) (roundsd (k_sellHigh k) nsd) (roundsd (k_sellBudget k) nsd) (roundsd (k_sellBudget k) nsd * tknbl) in
    let* buy := ui_from_prices p tknq (roundsd (k_buyHigh k) nsd) (roundsd (k_buyLow k) nsd) (roundsd (k_buyBudget k) nsd) (roundsd (k_buyBudget k) nsd * tknql) in
    Ret (buy, sell)
  end.

(** ** parameters for the contract (1152-1196) *)
Record yzabs := mkYz { z_y : R; z_z : R; z_A : Z; z_B : Z; z_S : Z }.
(** int(): truncation *)
Definition truncR (x : R) : Z := if rlt x 0 then (- Int_part (- x))%Z else Int_part x.
(** [sx] is not negative (2**sx is an integer); pair.decimals by token, the base token first
    (pair.py:112-121): equal tokens are not modelled *)
Definition yzABS (u : ui) (sx : nat) : res yzabs :=
  match tknb_decimals (u_pair u), tknq_decimals (u_pair u) with
  | Some db, Some dq =>
    let c := u_curve u in
    let decy := if c_base c then db else dq in
    let decx := if c_base c then dq else db in
    let f := Rpower 10 (IZR (decy - decx) / 2) in
    Ret (mkYz (c_y c * powerRZ 10 decy) (c_yint c * powerRZ 10 decy) (truncR (c_S c * f * 2 ^ sx)) (truncR (c_B c * f * 2 ^ sx)) (2 ^ Z.of_nat sx))
  | _, _ => Raise ValueError
  end.
(** 1262-1270 *)
Definition A_unscaled (d : yzabs) : R := IZR (z_A d) / IZR (z_S d).
Definition B_unscaled (d : yzabs) : R := IZR (z_B d) / IZR (z_S d).

(** ** sim_analytics.py:471-531 *)
(** zip(prices, prices[1:]) *)
Fixpoint cells (ps : list R) : list (R * R) := match ps with a :: ((b :: _) as r) => (a, b) :: cells r | _ => [] end.
Fixpoint sum_res (l : list (res R)) : res R := match l with [] => Ret 0 | x :: r => let* a := x in let* b := sum_res r in Ret (a + b) end.
Fixpoint all_res {A} (l : list (res A)) : res (list A) := match l with [] => Ret [] | x :: r => let* a := x in let* b := all_res r in Ret (a :: b) end.
(** 507-514; two equal prices divide by zero (with numpy floats: inf or nan and a warning) *)
Definition cell_liq (tkn : string) (us : list ui) (c : R * R) : res R :=
  sum_res (map (fun u => let* l := liquidity_approx (u_curve u) (fst c) (snd c) (Some (has_basetoken (u_pair u) tkn)) false in rdiv l (snd c - fst c)) us).
Definition purge (purgezero : bool) (x : R) : option R := if purgezero && req x 0 then None else Some x.
Record liqs := mkLiqs { q_bid : list (option R); q_ask : list (option R); q_prices : list R; q_tkn : string }.
Definition calc_liquidity_approx (us : list ui) (prices : list R) (p : pair) (reverse purgezero : bool) : res liqs :=
  let sel t := filter (fun u => String.eqb (pair_iso (u_pair u)) (pair_iso p) && String.eqb (u_tkn u) t) us in
  let tkn := if reverse then tknq p else tknb p in
  let* ask := all_res (map (cell_liq tkn (sel (tknb p))) (cells prices)) in
  let* bid := all_res (map (cell_liq tkn (sel (tknq p))) (cells prices)) in
  Ret (mkLiqs (map (purge purgezero) bid) (map (purge purgezero) ask) (map (fun c => / 2 * (fst c + snd c)) (cells prices)) tkn).
