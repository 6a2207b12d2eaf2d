(** Model of the remaining parts of carbon/pair.py (decimals, from_slashpair), of
    add_fromsdk of carbon/simulators/carbon_simulator.py, and of the grouping of curves and the
    reader of single orders of carbon/carbon_order_ui.py.

    Floats are real numbers, as in CurveModel.v, OrderModel.v and UiModel.v. *)
From Coq Require Import Reals ZArith List Bool String Ascii.
From Verif Require Import PairModel CurveModel OrderModel UiModel.
From Verif Require SdkModel SimModel.
Import ListNotations.
Local Open Scope R_scope.

(** ** decimals of a pair (carbon/pair.py) *)
(** what the attributes _tknb_decimals and _tknq_decimals can hold besides None: a number, or the
    whole tuple that from_slashpair puts there (line 231) *)
Inductive dval := DInt (z : Z) | DTup (a b : Z).
(** a pair with the two attributes; those in [d_pair] are not used *)
Record dpair := mkDp { d_pair : pair; d_b : option dval; d_q : option dval }.
(** a pair with the decimals the constructor gave to it (80-85) *)
Definition dpair_of (p : pair) : dpair := mkDp p (option_map DInt (tknb_decimals p)) (option_map DInt (tknq_decimals p)).
(** 88-100; every call sets both attributes *)
Definition set_decimals (p : dpair) (db dq : option dval) (dct : option (list (string * Z))) : dpair :=
  let dct := match dct with Some d => d | None => [] end in
  let look t := option_map DInt (SdkModel.dget t dct) in
  mkDp (d_pair p) (match db with Some _ => db | None => look (tknb (d_pair p)) end) (match dq with Some _ => dq | None => look (tknq (d_pair p)) end).
(** 102-109 *)
Definition DECDICT : list (string * Z) := [("ETH", 18%Z); ("USDC", 6%Z); ("WBTC", 8%Z); ("NEAR", 0%Z); ("SHIB", 18%Z); ("DAI", 18%Z)]%string.
(** 122-128: every exception becomes None *)
Definition decdiffqb (p : dpair) : option dval :=
  match d_q p, d_b p with Some (DInt q), Some (DInt b) => Some (DInt (q - b)) | _, _ => None end.
(** 111-121: a dict display, a repeated key keeps its place and gets the last value *)
Definition decimals (p : dpair) : list (string * option dval) :=
  fold_left (fun d kv => SdkModel.dset (fst kv) (snd kv) d)
    [(tknb (d_pair p), d_b p); (tknq (d_pair p), d_q p); ("_TKNB"%string, d_b p); ("_TKNQ"%string, d_q p); ("_DIFFQB"%string, decdiffqb p)] [].
(** 130-133 *)
Definition has_decimals (p : dpair) : bool := match d_b p, d_q p with Some _, Some _ => true | _, _ => false end.
(** 216-232; None is an exception *)
Definition from_slashpair (s : string) (decs : option (Z * Z)) : option dpair :=
  match split_slash (upper s) with
  | [b; q] =>
    match mk_pair (SlashStr (SdkModel.strip b ++ "/" ++ SdkModel.strip q)) None None false with
    | Some p => Some (set_decimals (dpair_of p) (option_map (fun ab => DTup (fst ab) (snd ab)) decs) None None)
    | None => None
    end
  | _ => None
  end.
(** 260-265 *)
Definition price_convention (p : pair) : string := (tknq p ++ " per " ++ tknb p)%string.

(** ** adding a strategy of the SDK to the simulator (carbon_simulator.py) *)
(** an entry of self.orders; the object keeps its own id, that of the linked order and the id of
    the strategy (228-244) *)
Record sorder := mkSo { so_tkn : string; so_pair : pair; so_order : order; so_id : nat; so_lid : nat; so_cid : string }.
Record sim := mkSim { s_next : nat; s_orders : list (nat * sorder) }.
Definition put (s : sim) (o : sorder) : sim := mkSim (s_next s) (SimModel.dset Nat.eqb (so_id o) o (s_orders s)).
(** 174-273 with amount, capacity and both prices given and without a marginal price *)
Definition sell_tkn (s : sim) (tkn : string) (amt lo hi : R) (p : pair) (id1 id2 : nat) (yint : R) (cid : string) : sim * res sorder :=
  let '(lo, hi) := if rle lo hi then (lo, hi) else (hi, lo) in
  if rlt yint amt then (s, Raise ValueError) else
  match make_order (mkIn None None (Some yint) (Some hi) (Some lo) None (Some amt) None false false) with
  | Raise e => (s, Raise e)
  | Ret o => let so := mkSo tkn p o id1 id2 cid in (put s so, Ret so)
  end.
(** carbon/pair.py:394-409 on real numbers, for a token of the pair *)
Definition convert_priceR (p : pair) (x : R) (tkn : string) : res R := if has_quotetoken p tkn then Ret x else rdiv 1 x.
(** 1081-1112 and 545-549: the order as the user interface shows it; the constructor of the curve
    copies the pair and checks the token (carbon_order_ui.py:81-86) *)
Definition shown (o : sorder) : res ui :=
  match mk_pair (SlashPair (so_pair o)) None None false with
  | None => Raise ValueError
  | Some p =>
    if negb (has_token p (upper (so_tkn o))) then Raise ValueError else
    let* c := from_order (has_basetoken p (upper (so_tkn o))) (so_order o) in
    let* _ := p_marg c in
    Ret (mkUi p (upper (so_tkn o)) c)
  end.
(** 438-560 for these arguments. [Raise] is the exception, which is raised or returned as
    {"success": False, ...} depending on raiseonerror; the result is the curves by the id of
    the order, each with the curve it is linked to (547-553) *)
Definition add_strategyR (s : sim) (tkn : string) (p : pair) (amt_sell yint_sell ps_start ps_end amt_buy yint_buy pb_start pb_end : R) (cid : string)
    : sim * res (list (nat * (ui * ui))) :=
  match other p tkn with
  | None => (s, Raise ValueError)
  | Some tkn2 =>
    let id1 := s_next s in let id2 := S (s_next s) in
    let s := mkSim (S (S (s_next s))) (s_orders s) in
    match (let* a := convert_priceR p ps_start tkn in let* b := convert_priceR p ps_end tkn in
           let* c := convert_priceR p pb_start tkn2 in let* d := convert_priceR p pb_end tkn2 in Ret (a, b, c, d)) with
    | Raise e => (s, Raise e)
    | Ret (pss, pse, pbs, pbe) =>
      match sell_tkn s tkn amt_sell pse pss p id1 id2 yint_sell cid with
      | (s, Raise e) => (s, Raise e)
      | (s, Ret o1) =>
        match sell_tkn s tkn2 amt_buy pbe pbs p id2 id1 yint_buy cid with
        | (s, Raise e) => (s, Raise e)
        | (s, Ret o2) => (s, let* u1 := shown o1 in let* u2 := shown o2 in Ret [(id1, (u1, u2)); (id2, (u2, u1))])
        end
      end
    end
  end.
(** 415-436: [id] is the entry "id" of the dict, which is handed on as it is; what is raised
    outside add_strategy is raised whatever raiseonerror says *)
Definition add_fromsdk (tokens : SdkModel.container) (s : sim) (k : sdk_strategy) (id : string) (nsd : option Z) : sim * res (list (nat * (ui * ui))) :=
  match (let* bs := from_SDK tokens k nsd in let '(buy, sell) := bs in
         let* a := pa (u_curve sell) in let* b := pb (u_curve sell) in let* c := pa (u_curve buy) in let* d := pb (u_curve buy) in Ret (buy, sell, a, b, c, d)) with
  | Raise e => (s, Raise e)
  | Ret (buy, sell, a, b, c, d) =>
    add_strategyR s (u_tkn sell) (u_pair sell) (c_y (u_curve sell)) (c_yint (u_curve sell)) a b (c_y (u_curve buy)) (c_yint (u_curve buy)) c d id
  end.

(** ** grouping and linking of curves (carbon_order_ui.py) *)
(** 338-350 *)
Definition bidask (u : ui) : string := if String.eqb (u_tkn u) (tknb (u_pair u)) then "BID"%string else "ASK"%string.
(** 1093-1121; the pairs are a set: here in the order of their first curve *)
Fixpoint once (l : list string) : list string := match l with [] => [] | a :: r => a :: filter (fun b => negb (String.eqb a b)) (once r) end.
Record group := mkGroup { g_all : list ui; g_ask : list ui; g_bid : list ui }.
Definition curves_by_pair_bidask {I} (curves : list (I * ui)) : list (string * group) :=
  let us := map snd curves in
  let on p u := String.eqb (slashpair_of (u_pair u)) p in
  map (fun p => (p, mkGroup (filter (on p) us) (filter (fun u => on p u && String.eqb (bidask u) "BID") us) (filter (fun u => on p u && String.eqb (bidask u) "ASK") us)))
    (once (map (fun u => slashpair_of (u_pair u)) us)).
(** 123-140: an object with a link; a second link is refused *)
Definition set_linked {A} (linked : option A) (new : A) : res (option A) := match linked with Some _ => Raise ValueError | None => Ret (Some new) end.
(** 1199-1216: a number, or a dict of type BigNumber with its hexadecimal digits *)
Inductive bn := BInt (z : Z) | BHex (s : string).
Definition bn2int (b : bn) : res Z := match b with BInt z => Ret z | BHex s => match SdkModel.int16 s with Some z => Ret z | None => Raise ValueError end end.
Fixpoint bn2intd (d : list (string * bn)) : res (list (string * Z)) :=
  match d with [] => Ret [] | (k, v) :: d => let* z := bn2int v in let* r := bn2intd d in Ret ((k, z) :: r) end.
(** 265-288: the dict itself or its entry "encoded". Line 288 calls from_BSy (142-164) with the
    argument z, which that function does not have, and without yint, which it needs. *)
Definition from_SDK0 (d : list (string * bn)) (encoded : option (list (string * bn))) (dec : Z) (sx : option nat) : res ui :=
  let d := match encoded with Some e => e | None => d end in
  let* d := bn2intd d in
  let look k := match SdkModel.dget k d with Some z => Ret z | None => Raise KeyError end in
  let* _ := look "A"%string in let* _ := look "B"%string in let* _ := look "y"%string in let* _ := look "z"%string in
  Raise TypeError.
