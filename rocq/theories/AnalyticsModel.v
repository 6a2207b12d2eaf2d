(** Model of carbon/simulators/sim_analytics.py: vectors, simulated trades and order books.
    (OrderBook.calc_liquidity_approx is in UiModel.v; plots and data frames are not modelled.)

    Finite floats are exact rationals; infinities and NaN are kept apart, because a chart
    divides by differences that may be zero. A negative zero is taken as zero. A vector is a
    pandas Series with the index 0, 1, 2, ... *)
From Coq Require Import ZArith QArith List Bool String.
From Verif Require Import PairModel CurveModel SimModel.
Import ListNotations.
Local Open Scope string_scope.

(** ** floats *)
Inductive fl := Fin (q : Q) | Inf (pos : bool) | NaN.
Definition fneg (a : fl) : fl := match a with Fin q => Fin (- q) | Inf b => Inf (negb b) | NaN => NaN end.
Definition fadd (a b : fl) : fl :=
  match a, b with
  | Fin x, Fin y => Fin (x + y)
  | NaN, _ | _, NaN => NaN
  | Inf p, Inf q => if Bool.eqb p q then Inf p else NaN
  | Inf p, Fin _ | Fin _, Inf p => Inf p
  end.
Definition fsub (a b : fl) : fl := fadd a (fneg b).
Definition qpos (q : Q) : bool := Qlt_bool 0 q.
Definition fmul (a b : fl) : fl :=
  match a, b with
  | Fin x, Fin y => Fin (x * y)
  | NaN, _ | _, NaN => NaN
  | Inf p, Inf q => Inf (Bool.eqb p q)
  | Inf p, Fin x | Fin x, Inf p => if Qeq_bool x 0 then NaN else Inf (Bool.eqb p (qpos x))
  end.
Definition fdiv (a b : fl) : fl :=
  match a, b with
  | Fin x, Fin y => if Qeq_bool y 0 then (if Qeq_bool x 0 then NaN else Inf (qpos x)) else Fin (x / y)
  | NaN, _ | _, NaN => NaN
  | Inf _, Inf _ => NaN
  | Fin _, Inf _ => Fin 0
  | Inf p, Fin y => Inf (Bool.eqb p (qpos y || Qeq_bool y 0))
  end.

(** ** vectors *)
(** 48-53 *)
Fixpoint midpoints (r : list fl) : list fl :=
  match r with a :: ((b :: _) as r') => fmul (Fin (1 # 2)) (fadd a b) :: midpoints r' | _ => [] end.
(** 55-61 (np.diff) *)
Fixpoint diff (r : list fl) : list fl :=
  match r with a :: ((b :: _) as r') => fsub b a :: diff r' | _ => [] end.
(** an operation on two Series: missing entries are NaN *)
Fixpoint vop (f : fl -> fl -> fl) (l l' : list fl) : list fl :=
  match l, l' with
  | [], _ => map (fun _ => NaN) l'
  | _, [] => map (fun _ => NaN) l
  | a :: l, b :: l' => f a b :: vop f l l'
  end.
(** 75-85: fillna replaces NaN; vectors of different length raise ValueError *)
Definition fillna (a : fl) : fl := match a with NaN => Fin 0 | _ => a end.
Fixpoint dot (l l' : list fl) : fl :=
  match l, l' with a :: l, b :: l' => fadd (fmul a b) (dot l l') | _, _ => Fin 0 end.
Definition vecdot (l l' : list fl) : res fl :=
  if Nat.eqb (List.length l) (List.length l') then Ret (dot (map fillna l) (map fillna l')) else Raise ValueError.
(** 87-111; [nint] points more than one; a single point is overwritten by the second assignment *)
Definition EPSILON : Q := 1 # 10000.
Definition EPSILON2 : Q := 1 # 100000.
Definition set_first {A} (a : A) (l : list A) : list A := match l with [] => [] | _ :: r => a :: r end.
Definition set_last {A} (a : A) (l : list A) : list A := match l with [] => [] | _ => (removelast l ++ [a])%list end.
Definition linspace0 (xmax : Q) (nint : Z) (eps eps2 : option Q) : res (list Q) :=
  let eps := match eps with None => EPSILON | Some e => e end in
  let eps2 := match eps2 with None => EPSILON2 | Some e => e end in
  if (nint + 1 <? 0)%Z then Raise ValueError
  else if (nint + 1 =? 0)%Z then Raise IndexError
  else let v := map (fun i => inject_Z (Z.of_nat i) * (xmax / inject_Z nint))%Q (seq 0 (Z.to_nat (nint + 1))) in
       Ret (set_last ((1 - eps2) * xmax)%Q (set_first eps v)).
(** 122-143: None and NaN are removed from the second series wherever they are *)
Definition missing (x : option fl) : bool := match x with None => true | Some NaN => true | Some _ => false end.
Fixpoint kept (l : list (option fl)) : list fl :=
  match l with [] => [] | x :: r => match x with Some v => if missing x then kept r else v :: kept r | None => kept r end end.
Definition truncate (s1 : list fl) (s2 : list (option fl)) : list fl * list fl :=
  let s2r := kept s2 in (firstn (List.length s2r) s1, s2r).

(** ** simulated trades *)
(** 146-152, 198-201: the second group of definitions replaces BID and ASK *)
Definition BID_BOOK := "amm_buys".
Definition ASK_BOOK := "amm_sells".
Definition OFFER_BOOK := ASK_BOOK.
Definition OFFER := ASK_BOOK.
Definition MAXPRICE : Q := inject_Z (10 ^ 100).
Definition AMM_SELLS_BASETOKEN := "amm_sells_tknb".
Definition ASK := "amm_sells_tknb".
Definition AMM_BUYS_BASETOKEN := "amm_buys_tknb".
Definition BID := "amm_buys_tknb".
(** a simulator object: its construction and its state *)
Record simobj := mkSim { sm_env : env; sm_state : state }.
(** the preview of a trade with the default arguments of amm_buys and amm_sells *)
Definition preview (tkn : string) (size : Q) (pair : create_arg) : trade_args :=
  mkTrade tkn size pair false true None None (Some 10%nat) None false.
(** result["trades"].iloc[-1] is the aggregate record of the trade (carbon_simulator.py:886-911);
    on failure there is no such key, or the simulator raises: both end in the except clause *)
Definition last_row (s : state) (r : state * bool) : option trec :=
  if snd r then dget String.eqb (uid_aggr (numtrades s)) (trades (fst r)) else None.
(** 154-195: the value or the exception, and the state of the simulator used, if one was;
    a simulator has no attribute [pair] (178) *)
Definition effective_price (self : option simobj) (size : Q) (bidask : string) (tkn : option string) (sim : option simobj) (pair : option create_arg) : res Q * option state :=
  let sim := match sim with None => self | _ => sim end in
  let t := match tkn with
           | Some t => Ret t
           | None => match sim with
                     | None => Raise ValueError
                     | Some m => match e_pair (sm_env m) with None => Raise ValueError | Some p => Ret (tknb p) end
                     end
           end in
  match t with
  | Raise e => (Raise e, None)
  | Ret t =>
    match pair with
    | None => (match sim with None => Raise ValueError | Some _ => Raise AttributeError end, None)
    | Some pair =>
      let run f fail := match sim with
                        | None => (Raise AttributeError, None)
                        | Some m => let r := f (sm_env m) (sm_state m) (preview t size pair) in
                                    (Ret (match last_row (sm_state m) r with Some row => t_price row | None => fail end), Some (fst r))
                        end in
      if String.eqb bidask BID_BOOK then run amm_buys MAXPRICE
      else if String.eqb bidask ASK_BOOK then run amm_sells 0%Q
      else (Raise ValueError, None)
    end
  end.
(** 203-243; [carbon_pair]: not given, a CarbonPair, or something else *)
Inductive pair_arg := NoPair | APair (p : pair) | NotAPair.
Definition simulate_trades (self : option simobj) (src_size : Q) (buysell : string) (sim : option simobj) (carbon_pair : pair_arg) : res (option Q) * option state :=
  let sim := match sim with None => self | _ => sim end in
  let body (sim : option simobj) (p : pair) :=
    let run f col := match sim with
                     | None => (Raise AttributeError, None)
                     | Some m => let r := f (sm_env m) (sm_state m) (preview (tknb p) src_size (ArgStr (slashpair_of p))) in
                                 (Ret (option_map col (last_row (sm_state m) r)), Some (fst r))
                     end in
    if String.eqb buysell AMM_SELLS_BASETOKEN then run amm_sells t_amt2
    else if String.eqb buysell AMM_BUYS_BASETOKEN then run amm_buys t_amt1
    else (Raise ValueError, None) in
  match carbon_pair with
  | NotAPair => (Raise ValueError, None)
  | APair p => body sim p
  | NoPair => match self with
              | None => (Raise ValueError, None)
              | Some m => match e_pair (sm_env m) with None => (Raise ValueError, None) | Some p => body (Some m) p end
              end
  end.
(** the use shown in resources/demo/CarbonSim-Demo-3-2.py:86-88: one simulated trade after the other *)
Fixpoint simulate_all (e : env) (s : state) (buysell : string) (p : pair) (sizes : list Q) : list (option Q) * state :=
  match sizes with
  | [] => ([], s)
  | x :: xs => match simulate_trades None x buysell (Some (mkSim e s)) (APair p) with
               | (Ret v, Some s') => let '(vs, s'') := simulate_all e s' buysell p xs in (v :: vs, s'')
               | _ => ([], s)
               end
  end.

(** ** order books (258-460) *)
Record book := mkBook { b_src : list fl; b_trg : list fl; b_srctkn : string; b_trgtkn : string; b_rev : bool }.
Definition OB_ASK := "ASK_amm_sells_src_tkn".
Definition OB_BID := "BID_amm_buys_src_tkn".
(** 299-313 *)
Definition new_book (src : list fl) (trg : list (option fl)) (srctkn trgtkn bidask : string) : res book :=
  let '(s, t) := truncate src trg in
  if String.eqb bidask OB_ASK then Ret (mkBook s t srctkn trgtkn false)
  else if String.eqb bidask OB_BID then Ret (mkBook s t srctkn trgtkn true)
  else Raise ValueError.
(** 364-376 *)
Definition marg_trg_amounts (b : book) : list fl := diff (b_trg b).
Definition marg_src_amounts (b : book) : list fl := diff (b_src b).
(** 378-402 *)
Definition prices (b : book) : list fl := vop fdiv (b_trg b) (b_src b).
Definition reciprocals (l : list fl) : list fl := map (fdiv (Fin 1)) l.
Definition pricesr (b : book) (reverse : bool) : list fl := if reverse then reciprocals (prices b) else prices b.
Definition marg_prices (b : book) : list fl := vop fdiv (marg_trg_amounts b) (marg_src_amounts b).
Definition marg_pricesr (b : book) (reverse : bool) : list fl := if reverse then reciprocals (marg_prices b) else marg_prices b.
(** 419-453 *)
Definition dmarg_prices (b : book) : list fl := let d := diff (marg_prices b) in if b_rev b then map fneg d else d.
Definition ob_liquidity (b : book) : list fl := vop fdiv (midpoints (marg_trg_amounts b)) (dmarg_prices b).
Definition ob_prices (b : book) : list fl := midpoints (marg_prices b).
(** 315-323, 404-416: the unit of the prices *)
Definition prices_u (b : book) : string := b_trgtkn b ++ " per " ++ b_srctkn b.
Definition pricesr_u (b : book) (reverse : bool) : string := if reverse then b_srctkn b ++ " per " ++ b_trgtkn b else prices_u b.
