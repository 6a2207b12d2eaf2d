(** Model of carbon/helpers/strategym.py (class strategy): a strategy's parameters, its
    constructors, rescaling, seeding, and the record differences.

    Floats are real numbers: rounding, overflow and NaN (except in [filter_isnan]) are not
    modelled. Printing and data frames are left out. *)
From Coq Require Import Reals Bool String List Ascii.
From Verif Require Import CurveModel.
Import ListNotations.
Local Open Scope R_scope.

(** lines 40-58; [amt_risk] is the attribute line 137 creates; None when it does not exist *)
Record strategy := mkStrategy { p_sell_a : R; p_sell_b : R; p_buy_a : R; p_buy_b : R; amt_rsk : option R; amt_csh : option R; psell_marginal : option R; pbuy_marginal : option R;
  y_int_sell : option R; y_int_buy : option R; rsk : string; csh : string; rescale : bool; rescaled_fctr : option R; amt_risk : option R }.
(** line 66 *)
Definition MIN_SEED_AMT : R := / 10 ^ 10.
Definition is_zero (a : option R) : bool := match a with Some x => req x 0 | None => false end.
(** lines 134-140: the initialiser that runs; the one in lines 60-64, which refuses a marginal
    price together with a capacity, is replaced by it. A name that is None is replaced. *)
Definition construct (psa psb pba pbb : R) (ar ac psm pbm yis yib : option R) (r c : option string) (resc : bool) (fctr : option R) : strategy :=
  mkStrategy psa psb pba pbb ar (if is_zero ac then Some MIN_SEED_AMT else ac) psm pbm yis yib
    (match r with Some r => r | None => "RSK" end) (match c with Some c => c | None => "CSH" end) resc fctr (if is_zero ar then Some MIN_SEED_AMT else None).
(** lines 60-64: the check that is never run *)
Definition shadowed_check (psm pbm yis yib : option R) : res unit :=
  let given a := match a with Some _ => true | None => false end in
  if (given psm || given pbm) && (given yis || given yib) then Raise ValueError else Ret tt.
Definition omul (a : option R) (f : R) : option R := match a with Some x => Some (x * f) | None => None end.
(** lines 68-110 *)
Definition rescale_strat (s : strategy) (newspot oldspot : R) (force : bool) : res strategy :=
  if negb (rescale s) && negb force then Ret s else
  let* f := rdiv newspot oldspot in
  Ret (construct (p_sell_a s * f) (p_sell_b s * f) (p_buy_a s * f) (p_buy_b s * f) (amt_rsk s) (amt_csh s) (omul (psell_marginal s) f) (omul (pbuy_marginal s) f)
         (y_int_sell s) (omul (y_int_buy s) f) (Some (rsk s)) (Some (csh s)) false (Some f)).
(** lines 112-132: the copy is not initialised again *)
Definition set_tvl (s : strategy) (spot cashpc tvl : R) : res strategy :=
  match amt_rsk s, amt_csh s with
  | None, None =>
    let* q := rdiv tvl spot in
    Ret (mkStrategy (p_sell_a s) (p_sell_b s) (p_buy_a s) (p_buy_b s) (Some (q * (1 - cashpc))) (Some (tvl * cashpc)) (psell_marginal s) (pbuy_marginal s)
           (y_int_sell s) (y_int_buy s) (rsk s) (csh s) (rescale s) (rescaled_fctr s) (amt_risk s))
  | _, _ => Ret s
  end.

(** a value or a sequence of values; a value is a number or None *)
Inductive param := Scalar (x : option R) | Tuple (l : list (option R)).
(** line 192 *)
Definition MAX_UTIL : R := 999 / 1000.
(** lines 194-204 *)
Definition validate (u : option R) : res (option R) :=
  match u with None => Ret None | Some u =>
  if req u 0 then Ret None else if rlt u 0 then Raise ValueError else if rlt 1 u then Raise ValueError else if rlt MAX_UTIL u then Ret (Some MAX_UTIL) else Ret (Some u) end.
(** lines 276-289: anything that goes wrong with the two values of a sequence is caught and the
    sequence itself is validated: None if it is empty, otherwise it cannot be compared with 0 *)
Definition both (u : param) : res (option R * option R) :=
  match u with
  | Scalar x => let* v := validate x in Ret (v, v)
  | Tuple [] => Ret (None, None)
  | Tuple [a; b] => match validate a with Raise _ => Raise TypeError | Ret va => match validate b with Raise _ => Raise TypeError | Ret vb => Ret (va, vb) end end
  | Tuple _ => Raise TypeError
  end.
(** lines 274-275 *)
Definition DEFAULT_WIDTH : R := 1 / 10000.
Definition or_default (x : R) : R := if req x 0 then DEFAULT_WIDTH else x.
Definition p_or_default (w : param) : param := match w with Scalar (Some x) => Scalar (Some (or_default x)) | w => w end.
(** lines 246-308; 1 + None is a TypeError, in the order of lines 294-297 *)
Definition from_mgw (m g : R) (w u : param) (ar ac : option R) (r c : option string) : res strategy :=
  let w := p_or_default w in let g := or_default g in
  let* uu := both u in let* ww := both w in
  let g2 := / 2 * g in
  let* pba := rdiv m (1 + g2) in
  let* wb := match snd ww with Some x => Ret x | None => Raise TypeError end in
  let* pbb := rdiv pba (1 + wb) in
  let psa := m * (1 + g2) in
  let* ws := match fst ww with Some x => Ret x | None => Raise TypeError end in
  let psb := m * (1 + g2) * (1 + ws) in
  Ret (construct psa psb pba pbb ar ac (match fst uu with Some u => Some ((1 - u) * psa + u * psb) | None => None end) (match snd uu with Some u => Some ((1 - u) * pba + u * pbb) | None => None end)
         None None r c true None).

(** lines 206-212 *)
Definition sorted (x1 x2 : R) (inverse : bool) : R * R := if xorb (rlt x1 x2) inverse then (x1, x2) else (x2, x1).
(** a price or a range of two prices (sequences of other lengths are left out) *)
Inductive range := One (x : R) | Two (x y : R).
Definition ends (r : range) (inverse : bool) : R * R := match r with One x => (x, x) | Two x y => sorted x y inverse end.
(** lines 214-243 *)
Definition from_sb (sell buy : range) (fixed overlapping : bool) : res strategy :=
  let '(sa, sb) := ends sell false in let '(ba, bb) := ends buy true in
  if rlt sa ba && negb overlapping then Raise ValueError else
  Ret (construct sa sb ba bb None None None None None None (Some "RSK"%string) (Some "CSH"%string) (negb fixed) None).

(** lines 310-375 *)
Definition from_u3 (p_lo p_hi : R) (start_below : bool) (tvl_csh fee_pc : option R) (r c : option string) : res strategy :=
  if negb (rle p_lo p_hi) then Raise ValueError else
  let tvl := match tvl_csh with Some t => t | None => 1000 end in
  let* shift := match fee_pc with None => Ret 0 | Some fee => let* s := rsqrt (p_lo * p_hi) in Ret (s * fee * / 2) end in
  let* ar := (if start_below then let* s := rsqrt (p_lo * p_hi) in rdiv tvl s else Ret 0) in
  let ac := if start_below then 0 else tvl in
  let* s := rsqrt (p_lo * p_hi) in let* yis := rdiv tvl s in
  Ret (construct (p_lo + shift) (p_hi + shift) (p_hi - shift) (p_lo - shift) (Some ar) (Some ac) None None (Some yis) (Some tvl) r c false None).

(** ** records *)
(** the values of a scenario record *)
Inductive val := VNum (x : R) | VNan | VStr (s : string) | VNone.
Definition record := list (string * val).
Fixpoint lookup (d : record) (k : string) : res val := match d with [] => Raise KeyError | (k', v) :: d => if String.eqb k k' then Ret v else lookup d k end.
(** str.lower on ASCII letters *)
Definition lower_char (a : ascii) : ascii := let n := nat_of_ascii a in if (Nat.leb 65 n && Nat.leb n 90)%bool then ascii_of_nat (n + 32) else a.
Fixpoint lower (s : string) : string := match s with EmptyString => EmptyString | String a s => String (lower_char a) (lower s) end.
(** reading a number, an optional number or a flag. Values of other types are taken to make the
    constructors fail with TypeError; that is what the arithmetic and the comparisons in
    [from_mgw] and [from_u3] do, but a fixed strategy would store them. NaN is left out. *)
Definition num (v : val) : res R := match v with VNum x => Ret x | _ => Raise TypeError end.
Definition onum (v : val) : res (option R) := match v with VNum x => Ret (Some x) | VNone => Ret None | _ => Raise TypeError end.
Definition truth (v : val) : bool := match v with VNum x => negb (req x 0) | VNan => true | VStr s => negb (String.eqb s "") | VNone => false end.
Definition get_num (d : record) (k : string) : res R := let* v := lookup d k in num v.
(** lines 158-165: the pair of fields, or the single one if one of the two is missing *)
Definition pair_or (d : record) (k1 k2 k : string) : res param :=
  match lookup d k1, lookup d k2 with
  | Ret a, Ret b => let* x := onum a in let* y := onum b in Ret (Tuple [x; y])
  | _, _ => let* v := lookup d k in let* x := onum v in Ret (Scalar x)
  end.
(** lines 142-190 *)
Definition from_record (d : record) : res strategy :=
  let* t := lookup d "strat_type" in
  match t with
  | VStr t =>
    if String.eqb (lower t) "mgw" then
      let* w := pair_or d "strat_wsell" "strat_wbuy" "strat_w" in
      let* u := pair_or d "strat_usell" "strat_ubuy" "strat_u" in
      let* m := get_num d "strat_m" in let* g := get_num d "strat_g" in
      from_mgw m g w u None None None None
    else if String.eqb (lower t) "fixed" then
      let* sa := get_num d "p_sell_a" in let* sb := get_num d "p_sell_b" in let* ba := get_num d "p_buy_a" in let* bb := get_num d "p_buy_b" in
      Ret (construct sa sb ba bb None None None None None None (Some "RSK"%string) (Some "CSH"%string) false None)
    else if String.eqb (lower t) "uv3" then
      let* lo := get_num d "p_lo" in let* hi := get_num d "p_hi" in let* b := lookup d "start_below" in let* f := lookup d "fee_pc" in let* f := onum f in
      from_u3 lo hi (truth b) None f None None
    else Raise ValueError
  | _ => Raise AttributeError
  end.
Definition from_dct (d : record) (raiseonerror : bool) : res (option strategy) :=
  match from_record d with Ret s => Ret (Some s) | Raise e => if raiseonerror then Raise e else Ret None end.

(** lines 391-412: the keyword arguments for add_strategy; numbers that are None stay None *)
Definition slashpair (s : strategy) : string := rsk s ++ "/" ++ csh s.
Definition oval (a : option R) : val := match a with Some x => VNum x | None => VNone end.
Definition dct (s : strategy) : record :=
  [("tkn"%string, VStr (rsk s)); ("amt_sell"%string, oval (amt_rsk s)); ("psell_start"%string, VNum (p_sell_a s)); ("psell_end"%string, VNum (p_sell_b s));
   ("amt_buy"%string, oval (amt_csh s)); ("pbuy_start"%string, VNum (p_buy_a s)); ("pbuy_end"%string, VNum (p_buy_b s)); ("pair"%string, VStr (slashpair s));
   ("psell_marginal"%string, oval (psell_marginal s)); ("pbuy_marginal"%string, oval (pbuy_marginal s)); ("y_int_sell"%string, oval (y_int_sell s)); ("y_int_buy"%string, oval (y_int_buy s))].

(** lines 385-389: the positional arguments for add_strategy (the deprecation message is not modelled) *)
Definition ptuple (s : strategy) : list val :=
  [VStr (rsk s); oval (amt_rsk s); VNum (p_sell_a s); VNum (p_sell_b s); oval (amt_csh s); VNum (p_buy_a s); VNum (p_buy_b s)].
(** lines 422-427: the first record of a table; rr[tuple(rr)[0]] is the entry of the first key *)
Definition first_record (rr : list (string * record)) : res record := match rr with [] => Raise IndexError | (_, r) :: _ => Ret r end.

(** != on values: NaN differs from everything *)
Definition same_val (a b : val) : bool :=
  match a, b with VNum x, VNum y => req x y | VStr x, VStr y => String.eqb x y | VNone, VNone => true | _, _ => false end.
(** lines 431-443 *)
Fixpoint dr_all (r r0 : record) : res record :=
  match r0 with
  | [] => Ret []
  | (k, v0) :: r0 => let* v := lookup r k in let* rest := dr_all r r0 in Ret ((k, if same_val v v0 then VNone else v) :: rest)
  end.
Definition purged (kv : string * val) : bool := match snd kv with VNone => false | _ => negb (String.eqb (fst kv) "id0" || String.eqb (fst kv) "comment") end.
Definition dr (r r0 : record) (purge : bool) : res record := let* d := dr_all r r0 in Ret (if purge then filter purged d else d).
(** lines 445-472: [dr] is a method of the class, not a global name *)
Definition drr (rr : list (string * record)) : res (list (string * record)) := match rr with [] => Raise IndexError | _ => Raise NameError end.
(** lines 474-483 (end of file): a number that is not NaN falls through to the end *)
Definition filter_isnan (v : val) : val := match v with VNan => VStr "" | VNum _ => VNone | VStr s => VStr s | VNone => VNone end.
