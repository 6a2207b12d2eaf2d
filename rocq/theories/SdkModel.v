(** Model of carbon/sdk: encoded orders (carbonsdk.py:207-367), tokens and token containers
    (sdktoken.py), the conversion helpers of sdkbase.py, and the m... methods of
    carbonsdk.py that turn answers of the SDK server into market data, trades and strategies.

    The server behind the http interface is a record of functions (what it answers when asked
    about a source and a target address); transport errors and json are not modelled.
    Floats are exact rationals; ASCII strings only. *)
From Coq Require Import ZArith QArith Qround List Bool Ascii String.
From Verif Require Import TradeModel PairModel CurveModel.
Import ListNotations.
Local Open Scope string_scope.

(** ** encoded orders *)
(** carbonsdk.py:208-227 *)
Record eorder := mkEorder { eo_token : string; eo_y : Z; eo_z : Z; eo_A : Z; eo_B : Z }.
(** Python's [int(x)]: truncation towards zero *)
Definition qtrunc (q : Q) : Z := if Qle_bool 0 q then Qfloor q else Qceiling q.
(** carbonsdk.py:258-263; the same text as benchmark/core/trade/impl.py:20-23 apart from
    math.sqrt, which raises ValueError on a negative value. The float square root is exact here. *)
Definition eo_encodeRate (v : Q) : res Z := match encodeRate v with Some x => Ret x | None => Raise ValueError end.
(** carbonsdk.py:243-246 [decodeFloat] (shifting by a negative count raises ValueError) and
    248-251 [decode] *)
Definition eo_decode (v : Z) : res Q :=
  if (v / ONE <? 0)%Z then Raise ValueError else Ret (inject_Z (decodeFloat v) / inject_Z ONE)%Q.
(** carbonsdk.py:272-304; [encodeFloat] is the text of impl.py:28-31 *)
Definition eo_encode (y hi lo : Q) (p_marg z : option Q) (token : option string) : res eorder :=
  let token := match token with None => "TKN" | Some t => t end in
  match p_marg, z with
  | Some _, Some _ => Raise ValueError
  | _, _ =>
    let zz := match z with
              | Some z => z
              | None => match p_marg with
                        | None => y
                        | Some pm => if Qle_bool hi pm then y else inject_Z (Qfloor (y * (hi - lo) / (pm - hi)))%Q
                        end
              end in
    let* h := eo_encodeRate hi in
    let* l := eo_encodeRate lo in
    Ret (mkEorder token (qtrunc y) (qtrunc zz) (encodeFloat (h - l)) (encodeFloat l))
  end.
(** carbonsdk.py:306-322. An argument is an int or a float; [bin] and [>>] raise TypeError on
    a float, whatever its value. *)
Inductive num := IntN (z : Z) | FloatN (q : Q).
Definition num_Q (n : num) : Q := match n with IntN z => inject_Z z | FloatN q => q end.
Definition eo_encodeFloat (n : num) : res Z := match n with IntN z => Ret (encodeFloat z) | FloatN _ => Raise TypeError end.
Definition eo_encode_yzAB (y z A B : num) (token : option string) : res eorder :=
  let* a := eo_encodeFloat A in
  let* b := eo_encodeFloat B in
  Ret (mkEorder (match token with None => "None" | Some t => t end) (qtrunc (num_Q y)) (qtrunc (num_Q z)) a b).
(** carbonsdk.py:341-363 (NotImplementedError is a RuntimeError) *)
Definition eo_A_ (o : eorder) : res Q := eo_decode (eo_A o).
Definition eo_B_ (o : eorder) : res Q := eo_decode (eo_B o).
Definition eo_p_end (o : eorder) : res Q := let* b := eo_B_ o in Ret (b * b)%Q.
Definition eo_p_start (o : eorder) : res Q := let* b := eo_B_ o in let* a := eo_A_ o in Ret ((b + a) * (b + a))%Q.
Definition eo_p_marg (o : eorder) : res Q :=
  if (eo_y o =? eo_z o)%Z then eo_p_start o
  else if (eo_y o =? 0)%Z then eo_p_end o
  else Raise RuntimeError.
(** carbonsdk.py:235-238: the two numbers shown by [descr] *)
Definition sdiv (a b : Q) : res Q := if Qeq_bool b 0 then Raise ZeroDivision else Ret (a / b)%Q.
Definition eo_descr (o : eorder) : res (Q * Q) :=
  let* s := eo_p_start o in let* a := sdiv 1 s in
  let* e := eo_p_end o in let* b := sdiv 1 e in Ret (a, b).

(** ** strings *)
(** Python [str.lower] on ASCII letters *)
Definition lower_ascii (c : ascii) : ascii :=
  let n := nat_of_ascii c in
  if (Nat.leb 65 n && Nat.leb n 90)%bool then ascii_of_nat (n + 32) else c.
Fixpoint lower (s : string) : string :=
  match s with EmptyString => EmptyString | String c s => String (lower_ascii c) (lower s) end.
(** Python [str.strip] (ASCII white space) *)
Definition is_space (c : ascii) : bool :=
  let n := nat_of_ascii c in ((Nat.leb 9 n && Nat.leb n 13) || (Nat.leb 28 n && Nat.leb n 32))%bool.
Fixpoint lstrip (s : string) : string :=
  match s with EmptyString => EmptyString | String c r => if is_space c then lstrip r else s end.
Fixpoint rstrip (s : string) : string :=
  match s with
  | EmptyString => EmptyString
  | String c r => match rstrip r with
                  | EmptyString => if is_space c then EmptyString else String c EmptyString
                  | r' => String c r'
                  end
  end.
Definition strip (s : string) : string := rstrip (lstrip s).

(** ** int(s, 16) and hex(n) *)
Definition hexval (c : ascii) : option Z :=
  let n := Z.of_nat (nat_of_ascii c) in
  if ((48 <=? n) && (n <=? 57))%Z then Some (n - 48)%Z
  else if ((97 <=? n) && (n <=? 102))%Z then Some (n - 87)%Z
  else if ((65 <=? n) && (n <=? 70))%Z then Some (n - 55)%Z
  else None.
(** digits with single underscores between them; [need] says that a digit must follow *)
Fixpoint hexbody (need : bool) (acc : Z) (s : string) : option Z :=
  match s with
  | EmptyString => if need then None else Some acc
  | String c r =>
    match hexval c with
    | Some d => hexbody false (16 * acc + d)%Z r
    | None => if (Ascii.eqb c "_" && negb need)%bool then hexbody true acc r else None
    end
  end.
(** an optional prefix 0x, after which one underscore is allowed *)
Definition hexnum (s : string) : option Z :=
  match s with
  | String "0" (String x r) =>
    if (Ascii.eqb x "x" || Ascii.eqb x "X")%bool
    then match r with String "_" r' => hexbody true 0 r' | _ => hexbody true 0 r end
    else hexbody true 0 s
  | _ => hexbody true 0 s
  end.
(** [int(s, 16)] for a string; None is a ValueError *)
Definition int16 (s : string) : option Z :=
  match strip s with
  | String "-" r => option_map Z.opp (hexnum r)
  | String "+" r => hexnum r
  | r => hexnum r
  end.
Definition hexchar (d : Z) : ascii := ascii_of_nat (Z.to_nat (if (d <? 10)%Z then d + 48 else d + 87)%Z).
(** most significant digit first; [fuel] is the number of bits of the number *)
Fixpoint hexdigits (fuel : nat) (n : Z) (rest : string) : string :=
  match fuel with
  | O => rest
  | S k => let r := String (hexchar (n mod 16)) rest in
           if (n / 16 =? 0)%Z then r else hexdigits k (n / 16) r
  end.
Definition hex_abs (n : Z) : string := "0x" ++ hexdigits (S (Z.to_nat (Z.log2 n))) n "".
Definition hex (n : Z) : string := if (n <? 0)%Z then "-" ++ hex_abs (- n) else hex_abs n.

(** ** big numbers (sdkbase.py:197-241; carbon_order_ui.py:1198-1217 has the same text) *)
(** a json value: a number, a string, a dict with its entries "type" and "hex", or anything else *)
Inductive jval := JInt (z : Z) | JFloat (q : Q) | JStr (s : string) | JDict (type hexs : option string) | JOther.
(** 197-208: a dict whose type is BigNumber is read as a hexadecimal number *)
Definition bn2int (v : jval) : res jval :=
  match v with
  | JDict (Some ty) h =>
    if String.eqb ty "BigNumber" then
      match h with
      | None => Raise KeyError
      | Some s => match int16 s with Some z => Ret (JInt z) | None => Raise ValueError end
      end
    else Ret v
  | _ => Ret v
  end.
(** 232-237 *)
Definition int2bn (x : Q) : jval := JDict (Some "BigNumber") (Some (hex (qtrunc x))).

(** ** names and paths (sdkbase.py:158-175) *)
Fixpoint last_char (s : string) : option ascii :=
  match s with EmptyString => None | String c EmptyString => Some c | String _ r => last_char r end.
(** 158-163; an empty argument raises IndexError; [droplast] is s[:-1] *)
Definition join (url path : string) : res string :=
  match last_char url with
  | None => Raise IndexError
  | Some c =>
    let url := if Ascii.eqb c "/" then droplast url else url in
    match path with
    | EmptyString => Raise IndexError
    | String d r => Ret (url ++ "/" ++ (if Ascii.eqb d "/" then r else path))
    end
  end.
Definition is_upper (c : ascii) : bool := let n := nat_of_ascii c in (Nat.leb 65 n && Nat.leb n 90)%bool.
Definition is_lower (c : ascii) : bool := let n := nat_of_ascii c in (Nat.leb 97 n && Nat.leb n 122)%bool.
Definition is_letter (c : ascii) : bool := is_upper c || is_lower c.
(** 165-168 [c2s] *)
Fixpoint snake (s : string) : string :=
  match s with
  | EmptyString => EmptyString
  | String c r => if is_upper c then String "_" (String (lower_ascii c) (snake r)) else String c (snake r)
  end.
Fixpoint lstrip_us (s : string) : string :=
  match s with String "_" r => lstrip_us r | _ => s end.
Definition c2s (s : string) : string := lstrip_us (snake s).
(** Python [str.title]: a letter is upper case if the character before is not a letter *)
Fixpoint title_from (prev : bool) (s : string) : string :=
  match s with
  | EmptyString => EmptyString
  | String c r => String (if prev then lower_ascii c else upper_ascii c) (title_from (is_letter c) r)
  end.
Definition title (s : string) : string := title_from false s.
(** Python [s.split('_')] *)
Fixpoint split_us (s : string) : list string :=
  match s with
  | EmptyString => [EmptyString]
  | String c s =>
    if Ascii.eqb c "_" then EmptyString :: split_us s
    else match split_us s with
         | [] => [String c EmptyString]
         | w :: ws => String c w :: ws
         end
  end.
(** 170-174 [s2c] *)
Definition s2c (s : string) : string :=
  match split_us s with [] => "" | f :: fs => f ++ fold_right append "" (map title fs) end.
(** 120-157 [call] and [callapi0]: the endpoint used, and whether the answer is read as that of
    an asynchronous call (the answer itself is not modelled) *)
Definition call_mode (syncdefault : bool) (sync : option bool) : string * bool :=
  let s := match sync with None => syncdefault | Some b => b end in
  (if s then "scall" else "ascall", match sync with Some true => false | _ => true end).

(** ** tokens *)
(** sdktoken.py:22-25; [decimals] is an int or None *)
Record token := mkToken { t_T : string; t_a : string; t_d : option Z; t_name : string }.
(** sdktoken.py:27-36 *)
Definition sdk_token (ticker address : string) (decimals : option Z) (name : option string) : res token :=
  let t := upper (strip ticker) in
  let a := lower (strip address) in
  match int16 a with
  | None => Raise ValueError
  | Some _ => Ret (mkToken t a decimals (match name with None => t | Some n => n end))
  end.
(** sdktoken.py:53-59; 10**None raises TypeError *)
Definition ten_to (d : Z) : Q := Qpower (10 # 1) d.
Definition w2t (t : token) (wei : Q) : res Q := match t_d t with None => Raise TypeError | Some d => Ret (wei / ten_to d)%Q end.
Definition t2w (t : token) (amt : Q) : res Z := match t_d t with None => Raise TypeError | Some d => Ret (qtrunc (amt * ten_to d)) end.
(** sdktoken.py:72 *)
Definition NULTKN : token := mkToken "NULTKN" "0x0000000000000000000000000000000000000000" None "NULTKN".

(** ** token containers *)
(** a Python dict as an association list in insertion order *)
Fixpoint dset {A} (k : string) (v : A) (l : list (string * A)) : list (string * A) :=
  match l with
  | [] => [(k, v)]
  | (k', v') :: r => if String.eqb k k' then (k', v) :: r else (k', v') :: dset k v r
  end.
Fixpoint dget {A} (k : string) (l : list (string * A)) : option A :=
  match l with [] => None | (k', v) :: r => if String.eqb k k' then Some v else dget k r end.
Definition dict_of (key : token -> string) (l : list token) : list (string * token) :=
  fold_left (fun d t => dset (key t) t d) l [].
Record container := mkContainer { c_raise : bool; c_byticker : list (string * token); c_byaddr : list (string * token) }.
(** sdktoken.py:84-91 *)
Definition new_container (tokens : list token) (raiseonerror : option bool) : res container :=
  let r := match raiseonerror with None => true | Some b => b end in
  let bt := dict_of t_T tokens in
  let ba := dict_of t_a tokens in
  if Nat.eqb (List.length bt) (List.length ba) then Ret (mkContainer r bt ba) else Raise ValueError.
(** what a failed lookup gives: an exception, NULTKN or None (125-133, 145-154) *)
Definition not_found (raise nul : bool) : res (option token) :=
  if raise then Raise KeyError else Ret (if nul then Some NULTKN else None).
(** sdktoken.py:120-133 *)
Definition byticker (c : container) (t : string) (raiseonerror : option bool) (nul : bool) : res (option token) :=
  let r := match raiseonerror with None => c_raise c | Some b => b end in
  match dget (upper t) (c_byticker c) with Some x => Ret (Some x) | None => not_found r nul end.
(** sdktoken.py:135-154 *)
Definition byaddr (c : container) (a : string) (raiseonerror : option bool) (nul : bool) : res (option token) :=
  let r := match raiseonerror with None => c_raise c | Some b => b end in
  match dget (lower a) (c_byaddr c) with Some x => Ret (Some x) | None => not_found r nul end.
(** sdktoken.py:156-169: the token, or the lower case address *)
Definition byaddr1 (c : container) (a : string) : token + string :=
  match dget (lower a) (c_byaddr c) with Some x => inl x | None => inr (lower a) end.
Definition byaddr1_name (c : container) (a : string) : string :=
  match byaddr1 c a with inl t => t_T t | inr s => s end.
(** sdktoken.py:171-173 *)
Definition containsall (c : container) (s : list string) : bool :=
  forallb (fun t => match dget t (c_byticker c) with Some _ => true | None => false end) s.
(** sdktoken.py:175-178, 186-190 *)
Definition all_tokens (c : container) : list token := map snd (c_byticker c).
Definition c_len (c : container) : nat := List.length (c_byticker c).
(** sdktoken.py:180-184: T[name] and T.name (for names that are not attributes) *)
Definition getitem (c : container) (name : string) : res token :=
  let* t := byticker c name None true in match t with Some t => Ret t | None => Raise AttributeError end.
(** T[None]: None has no upper *)
Definition getitem_o (c : container) (name : option string) : res token :=
  match name with Some n => getitem c n | None => Raise AttributeError end.
(** sdktoken.py:103-118: a class method that calls instance methods on the class, so the name
    takes the place of [self] and the positional argument is missing *)
Definition class_lookup (name : string) : res (option token) := Raise TypeError.
Definition restore (arg : token + string) (raiseonerror : option bool) : res (option token) :=
  match arg with
  | inl t => Ret (Some t)
  | inr s =>
    match class_lookup s with
    | Ret t => Ret t
    | Raise _ => match class_lookup s with
                 | Ret t => Ret t
                 | Raise _ => if match raiseonerror with Some true => true | _ => false end then Raise ValueError else Ret None
                 end
    end
  end.
(** sdktoken.py:195-196: there is no attribute address, so it is looked up as a ticker; [int]
    does not accept a token *)
Definition c_hash (c : container) : res Z := let* _ := getitem c "address" in Raise TypeError.

(** ** the server *)
(** carbonsdk0.py:164-258: answers about (source address, target address) *)
Record server := mkServer {
  s_hasliq : string -> string -> bool;
  s_liq : string -> string -> Q;
  s_minrate : string -> string -> Q;
  s_maxrate : string -> string -> Q;
  s_depth : string -> string -> Q -> Q }.

(** the conversion [CarbonPair(pair)] of the first line of every method (ValueError on a bad pair) *)
Definition as_pair (a : slash_arg) : res pair := match mk_pair a None None false with Some p => Ret p | None => Raise ValueError end.
Definition bid_ask (p : pair) (sells : string) : string := if has_basetoken p sells then "ask" else "bid".
(** a price of the pair (pair.py:373-392), None of Python being None *)
Definition pair_price (p : pair) (raw : Q) (b q : string) : res (option Q) :=
  match price p raw b q with Some r => Ret r | None => Raise ZeroDivision end.

(** carbonsdk.py:491-506 *)
Definition mHasLiquidityByPair (s : server) (T : container) (a : slash_arg) (sells : string) : res bool :=
  let* p := as_pair a in
  let* t := getitem T sells in
  let* src := getitem_o T (other p sells) in
  Ret (s_hasliq s (t_a src) (t_a t)).
(** carbonsdk.py:508-532, for a list of pairs; the entries are (pair, token the AMM sells, answer).
    The code keeps a CarbonPair object as it is, [as_pair] makes a copy with the same tokens. *)
Fixpoint mHasLiquidityByPairs (s : server) (T : container) (ps : list slash_arg) : res (list (pair * string * bool)) :=
  match ps with
  | [] => Ret []
  | a :: r =>
    let* p := as_pair a in
    let* q := getitem T (tknq p) in
    let* b := getitem T (tknb p) in
    let* rest := mHasLiquidityByPairs s T r in
    Ret ((p, t_T q, s_hasliq s (t_a b) (t_a q)) :: (p, t_T b, s_hasliq s (t_a q) (t_a b)) :: rest)
  end.
(** carbonsdk.py:12-32, 534-555; [pl_rate] and [pl_inverted] are None unless asked for a depth *)
Record pliq := mkPliq { pl_amount : Q; pl_unit : string; pl_sells : string; pl_side : string; pl_rate : option Q; pl_inverted : option bool }.
Definition mGetLiquidityByPair (s : server) (T : container) (a : slash_arg) (sells : string) : res pliq :=
  let* p := as_pair a in
  let* t := getitem T sells in
  let* src := getitem_o T (other p sells) in
  Ret (mkPliq (s_liq s (t_a src) (t_a t)) sells sells (bid_ask p sells) None None).
(** carbonsdk.py:34-53, 557-581 *)
Record prange := mkPrange { pr_start : option Q; pr_end : option Q; pr_sells : string; pr_buys : string; pr_side : string; pr_inverted : bool }.
Definition mGetRangeByPair (s : server) (T : container) (a : slash_arg) (sells : string) : res prange :=
  let* p := as_pair a in
  let* src := getitem_o T (other p sells) in
  let* t := getitem T sells in
  let lo := s_minrate s (t_a src) (t_a t) in
  let hi := s_maxrate s (t_a src) (t_a t) in
  let* st := pair_price p hi (t_T src) (t_T t) in
  let* en := pair_price p lo (t_T src) (t_T t) in
  Ret (mkPrange st en (t_T t) (t_T src) (bid_ask p sells) (has_quotetoken p (t_T t))).
(** carbonsdk.py:583-616, for one rate *)
Definition mGetRateLiquidityDepthByPair (s : server) (T : container) (rate : Q) (a : slash_arg) (sells : string) : res pliq :=
  let* p := as_pair a in
  let* src := getitem_o T (other p sells) in
  let* t := getitem T sells in
  let inv := has_basetoken p (t_T t) in
  let* raw := (if inv then sdiv 1 rate else Ret rate) in
  Ret (mkPliq (s_depth s (t_a src) (t_a t) raw) sells sells (bid_ask p sells) (Some rate) (Some inv)).
(** the same for a list of rates: when a rate of the list is zero, the bare except sends the
    list itself down the branch for a single rate, where 1/list raises TypeError (600-605); the
    answers of the server are those to the single rates *)
Fixpoint raw_rates (inv : bool) (l : list Q) : res (list Q) :=
  match l with
  | [] => Ret []
  | r :: l => let* x := (if inv then sdiv 1 r else Ret r) in let* xs := raw_rates inv l in Ret (x :: xs)
  end.
Definition mGetRateLiquidityDepthsByPair (s : server) (T : container) (rates : list Q) (a : slash_arg) (sells : string) : res (list Q) :=
  let* p := as_pair a in
  let* src := getitem_o T (other p sells) in
  let* t := getitem T sells in
  match raw_rates (has_basetoken p (t_T t)) rates with
  | Ret l => Ret (map (s_depth s (t_a src) (t_a t)) l)
  | Raise _ => Raise TypeError
  end.
(** carbonsdk.py:56-87, 618-640 *)
Record market := mkMarket { m_pair : string; m_bestBid : option Q; m_bestAsk : option Q; m_liqBid : Q; m_liqAsk : Q; m_lastBid : option Q; m_lastAsk : option Q }.
Definition mGetMarketByPair (s : server) (T : container) (a : slash_arg) : res market :=
  let* p := as_pair a in
  let* bid := mGetRangeByPair s T (SlashPair p) (tknq p) in
  let* ask := mGetRangeByPair s T (SlashPair p) (tknb p) in
  let* bl := mGetLiquidityByPair s T (SlashPair p) (tknq p) in
  let* al := mGetLiquidityByPair s T (SlashPair p) (tknb p) in
  Ret (mkMarket (slashpair_of p) (pr_start bid) (pr_start ask) (pl_amount bl) (pl_amount al) (pr_end bid) (pr_end ask)).
(** carbonsdk.py:89-103, 141-157; arithmetic with None raises TypeError *)
Definition both {A} (f : Q -> Q -> A) (a b : option Q) : res A :=
  match a, b with Some x, Some y => Ret (f x y) | _, _ => Raise TypeError end.
Definition m_inverted (m : market) : res bool := both (fun b a => Qlt_bool a b) (m_bestBid m) (m_bestAsk m).
Definition m_mid (m : market) : res Q := both (fun b a => (1 # 2) * (b + a))%Q (m_bestBid m) (m_bestAsk m).
Definition m_spread (m : market) : res Q := both (fun b a => a - b)%Q (m_bestBid m) (m_bestAsk m).
Definition m_spreadpc (m : market) : res Q := let* s := m_spread m in let* d := m_mid m in sdiv s d.
Definition interp (x a b : Q) : Q := (a + x * (b - a))%Q.
Definition m_ibid (m : market) (x : Q) : res Q := both (interp x) (m_bestBid m) (m_lastBid m).
Definition m_iask (m : market) (x : Q) : res Q := both (interp x) (m_bestAsk m) (m_lastAsk m).
Definition m_iall (m : market) (x : Q) : res Q := both (interp x) (m_lastBid m) (m_lastAsk m).

(** carbonsdk.py:661-706; the result is what is sent to the server *)
Record create_req := mkCreate { cr_base : string; cr_quote : string; cr_buyLow : Q; cr_buyHigh : Q; cr_buyBudget : Q; cr_sellLow : Q; cr_sellHigh : Q; cr_sellBudget : Q }.
Definition mCreateStrategy (T : container) (a : slash_arg) (sellStart sellEnd sellAmt buyStart buyEnd buyAmt : Q) : res create_req :=
  let* _ := as_pair a in
  let '(ss, se) := if Qle_bool sellStart sellEnd then (sellStart, sellEnd) else (sellEnd, sellStart) in
  let '(bs, be) := if Qle_bool buyEnd buyStart then (buyStart, buyEnd) else (buyEnd, buyStart) in
  if Qle_bool ss bs then Raise ValueError else
  let* eth := getitem T "ETH" in
  let* usdc := getitem T "USDC" in
  Ret (mkCreate (t_a eth) (t_a usdc) be bs buyAmt ss se sellAmt).

(** carbonsdk.py:711-762, up to the request sent to the server; [g] is the global token container
    of sdktoken.py, which line 734 uses instead of the one given to the constructor *)
Record trade_req := mkTradeReq { tr_source : token; tr_target : token; tr_byTarget : bool; tr_amount : Q }.
Definition mPrepareTrade (g T : container) (a : slash_arg) (buysell tkn : string) (amount : Q) : res trade_req :=
  let* p := as_pair a in
  if negb (String.eqb buysell "BUY" || String.eqb buysell "SELL") then Raise ValueError else
  if negb (has_token p tkn) then Raise ValueError else
  if negb (Qlt_bool 0 amount) then Raise ValueError else
  let source := if String.eqb buysell "SELL" then Some tkn else other p tkn in
  let target := match source with Some s => other p s | None => None end in
  let* so := getitem_o T source in
  let* ta := getitem_o T target in
  let byTarget := match target with Some t => String.eqb tkn t | None => false end in
  match source, target with
  | Some s, Some t => if containsall g [s; t] then Ret (mkTradeReq so ta byTarget amount) else Raise ValueError
  | _, _ => Raise ValueError
  end.
(** carbonsdk.py:764-803: the limit sent with the trade; [total_source] and [total_target] are the
    totals of the trade data *)
Definition MAXDEVIATIONPC : Q := 1 # 10.
Inductive trade_tx := ByTarget (src tgt : string) (maxInput : Q) | BySource (src tgt : string) (minReturn : Q).
Definition mComposeTradeTransaction (src tgt : token) (total_source total_target : Q) (byTarget : bool) (dev : option Q) : trade_tx :=
  let d := match dev with None => MAXDEVIATIONPC | Some d => d end in
  if byTarget then ByTarget (t_a src) (t_a tgt) (total_source * (1 + d))%Q
  else BySource (t_a src) (t_a tgt) (total_target * (1 - d))%Q.

(** ** strategies of a user *)
(** a strategy as sent by the server, numbers already converted: the fields used for the tokens,
    and the two encoded orders (carbonsdk0.py:619-645 reads the big numbers) *)
Record sdk_strat := mkSdkStrat { sk_id : Z; sk_base : string; sk_quote : string;
  sk_buyLow : Q; sk_buyHigh : Q; sk_buyBudget : Q; sk_sellLow : Q; sk_sellHigh : Q; sk_sellBudget : Q;
  sk_order0 : eorder; sk_order1 : eorder }.
(** the object Strategy (carbonsdk.py:424-445) *)
Record strat_obj := mkStratObj { so_strat : sdk_strat; so_baseName : string; so_quoteName : string }.
(** reformatStrategy (carbonsdk0.py:619-645, nsd=None) followed by Strategy.from_sdk
    (carbonsdk.py:453-462) and __post_init__ (442-445) *)
Definition user_strategy (T : container) (s : sdk_strat) : res strat_obj :=
  let b := lower (sk_base s) in
  let q := lower (sk_quote s) in
  if negb (String.eqb (lower b) (lower (eo_token (sk_order0 s)))) then Raise AssertionError else
  if negb (String.eqb (lower q) (lower (eo_token (sk_order1 s)))) then Raise AssertionError else
  Ret (mkStratObj (mkSdkStrat (sk_id s) b q (sk_buyLow s) (sk_buyHigh s) (sk_buyBudget s) (sk_sellLow s) (sk_sellHigh s) (sk_sellBudget s) (sk_order0 s) (sk_order1 s))
                  (byaddr1_name T (sk_base s)) (byaddr1_name T (sk_quote s))).
(** carbonsdk.py:644-656 *)
Fixpoint mGetUserStrategies (T : container) (l : list sdk_strat) : res (list strat_obj) :=
  match l with
  | [] => Ret []
  | s :: r => let* x := user_strategy T s in let* xs := mGetUserStrategies T r in Ret (x :: xs)
  end.
