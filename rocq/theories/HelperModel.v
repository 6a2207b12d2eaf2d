(** Model of small helper modules: carbon/helpers/floatint.py, carbon/helpers/version.py,
    carbon/helpers/soltest.py, carbon/tools/simplepair.py, the class Pair of
    carbon/tools/cpc.py, carbon/tools/tokenscale.py and the integer part of
    carbon/tools/univ3calc.py.

    Python integers are [Z], strings are ASCII [string]s. Printing and message
    formatting are not modelled, except where evaluating a message itself raises. *)
From Coq Require Import ZArith QArith List Bool Ascii String.
From Verif Require Import PairModel.
Import ListNotations.
Local Open Scope Z_scope.

(** ** carbon/helpers/floatint.py *)

(** floatint.py:32-33: the two fields of CarbonFloatInt64 *)
Record floatint := mkFloat { significant : Z; exponent : Z }.

(** how [from_int] can end *)
Inductive fi_result :=
| FI (f : floatint)
| FIAssertion           (* AssertionError, line 60 *)
| FIName.               (* line 66: the assertion fails and its message uses the undefined
                           name [intval], so NameError is raised instead *)

(** floatint.py:38-39 *)
Definition BITS_SIGNIFICANT : Z := 40.
Definition BITS_EXPONENT : Z := 8.

(** floatint.py:47-50: [ceil(log2(num+1))] evaluated without rounding error. The Python
    code calls the float function [math.log2]; [from_int] below therefore takes the
    function as a parameter and HelperSpec.v says how far it may be off. *)
Definition bindig_exact (num : Z) : Z := Z.log2_up (num + 1).

(** floatint.py:52-69 [from_int]; [bindig] stands for the static method of that name *)
Definition from_int (bindig : Z -> Z) (rawint : Z) : fi_result :=
  if rawint <? 0 then FIAssertion                                  (* 60 *)
  else if rawint =? 0 then FI (mkFloat 0 0)                        (* 61-62 *)
  else
    let exponent := bindig rawint - BITS_SIGNIFICANT in            (* 64-65 *)
    if negb (exponent <=? 2 ^ BITS_EXPONENT) then FIName           (* 66 *)
    else if exponent <=? 0 then FI (mkFloat rawint 0)              (* 67-68 *)
    else FI (mkFloat (Z.shiftr rawint exponent) exponent).         (* 69 *)

(** floatint.py:116-119 *)
Definition asint (f : floatint) : Z := Z.shiftl (significant f) (exponent f).

(** floatint.py:81-84 [max] and 86-89 [min] *)
Definition fi_max (minus : Z) : floatint :=
  mkFloat (2 ^ BITS_SIGNIFICANT - 1 - minus) (2 ^ BITS_EXPONENT - 1).
Definition fi_min (plus : Z) : floatint := mkFloat (1 + plus) 0.

(** ** carbon/helpers/version.py *)

Definition is_digit (c : ascii) : bool :=
  let n := nat_of_ascii c in (Nat.leb 48 n && Nat.leb n 57)%bool.

(** the characters matched by [[0-9\.]] *)
Definition is_version_char (c : ascii) : bool := is_digit c || Ascii.eqb c ".".

(** ASCII characters removed by [str.strip] *)
Definition is_space (c : ascii) : bool :=
  let n := nat_of_ascii c in
  ((Nat.leb 9 n && Nat.leb n 13) || (Nat.leb 28 n && Nat.leb n 32))%bool.

(** [str.strip]: only the left side is modelled. White space on the right is not a version
    character, so the following match stops before it anyway. *)
Fixpoint lstrip (s : string) : string :=
  match s with
  | EmptyString => EmptyString
  | String c r => if is_space c then lstrip r else s
  end.

(** version.py:13: the longest prefix of characters in [[0-9\.]]; this regular expression
    always matches, so lines 14-15 are unreachable *)
Fixpoint version_prefix (s : string) : string :=
  match s with
  | EmptyString => EmptyString
  | String c r => if is_version_char c then String c (version_prefix r) else EmptyString
  end.

(** Python [s.split(".")] *)
Fixpoint split_dot (s : string) : list string :=
  match s with
  | EmptyString => [EmptyString]
  | String c s =>
    if Ascii.eqb c "." then EmptyString :: split_dot s
    else match split_dot s with
         | [] => [String c EmptyString]
         | w :: ws => String c w :: ws
         end
  end.

(** Python [int(x)] for a string of ASCII digits; [None] is ValueError (empty string, or a
    character that is no digit, which cannot occur here) *)
Fixpoint digits_value (acc : Z) (s : string) : option Z :=
  match s with
  | EmptyString => Some acc
  | String c r =>
    if is_digit c then digits_value (10 * acc + (Z.of_nat (nat_of_ascii c) - 48)) r else None
  end.
Definition py_int (s : string) : option Z :=
  match s with EmptyString => None | _ => digits_value 0 s end.

Fixpoint map_opt {A B : Type} (f : A -> option B) (l : list A) : option (list B) :=
  match l with
  | [] => Some []
  | x :: r => match f x, map_opt f r with Some y, Some ys => Some (y :: ys) | _, _ => None end
  end.

(** version.py:11-17 [split_version_str]; [None] is ValueError *)
Definition split_version_str (vstr : string) : option (list Z) :=
  map_opt py_int (split_dot (version_prefix (lstrip vstr))).

(** version.py:48-53: the loop; [None] means that it ran to its end *)
Fixpoint version_loop (l : list (Z * Z)) : option bool :=
  match l with
  | [] => None
  | (r, a) :: l => if a <? r then Some false else if r <? a then Some true else version_loop l
  end.

(** version.py:40-54 [_require_version] *)
Definition require_version_lists (rl al : list Z) : bool :=
  match version_loop (combine rl al) with
  | Some b => b
  | None => (List.length rl <=? List.length al)%nat                       (* 54 *)
  end.

(** how [require_version] can end *)
Inductive version_result :=
| VReturn (b : bool)     (* raiseonfail=False *)
| VReturnNone            (* raiseonfail=True, met: falls off the end, returns None *)
| VNotMet                (* VersionRequirementNotMetError *)
| VValueError.

(** version.py:19-38 [require_version]; [actual] is the argument after line 29, i.e. with
    the version of the package filled in for None *)
Definition require_version (required actual : string) (raiseonfail : bool) : version_result :=
  match split_version_str required with                                   (* 31 *)
  | None => VValueError
  | Some rl =>
    match split_version_str actual with
    | None => VValueError
    | Some al =>
      let result := require_version_lists rl al in                        (* 34 *)
      if negb raiseonfail then VReturn result                             (* 35-36 *)
      else if negb result then VNotMet                                    (* 37-38 *)
      else VReturnNone
    end
  end.

(** ** carbon/helpers/soltest.py *)

(** soltest.py:51-54 *)
Definition LVL_LOG : Z := 0.
Definition LVL_WARN : Z := 1.
Definition LVL_ERR : Z := 2.
Definition LVL_NEVER : Z := 9.

(** how [check_uint256] can end *)
Inductive sol_result :=
| SolReturn (n : Z)
| SolRaise (isoverflow : bool) (level : Z)   (* the class in _EXCEPTIONS[isoverflow][level] *)
| SolKeyError.                               (* no entry for LVL_LOG in _EXCEPTIONS *)

(** soltest.py:113-116. OVERFLOW_WARN is the float 2**256/10000; its exact value is
    7378697629483821 * 2^190 (comparison of a Python int with a float is exact). *)
Definition UNDERFLOW_ERR : Z := 100.
Definition UNDERFLOW_WARN : Z := 10000.
Definition OVERFLOW_ERR : Z := 2 ^ 256.
Definition OVERFLOW_WARN : Z := 7378697629483821 * 2 ^ 190.

(** soltest.py:67-76, 92-97 [raise_f] (called by print_raise_f, 108-111; printing is not
    modelled): [None] means that it returns *)
Definition raise_f (raise_lvl level : Z) (isoverflow : bool) : option sol_result :=
  if level <? raise_lvl then None
  else if (level =? LVL_WARN) || (level =? LVL_ERR) then Some (SolRaise isoverflow level)
  else Some SolKeyError.

(** soltest.py:118-146 [check_uint256] with the default [log_f]; [number] is the argument
    after the conversion [int(number)] (128) *)
Definition check_uint256 (raise_lvl number : Z) : sol_result :=
  let log level isoverflow ret :=
    match raise_f raise_lvl level isoverflow with Some e => e | None => SolReturn ret end in
  if number <? 0 then log LVL_ERR true 0                                  (* 133-135 *)
  else if number <? UNDERFLOW_ERR then log LVL_ERR false number           (* 136-137 *)
  else if number <? UNDERFLOW_WARN then log LVL_WARN false number         (* 138-139 *)
  else if OVERFLOW_ERR <=? number then log LVL_ERR true number            (* 140-141 *)
  else if OVERFLOW_WARN <=? number then log LVL_WARN true number          (* 142-143 *)
  else log LVL_LOG false number.                                          (* 144-145 *)

(** ** carbon/tools/univ3calc.py (integer part) *)

(** univ3calc.py:22-27, 92-95 [ticksize]; [None] is the AssertionError of line 78 *)
Definition ticksize (fee_const : Z) : option Z :=
  if fee_const =? 100 then Some 1
  else if fee_const =? 500 then Some 10
  else if fee_const =? 3000 then Some 60
  else if fee_const =? 10000 then Some 200
  else None.

(** univ3calc.py:97-101 [tickab] *)
Definition tickab_of (tick ticksize : Z) : Z * Z :=
  let ticka := (tick / ticksize) * ticksize in (ticka, ticka + ticksize).
Definition tickab (tick fee_const : Z) : option (Z * Z) :=
  match ticksize fee_const with
  | None => None
  | Some t => Some (tickab_of tick t)
  end.

(** ** carbon/tools/simplepair.py and the class Pair of carbon/tools/cpc.py *)

(** [s.split(c)[0]] for a one-character separator *)
Fixpoint before (sep : ascii) (s : string) : string :=
  match s with
  | EmptyString => EmptyString
  | String c r => if Ascii.eqb c sep then EmptyString else String c (before sep r)
  end.

(** simplepair.py:79-81 [n] *)
Definition norm_simple (tkn : string) : string := before "(" (before "-" tkn).
(** cpc.py:105-108 [prettify_tkn] *)
Definition norm_cpc (tkn : string) : string := before "-" tkn.

(** simplepair.py:75-77, cpc.py:146-148 *)
Definition NUMERAIRE : list string :=
  ["USDC"; "USDT"; "DAI"; "TUSD"; "BUSD"; "PAX"; "GUSD"; "USDS"; "sUSD"; "mUSD"; "HUSD";
   "USDN"; "USDP"; "USDQ"; "ETH"; "WETH"; "WBTC"; "BTC"]%string.

(** [NUMERAIRE_TOKENS.get(tkn, 1e10)] *)
Fixpoint index_from (i : Z) (l : list string) (tkn : string) : Z :=
  match l with
  | [] => 10000000000
  | t :: l => if String.eqb t tkn then i else index_from (i + 1) l tkn
  end.
Definition numeraire_index (tkn : string) : Z := index_from 0 NUMERAIRE tkn.

(** simplepair.py:99-106, cpc.py:150-157 [isprimary], for the normalisation [norm] *)
Definition isprimary (norm : string -> string) (b q : string) : bool :=
  let qix := numeraire_index (norm q) in
  let bix := numeraire_index (norm b) in
  if qix =? bix then String.ltb b q else qix <? bix.

(** simplepair.py:44-60 *)
Definition pair_str (b q : string) : string := (b ++ "/" ++ q)%string.

(** simplepair.py:22-27: [__post_init__] with a string; [None] is ValueError *)
Definition parse_pair (s : string) : option (string * string) :=
  match split_slash s with [b; q] => Some (b, q) | _ => None end.

(** simplepair.py:114-122 [primary], [secondary] *)
Definition primary (norm : string -> string) (b q : string) : string :=
  if isprimary norm b q then pair_str b q else pair_str q b.
Definition secondary (norm : string -> string) (b q : string) : string :=
  if isprimary norm b q then pair_str q b else pair_str b q.

(** outcome of a price query *)
Inductive price_result := Price (p : Q) | PriceNaN | PriceZeroDivision.

(** simplepair.py:108-112 [primary_price] *)
Definition primary_price_simple (b q : string) (p : Q) : price_result :=
  if Qeq_bool p 0 then PriceNaN
  else Price (if isprimary norm_simple b q then p else 1 / p).

(** cpc.py:159-161 [primary_price] *)
Definition primary_price_cpc (b q : string) (p : Q) : price_result :=
  if isprimary norm_cpc b q then Price p
  else if Qeq_bool p 0 then PriceZeroDivision else Price (1 / p).

(** ** carbon/tools/tokenscale.py *)

(** tokenscale.py:55-75: the dictionary [scale_dct] with [add_scale] and [_scale] *)
Definition scale_dct := list (string * Q).
Fixpoint dct_set (k : string) (v : Q) (d : scale_dct) : scale_dct :=
  match d with
  | [] => [(k, v)]
  | (k', v') :: d => if String.eqb k' k then (k', v) :: d else (k', v') :: dct_set k v d
  end.
Fixpoint dct_get (k : string) (d : scale_dct) : option Q :=
  match d with
  | [] => None
  | (k', v) :: d => if String.eqb k' k then Some v else dct_get k d
  end.

(** tokenscale.py:21 *)
Definition DEFAULT_SCALE : Q := 1 # 100.

(** tokenscale.py:22-35 [scale] *)
Definition scale (d : scale_dct) (tkn : string) : Q :=
  match dct_get tkn d with Some s => s | None => DEFAULT_SCALE end.

(** tokenscale.py:67-71 [add_scale] *)
Definition add_scale (d : scale_dct) (tkn : string) (s : Q) : scale_dct := dct_set tkn s d.
