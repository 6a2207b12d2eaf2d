(** Model of carbon/pair.py (class CarbonPair).

    Python strings are Coq [string]s (ASCII; [str.upper] on non-ASCII characters is not
    modelled). Exceptions are [None] of an outer [option]; where the Python method can
    also return the value None, the result type is a further [option]. Prices and amounts
    are exact rationals. The display symbols (tknb_o, ... lines 140-168) are kept as
    fields but the string formatting properties built from them are not modelled. *)
From Coq Require Import ZArith QArith List Bool Ascii String.
From Verif Require Import TradeModel.
Import ListNotations.
Local Open Scope string_scope.

(** Python [str.upper] on ASCII letters *)
Definition upper_ascii (c : ascii) : ascii :=
  let n := nat_of_ascii c in
  if (Nat.leb 97 n && Nat.leb n 122)%bool then ascii_of_nat (n - 32) else c.
Fixpoint upper (s : string) : string :=
  match s with
  | EmptyString => EmptyString
  | String c s => String (upper_ascii c) (upper s)
  end.

(** Python [s.split("/")] *)
Fixpoint split_slash (s : string) : list string :=
  match s with
  | EmptyString => [EmptyString]
  | String c s =>
    if Ascii.eqb c "/" then EmptyString :: split_slash s
    else match split_slash s with
         | [] => [String c EmptyString]
         | w :: ws => String c w :: ws
         end
  end.

(** pair.py:40-43, 74-85: the object after construction. [slashpair] (79) is a function of
    the tokens, see [slashpair_of]. *)
Record pair := mkPair {
  tknb : string; tknq : string;
  tknb_orig : string; tknq_orig : string;
  display_orig : bool;
  tknb_decimals : option Z; tknq_decimals : option Z
}.

(** pair.py:79 *)
Definition slashpair_of (p : pair) : string := tknb p ++ "/" ++ tknq p.

(** pair.py:40: the argument [slashpair] is None, a string, or a CarbonPair *)
Inductive slash_arg := NoSlash | SlashStr (s : string) | SlashPair (p : pair).

(** truth value of the argument (pair.py:48): None and "" are false *)
Definition slash_truthy (a : slash_arg) : bool :=
  match a with NoSlash => false | SlashStr s => negb (String.eqb s "") | SlashPair _ => true end.
Definition str_truthy (s : option string) : bool :=
  match s with None => false | Some s => negb (String.eqb s "") end.

(** pair.py:45-85 [__post_init__] *)
Definition mk_pair (slash : slash_arg) (b q : option string) (disp : bool) : option pair :=
  if slash_truthy slash then
    if str_truthy b || str_truthy q then None                                    (* 50-55 *)
    else
      let source := match slash with SlashPair p => Some p | _ => None end in    (* 57-59 *)
      let str := match slash with SlashPair p => slashpair_of p | SlashStr s => s | NoSlash => "" end in
      match split_slash str with                                                 (* 62-65 *)
      | [b; q] =>
        Some (mkPair (upper b) (upper q) b q disp
                     (match source with Some p => tknb_decimals p | None => None end)
                     (match source with Some p => tknq_decimals p | None => None end))
      | _ => None
      end
  else
    match b, q with                                                              (* 70-71 *)
    | Some b, Some q => Some (mkPair (upper b) (upper q) b q disp None None)     (* 74-82 *)
    | _, _ => None
    end.

(** pair.py:235-257 [create]; result [Some None] is Python's None. *)
Inductive create_arg := ArgNone | ArgStr (s : string) | ArgPair (p : pair).
Definition create (arg1 : create_arg) (arg2 : option string) : option (option pair) :=
  match arg1, arg2 with
  | ArgNone, None => Some None
  | ArgPair p, None => Some (Some p)
  | ArgPair _, Some _ => None
  | ArgStr s, None => option_map Some (mk_pair (SlashStr s) None None false)
  | ArgStr s, Some q => option_map Some (mk_pair NoSlash (Some s) (Some q) false)
  | ArgNone, Some q => option_map Some (mk_pair NoSlash None (Some q) false)
  end.

(** pair.py:290-297 *)
Definition pair_iso (p : pair) : string := tknb p ++ tknq p.
(** pair.py:304-309 (construction from two non-None tokens cannot raise) *)
Definition reverse (p : pair) : pair :=
  mkPair (upper (tknq p)) (upper (tknb p)) (tknq p) (tknb p) false None None.

(** pair.py:316-339 *)
Definition has_basetoken (p : pair) (tkn : string) : bool := String.eqb tkn (tknb p).
Definition has_quotetoken (p : pair) (tkn : string) : bool := String.eqb tkn (tknq p).
Definition has_token (p : pair) (tkn : string) : bool :=
  if has_quotetoken p tkn then true else has_basetoken p tkn.

(** pair.py:341-349 *)
Definition other (p : pair) (tkn : string) : option string :=
  if has_basetoken p tkn then Some (tknq p)
  else if has_quotetoken p tkn then Some (tknb p)
  else None.

(** Python's [a / b] on Decimals/floats: division by zero raises. *)
Definition qdiv (a b : Q) : option Q := if Qeq_bool b 0 then None else Some (a / b)%Q.

(** pair.py:351-371. Outer None: exception; [Some None]: Python's None. *)
Definition convert (p : pair) (amtfrom : Q) (tknfrom tknto : string) (price : Q) : option (option Q) :=
  if negb (has_token p tknfrom) then Some None
  else if negb (has_token p tknto) then Some None
  else if String.eqb tknfrom tknto then Some (Some amtfrom)
  else if has_basetoken p tknfrom then Some (Some (amtfrom * price)%Q)
  else option_map Some (qdiv amtfrom price).

(** pair.py:373-392 *)
Definition price (p : pair) (price0 : Q) (tknb0 tknq0 : string) : option (option Q) :=
  if negb (has_token p tknb0) then Some None
  else if negb (has_token p tknq0) then Some None
  else if String.eqb tknb0 tknq0 then Some None
  else if has_basetoken p tknq0 then option_map Some (qdiv 1 price0)
  else Some (Some price0).

(** pair.py:394-409 *)
Definition convert_price (p : pair) (price : option Q) (tknq : string) : option (option Q) :=
  match price with
  | None => Some None
  | Some price =>
    if negb (has_token p tknq) then Some None
    else if has_quotetoken p tknq then Some (Some price)
    else option_map Some (qdiv 1 price)
  end.

(** pair.py:411-412; any other string is [BadSide] *)
Inductive side := BUY | SELL | BadSide.

(** strict comparison of rationals *)
Definition Qlt_bool (a b : Q) : bool := negb (Qle_bool b a).

(** pair.py:422-477 [limit_is_met] without [asphrase]; the parameter [reverse] is
    overwritten at line 455 and so has no effect. [None] is Python's None. *)
Definition limit_is_met (p : pair) (tkn : string) (limit_price : Q) (buysell : side) (current_price : Q) : option bool :=
  if negb (has_token p tkn) then None
  else if Qeq_bool current_price limit_price then Some true
  else
    let reverse := has_quotetoken p tkn in
    match buysell with
    | BUY => Some (if negb reverse then Qlt_bool current_price limit_price else Qlt_bool limit_price current_price)
    | SELL => Some (if negb reverse then Qlt_bool limit_price current_price else Qlt_bool current_price limit_price)
    | BadSide => None
    end.

(** Python [s.replace(t, ".")] for non-empty [t]: leftmost non-overlapping occurrences;
    [skip] counts the characters of the current occurrence still to be dropped *)
Fixpoint replace_from (skip : nat) (t s : string) : string :=
  match s with
  | EmptyString => EmptyString
  | String c s' =>
    match skip with
    | S k => replace_from k t s'
    | O => if prefix t s then String "." (replace_from (pred (String.length t)) t s')
           else String c (replace_from 0 t s')
    end
  end.
(** [s.replace("", ".")] puts a dot before every character and one at the end *)
Fixpoint interleave_dots (s : string) : string :=
  match s with EmptyString => "." | String c s => String "." (String c (interleave_dots s)) end.
Definition replace_dot (t s : string) : string :=
  if String.eqb t "" then interleave_dots s else replace_from 0 t s.

(** [s[:-1]] and the test [s[-1] == "."] on a non-empty string *)
Fixpoint droplast (s : string) : string :=
  match s with
  | EmptyString => EmptyString
  | String c EmptyString => EmptyString
  | String c s => String c (droplast s)
  end.
Fixpoint last_is_dot (s : string) : bool :=
  match s with
  | EmptyString => false
  | String c EmptyString => Ascii.eqb c "."
  | String _ s => last_is_dot s
  end.

(** pair.py:170-214 [from_isopair_and_tkn]; None is an exception. (An empty [isopair] with a
    token always raises at 197: replacing in "" a non-empty token changes nothing; with the
    empty token the result is ".", which is handled by the first branch.) *)
Definition from_isopair_and_tkn (isopair : string) (tkn : option string) : option pair :=
  let isopair := upper isopair in
  match tkn with
  | None =>
    if Nat.eqb (String.length isopair) 6 then
      mk_pair NoSlash (Some (substring 0 3 isopair)) (Some (substring 3 3 isopair)) false
    else if Nat.eqb (String.length isopair) 8 then
      mk_pair NoSlash (Some (substring 0 4 isopair)) (Some (substring 4 4 isopair)) false
    else None
  | Some tkn =>
    let tkn2 := replace_dot tkn isopair in
    if String.eqb tkn2 isopair then None
    else match tkn2 with
         | String c rest =>
           if Ascii.eqb c "." then mk_pair NoSlash (Some tkn) (Some rest) false
           else if last_is_dot tkn2 then mk_pair NoSlash (Some (droplast tkn2)) (Some tkn) false
           else None
         | EmptyString => None  (* unreachable: a replacement leaves at least a dot *)
         end
  end.
