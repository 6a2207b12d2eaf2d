(** What the statements about the SDK layer talk about. *)
From Coq Require Import ZArith QArith List Bool Ascii String.
From Verif Require Import TradeModel PairModel PairSpec CurveModel SdkModel.
Import ListNotations.
Local Open Scope string_scope.

(** [s] is a lower estimate of the square root of the price [b], off by less than the relative
    amount [r] and the absolute amount [e] *)
Definition root_near (s b r e : Q) : Prop := (s * s <= b /\ b < (s * (1 + r) + e) * (s * (1 + r) + e))%Q.
Definition two_to (k : Z) : Q := Qpower 2 k.

(** the last element of [l] with the given key *)
Fixpoint last_with (key : token -> string) (k : string) (l : list token) : option token :=
  match l with
  | [] => None
  | t :: r => match last_with key k r with Some x => Some x | None => if String.eqb (key t) k then Some t else None end
  end.
(** the number of different keys *)
Definition distinct (key : token -> string) (l : list token) : nat := List.length (nodup string_dec (map key l)).
(** a token as the constructor leaves it *)
Definition normal (t : token) : Prop := upper (t_T t) = t_T t /\ lower (t_a t) = t_a t.
(** equal up to case *)
Definition same_ci (a b : string) : Prop := lower a = lower b.

(** words of a camel case name *)
Fixpoint all_chars (P : ascii -> bool) (s : string) : bool :=
  match s with EmptyString => true | String c r => P c && all_chars P r end.
Definition starts (P : ascii -> bool) (s : string) : bool := match s with EmptyString => false | String c _ => P c end.
(** [s] with no slash at its end or at its start *)
Fixpoint ends_slash (s : string) : bool :=
  match s with EmptyString => false | String c EmptyString => Ascii.eqb c "/" | String _ r => ends_slash r end.
Definition starts_slash (s : string) : bool := match s with EmptyString => false | String c _ => Ascii.eqb c "/" end.

(** the argument stands for the pair with base token [b] and quote token [q] *)
Definition names (a : slash_arg) (b q : string) : Prop :=
  (exists x y, a = SlashStr (x ++ "/" ++ y) /\ slash_free x /\ slash_free y /\ upper x = b /\ upper y = q) \/
  (exists p, a = SlashPair p /\ slash_free (tknb p) /\ slash_free (tknq p) /\ upper (tknb p) = b /\ upper (tknq p) = q).
(** [a] names the pair of the two different tokens [b] and [q], which the container finds under their tickers *)
Definition listed (T : container) (a : slash_arg) (b q : token) : Prop :=
  names a (t_T b) (t_T q) /\ t_T b <> t_T q /\
  byticker T (t_T b) (Some false) false = Ret (Some b) /\ byticker T (t_T q) (Some false) false = Ret (Some q).
(** what the server answers makes sense for this pair of tokens: positive rates, in order *)
Definition sane (s : server) (a b : token) : Prop :=
  (0 < s_minrate s (t_a a) (t_a b))%Q /\ (s_minrate s (t_a a) (t_a b) <= s_maxrate s (t_a a) (t_a b))%Q.
(** the encoded orders of a strategy are in the order (base token, quote token), up to case *)
Definition base_first (s : sdk_strat) : Prop := same_ci (sk_base s) (eo_token (sk_order0 s)) /\ same_ci (sk_quote s) (eo_token (sk_order1 s)).
(** the name of an address: the ticker of the last token with it, or the address in lower case *)
Definition name_of (l : list token) (a : string) : string := match last_with t_a (lower a) l with Some t => t_T t | None => lower a end.
(** the strategy object [o] shows the strategy [s], with lower case addresses, its tokens named by [f] *)
Definition named (f : string -> string) (s : sdk_strat) (o : strat_obj) : Prop :=
  sk_base (so_strat o) = lower (sk_base s) /\ sk_quote (so_strat o) = lower (sk_quote s) /\ so_baseName o = f (sk_base s) /\ so_quoteName o = f (sk_quote s) /\
  sk_id (so_strat o) = sk_id s /\ sk_order0 (so_strat o) = sk_order0 s /\ sk_order1 (so_strat o) = sk_order1 s /\
  sk_buyLow (so_strat o) = sk_buyLow s /\ sk_buyHigh (so_strat o) = sk_buyHigh s /\ sk_buyBudget (so_strat o) = sk_buyBudget s /\
  sk_sellLow (so_strat o) = sk_sellLow s /\ sk_sellHigh (so_strat o) = sk_sellHigh s /\ sk_sellBudget (so_strat o) = sk_sellBudget s.
