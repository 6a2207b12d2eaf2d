(** What the statements about CcModel.v talk about. *)
From Coq Require Import ZArith QArith List Bool String Ascii.
From Verif Require Import CurveModel CcModel.
From Verif Require SdkModel.
Import ListNotations.
Local Open Scope string_scope.

(** the number of times a character occurs *)
Fixpoint occurs (c : ascii) (s : string) : nat :=
  match s with EmptyString => 0 | String a r => (if Ascii.eqb a c then 1 else 0) + occurs c r end.
(** no white space at the ends *)
Definition trimmed (s : string) : Prop := SdkModel.strip s = s.
(** the content of the cache for an item: the last value written *)
Definition stored {D} (w : world D) (item : string) (d : D) : Prop := SdkModel.dget item (w_files w) = Some d.
Definition missing {D} (w : world D) (item : string) : Prop := SdkModel.dget item (w_files w) = None.
(** the request for a pair with the key, as the documentation of the service writes it *)
Definition key_params (k : key) : list (string * pval) := match k with Anonymous => [] | Key s => [("api_key", PStr s)] end.
Definition pair_request (c : cc) (freq b q : string) : request :=
  mkReq ("https://min-api.cryptocompare.com/data/v2/histo" ++ freq) ([("fsym", PStr b); ("tsym", PStr q); ("limit", PInt 2000)] ++ key_params (c_key c))%list.
(** the parameters of a request for a price history: only those given, and the defaults *)
Definition freq_params (c : cc) (f t e : option string) (l : limarg) (ts : option Z) : list (string * pval) :=
  (match f with None => [] | Some f => [("fsym", PStr f)] end ++ [("tsym", PStr (match t with None => "usd" | Some t => t end))] ++ match e with None => [] | Some e => [("e", PStr e)] end ++
   match l with LFalse => [("limit", PInt 2000)] | LNone => [] | LNum n => [("limit", PInt n)] end ++ match ts with None => [] | Some n => [("toTs", PInt n)] end ++ key_params (c_key c))%list.
