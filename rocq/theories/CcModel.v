(** Model of carbon/helpers/cryptocompare.py: lists of coins and pairs, the cache, queries.

    Strings are ASCII. The server is a function from requests to answers; requests, data frames
    and pickles are reduced to their content. Printing is not modelled; the aggregation
    of tables into one data frame is in AggrModel.v. *)
From Coq Require Import ZArith QArith List Bool String Ascii.
From Verif Require Import PairModel CurveModel.
From Verif Require SdkModel.
Import ListNotations.
Local Open Scope string_scope.

(** ** lists of coins *)
(** Python [s.split(sep)] for a separator of one character *)
Fixpoint split_on (sep : ascii) (s : string) : list string :=
  match s with
  | EmptyString => [""]
  | String c r => if Ascii.eqb c sep then "" :: split_on sep r
                  else match split_on sep r with [] => [String c ""] | w :: ws => String c w :: ws end
  end.
(** 352-356: [sep.join], of strings *)
Definition join (sep : option string) (l : list string) : string := String.concat (match sep with None => ", " | Some s => s end) l.
(** 358-373, for the default filter; separators of one character *)
Definition unjoin (sep : option ascii) (s : string) : list string :=
  map SdkModel.strip (split_on (match sep with None => ","%char | Some c => c end) s).
(** 500-505: a wrong number of parts is a wrong number of arguments *)
Definition pt_from_pair (s : string) : res (string * string) :=
  match split_on "/" s with [a; b] => Ret (a, b) | _ => Raise TypeError end.
(** 507-512 *)
Definition pair_from_pt (p : string * string) : string := String.concat "/" [fst p; snd p].
(** 514-528: a string or a sequence of coins (with [aspt] pairs) *)
Fixpoint all_ok {A B} (f : A -> res B) (l : list A) : res (list B) :=
  match l with [] => Ret [] | a :: l => let* b := f a in let* r := all_ok f l in Ret (b :: r) end.
Inductive coins (A : Type) := Joined (s : string) | Items (l : list A).
Arguments Joined {A}. Arguments Items {A}.
Definition coinlist (c : coins string) (sep : ascii) : list string :=
  match c with Joined s => map SdkModel.strip (split_on sep s) | Items l => l end.
Definition coinlist_pt (c : coins (string * string)) (sep : ascii) : res (list (string * string)) :=
  match c with Joined s => all_ok (fun x => pt_from_pair (SdkModel.strip x)) (split_on sep s) | Items l => Ret l end.
(** 530-546 *)
Definition create_pairs (c : coins string) (q : option (coins string)) : list (string * string) :=
  let cs := coinlist c "," in
  let qs := match q with None => cs | Some q => coinlist q "," end in
  filter (fun p => negb (String.eqb (fst p) (snd p))) (flat_map (fun q => map (fun c => (c, q)) cs) qs).

(** ** the object *)
(** 38-52: the key is a string, missing, True (anonymous), or something else *)
Inductive keyarg := KStr (s : string) | KNone | KTrue | KOther.
Inductive key := Key (s : string) | Anonymous.
Record cc := mkCc { c_key : key; c_raise : bool }.
Definition new_cc (getenv : string -> option string) (apikeyname : option string) (apikey : keyarg) (raiseonerror : option bool) : res cc :=
  let r := match raiseonerror with None => true | Some b => b end in
  match apikey with
  | KOther => Raise ValueError
  | KStr s => Ret (mkCc (Key s) r)
  | KTrue => Ret (mkCc Anonymous r)
  | KNone => match getenv (match apikeyname with None => "CCAPIKEY" | Some n => n end) with
             | None => Raise RuntimeError
             | Some s => Ret (mkCc (Key s) r)
             end
  end.

(** ** the cache: the files in the data directory *)
Record world (D : Type) := mkWorld { w_files : list (string * D); w_writable : bool; w_queries : nat }.
Arguments mkWorld {D}. Arguments w_files {D}. Arguments w_writable {D}. Arguments w_queries {D}.
(** 71-82 *)
Definition cache {D} (c : cc) (w : world D) (item : string) : res (option D) :=
  match SdkModel.dget item (w_files w) with
  | Some d => Ret (Some d)
  | None => if c_raise c then Raise OSError else Ret None
  end.
(** 84-97 *)
Definition write_cache {D} (c : cc) (w : world D) (item : string) (d : D) : res (option string) * world D :=
  if w_writable w then (Ret (Some item), mkWorld (SdkModel.dset item d (w_files w)) (w_writable w) (w_queries w))
  else (if c_raise c then Raise OSError else Ret None, w).
(** 146-173; [update] is the outcome of the update method, one query; a query that fails without
    raising returns None, which is a value like any other: [none] *)
Definition cache_xxx {D} (c : cc) (w : world D) (item : string) (update : res D) (readonfail updateonfail : bool) : res (option D) * world D :=
  let readonfail := readonfail || updateonfail in
  match cache c w item with
  | Ret v => (Ret v, w)
  | Raise e =>
    if readonfail then
      let w := mkWorld (w_files w) (w_writable w) (S (w_queries w)) in
      match update with
      | Raise e => (Raise e, w)
      | Ret d =>
        if updateonfail then
          match write_cache c w item d with
          | (Raise e, w) => (Raise e, w)
          | (Ret _, w) => (Ret (Some d), w)
          end
        else (Ret (Some d), w)
      end
    else if c_raise c then (Raise e, w) else (Ret None, w)
  end.
(** 175-180, 206-211, 225-230: the two flags are not passed on *)
Definition cache_allexchanges {D} (c : cc) (w : world D) (update : res D) (readonfail updateonfail : bool) := cache_xxx c w "query_allexchanges" update true false.
Definition cache_coinlist {D} (c : cc) (w : world D) (update : res D) (readonfail updateonfail : bool) := cache_xxx c w "query_coinlist" update true false.
Definition cache_indexlist {D} (c : cc) (w : world D) (update : res D) (readonfail updateonfail : bool) := cache_xxx c w "query_indexlist" update true false.

(** ** queries *)
Inductive pval := PStr (s : string) | PInt (n : Z).
Record request := mkReq { r_url : string; r_params : list (string * pval) }.
(** one row of a price history *)
Record candle := mkCandle { k_time : Z; k_open : Q; k_close : Q; k_high : Q; k_low : Q; k_from : Q; k_to : Q }.
(** an answer: successful or not, and its content; [None] for a history without data *)
Record answer := mkAns { a_ok : bool; a_error : bool; a_history : option (list candle) }.
Definition server := request -> answer.
(** 54-58 *)
Definition url (endpoint : string) : string := "https://min-api.cryptocompare.com" ++ endpoint.
(** 114: parameters that are None are removed *)
Fixpoint given (l : list (string * option pval)) : list (string * pval) :=
  match l with [] => [] | (k, Some v) :: r => (k, v) :: given r | (_, None) :: r => given r end.
(** 101-131: the request sent, if any, and the answer; a response has no attribute [status] (128) *)
Definition query (c : cc) (s : server) (endpoint : string) (params : list (string * option pval)) (method : option string) : option request * res (option answer) :=
  let m := match method with None => "GET" | Some m => m end in
  let ps := given params in
  let ps := match c_key c with Anonymous => ps | Key k => SdkModel.dset "api_key" (PStr k) ps end in
  if String.eqb m "GET" then
    let rq := mkReq (url endpoint) ps in
    let a := s rq in
    (Some rq, if a_ok a then Ret (Some a) else if c_raise c then Raise AttributeError else Ret None)
  else (None, Raise ValueError).
(** 255-306; [limit]: False, None or a number; the result is the table of the prices;
    only a RuntimeError is caught at the end, and there is none *)
Inductive limarg := LFalse | LNone | LNum (n : Z).
Definition FREQS : list string := ["day"; "hour"; "minute"].
Definition prices_of (k : candle) : Z * list Q := (k_time k, [k_open k; k_close k; k_high k; k_low k; k_from k; k_to k]).
Definition query_freqlypair (c : cc) (s : server) (freq : string) (fsym tsym e : option string) (limit : limarg) (toTs : option Z) (aspandas : bool) : option request * res (option (list (Z * list Q))) :=
  if negb (existsb (String.eqb freq) FREQS) then (None, Raise ValueError) else
  let params := [("fsym", option_map PStr fsym); ("tsym", Some (PStr (match tsym with None => "usd" | Some t => t end))); ("e", option_map PStr e);
                 ("limit", match limit with LFalse => Some (PInt 2000) | LNone => None | LNum n => Some (PInt n) end); ("toTs", option_map PInt toTs)] in
  let '(rq, a) := query c s ("/data/v2/histo" ++ freq) params None in
  (rq, match a with
       | Raise e => Raise e
       | Ret None => Ret None
       | Ret (Some a) =>
         if a_error a then (if c_raise c then Raise RuntimeError else Ret None)
         else if negb aspandas then Raise TypeError
         else match a_history a with
              | None => Raise KeyError
              | Some [] => Raise KeyError
              | Some l => Ret (Some (map prices_of l))
              end
       end).
(** 419-439: the tables of aggr_query, one query for every pair in the list; the further
    arguments are not passed on; pd.concat ignores None but needs one table *)
Definition tables := list (string * option (list (Z * list Q))).
Fixpoint raw_tables (c : cc) (s : server) (freq : string) (pairs : list (string * string)) (acc : tables) : list request * res tables :=
  match pairs with
  | [] => ([], Ret acc)
  | p :: ps =>
    let '(rq, r) := query_freqlypair c s freq (Some (fst p)) (Some (snd p)) None LFalse None true in
    let rq := match rq with None => [] | Some q => [q] end in
    match r with
    | Raise e => (rq, Raise e)
    | Ret t => let '(rqs, out) := raw_tables c s freq ps (SdkModel.dset (pair_from_pt p) t acc) in ((rq ++ rqs)%list, out)
    end
  end.
Definition aggr_pairs (pairs : coins (string * string)) : res (list (string * string)) :=
  match pairs with Joined s => all_ok pt_from_pair (unjoin None s) | Items l => Ret l end.
Definition aggr_query (c : cc) (s : server) (pairs : coins (string * string)) (freq : option string) (e : option string) (limit : limarg) (toTs : option Z) : list request * res tables :=
  match aggr_pairs pairs with
  | Raise x => ([], Raise x)
  | Ret ps =>
    let '(rqs, out) := raw_tables c s (match freq with None => "day" | Some f => f end) ps [] in
    (rqs, let* t := out in if forallb (fun x => match snd x with None => true | Some _ => false end) t then Raise ValueError else Ret t)
  end.
