(** Model of the tables that carbon/helpers/cryptocompare.py aggregates from price histories
    (aggr_query 413-453, pairs_fields_from_df 454-466, reformat_raw_df 473-498), on top of the
    queries of CcModel.v.

    A data frame is its index (times), its column names and the cells, None for NaN. pd.concat
    along the columns joins the indices; the order of the joined index is not modelled exactly
    (order of appearance here). The times of one history are taken to be distinct (otherwise
    pandas may refuse to join). The order in which Python lists a set is a parameter. *)
From Coq Require Import ZArith QArith List Bool String.
From Verif Require Import PairModel CurveModel CcModel.
Import ListNotations.
Local Open Scope string_scope.
Local Open Scope list_scope.

Definition pt := (string * string)%type.
Definition pt_eqb (a b : pt) : bool := String.eqb (fst a) (fst b) && String.eqb (snd a) (snd b).
(** a price history: the rows of query_freqlypair (line 301), None if the query failed quietly *)
Definition history := list (Z * list Q).
Definition raws := list (pt * option history).
(** dict assignment *)
Fixpoint rset (p : pt) (t : option history) (l : raws) : raws :=
  match l with [] => [(p, t)] | (p', t') :: l => if pt_eqb p p' then (p', t) :: l else (p', t') :: rset p t l end.
(** 429-432: the answers by pair *)
Fixpoint raw_by_pair (c : cc) (s : server) (freq : string) (pairs : list pt) (acc : raws) : res raws :=
  match pairs with
  | [] => Ret acc
  | p :: ps => let* t := snd (query_freqlypair c s freq (Some (fst p)) (Some (snd p)) None LFalse None true) in raw_by_pair c s freq ps (rset p t acc)
  end.

Record frame (A : Type) := mkFrame { f_index : list Z; f_cols : list (A * list (option Q)) }.
Arguments mkFrame {A}. Arguments f_index {A}. Arguments f_cols {A}.
Definition FIELDS : list string := ["open"; "close"; "high"; "low"; "volumefrom"; "volumeto"].
(** 301: the table of one pair *)
Definition table_of (p : pt) (h : history) : frame (pt * string) :=
  mkFrame (map fst h) (map (fun i => ((p, nth i FIELDS ""), map (fun r => nth_error (snd r) i) h)) (seq 0 (List.length FIELDS))).
(** pd.concat(..., axis=1): outer join *)
Definition add_times (l m : list Z) : list Z := l ++ filter (fun t => negb (existsb (Z.eqb t) l)) m.
Fixpoint cell (idx : list Z) (vs : list (option Q)) (t : Z) : option Q :=
  match idx, vs with u :: idx, v :: vs => if Z.eqb u t then v else cell idx vs t | _, _ => None end.
Definition reindex {A} (idx : list Z) (f : frame A) : list (A * list (option Q)) :=
  map (fun c => (fst c, map (cell (f_index f) (snd c)) idx)) (f_cols f).
Definition concat {A} (l : list (frame A)) : res (frame A) :=
  match l with
  | [] => Raise ValueError
  | _ => let idx := fold_left add_times (map f_index l) [] in Ret (mkFrame idx (flat_map (reindex idx) l))
  end.
(** 433: None is left out *)
Definition df_raw (ts : raws) : res (frame (pt * string)) :=
  concat (flat_map (fun x => match snd x with Some h => [table_of (fst x) h] | None => [] end) ts).
(** 454-466: the pairs of a table as a set *)
Fixpoint distinct (l : list pt) : list pt :=
  match l with [] => [] | p :: l => p :: filter (fun q => negb (pt_eqb p q)) (distinct l) end.
Definition pairs_of (f : frame (pt * string)) : list pt := distinct (map (fun c => fst (fst c)) (f_cols f)).
(** the column of a pair and a field *)
Fixpoint column (p : pt) (fld : string) (l : list ((pt * string) * list (option Q))) : res (list (option Q)) :=
  match l with
  | [] => Raise KeyError
  | ((p', fld'), vs) :: l => if pt_eqb p p' && String.eqb fld fld' then Ret vs else column p fld l
  end.
(** 482-498: names are pairs, or fields with pairs *)
Inductive cname := One (pair : string) | Two (field pair : string).
Definition name_of (dbl : bool) (fld : string) (p : pt) : cname :=
  if dbl then Two fld (fst p ++ "/" ++ snd p)%string else One (fst p ++ "/" ++ snd p)%string.
Definition reformat (order : list pt -> list pt) (f : frame (pt * string)) (fld : string) (dbl : bool) : res (frame cname) :=
  let* fs := all_ok (fun p => let* vs := column p fld (f_cols f) in Ret (mkFrame (f_index f) [(name_of dbl fld p, vs)])) (order (pairs_of f)) in
  concat fs.
(** 413-453: the tables by field and, if wanted, all of them in one; the fields are a list (a
    string is split by unjoin, 413-414; the default is "close") *)
Fixpoint fset (k : string) (v : frame cname) (l : list (string * frame cname)) : list (string * frame cname) :=
  match l with [] => [(k, v)] | (k', v') :: l => if String.eqb k k' then (k', v) :: l else (k', v') :: fset k v l end.
Fixpoint by_field (order : list pt -> list pt) (f : frame (pt * string)) (dbl : bool) (flds : list string) (acc : list (string * frame cname)) : res (list (string * frame cname)) :=
  match flds with [] => Ret acc | fld :: flds => let* t := reformat order f fld dbl in by_field order f dbl flds (fset fld t acc) end.
Definition fields_arg (f : option (coins string)) : list string :=
  match f with None => unjoin None "close" | Some (Joined s) => unjoin None s | Some (Items l) => l end.
Record aggregated := mkAggr { ag_aggr : list (string * frame cname); ag_grand : option (frame cname) }.
Definition aggregate (order : list pt -> list pt) (ts : raws) (flds : list string) (grand : bool) : res aggregated :=
  let* df := df_raw ts in
  let* t := by_field order df grand flds [] in
  if grand then let* g := concat (map snd t) in Ret (mkAggr t (Some g)) else Ret (mkAggr t None).
(** the whole of aggr_query, without the raw tables of CcModel.v *)
Definition aggr_tables (c : cc) (s : server) (order : list pt -> list pt) (pairs : coins pt) (freq : option string) (f : option (coins string)) (grand : bool) : res aggregated :=
  let* ps := aggr_pairs pairs in
  let* ts := raw_by_pair c s (match freq with None => "day" | Some f => f end) ps [] in
  aggregate order ts (fields_arg f) grand.
