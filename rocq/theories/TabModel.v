(** Model of CPCContainer.pairs_analysis of carbon/tools/cpc.py (lines 1144-1290): tables of the
    curves of a container, their numbers, prices and volumes per pair and per token.

    A data frame is a table: row labels, column labels, and a list of cells per row; [None] is
    a cell that is not a (finite) number. Numbers are real numbers. A pivot table has one row and
    one column per label in the order of the labels; pandas leaves groups out that have no value
    (dropna). The options of formatting (pretty) are left out. For a container without curves
    pandas returns frames whose shape is left open; here they have no rows. *)
From Coq Require Import Reals Bool List String Arith.
From Verif Require Import CurveModel PairModel HelperModel CpcModel ContainerModel FileModel.
Import ListNotations.
Local Open Scope R_scope.

(** ** records (1144-1151, 565-574) *)
Record rec := mkRec { r_tknx : string; r_tkny : string; r_tknb : string; r_tknq : string; r_pair : string; r_primary : string; r_isprimary : bool;
                      r_p : R; r_pp : R; r_x : R; r_xa : R; r_y : R; r_ya : R; r_cid : cid }.
Definition record_of (h : heap) (r : nat) : res rec :=
  let c := obj h r in
  let* q := pp c in
  Ret (mkRec (tknx c) (tkny c) (tknx c) (tkny c) (pair_of c) (primary_of c) (isprimary norm_cpc (tknx c) (tkny c)) (CpcModel.p c) q
             (x c) (x_act c) (y c) (y_act c) (cid_of h r)).
(** 1197-1202: the curves on the pairs, in either direction *)
Definition curvedata (h : heap) (cc : container) (ps : option (list string)) : res (list rec) :=
  let* l := bypairs h cc (Some (match ps with Some l => l | None => pairs h cc true end)) false in
  rmap (record_of h) l.

(** ** pivot tables *)
Record table (A : Type) := mkTable { t_rows : list string; t_cols : list string; t_cells : list (list A) }.
Arguments mkTable {A}. Arguments t_rows {A}. Arguments t_cols {A}. Arguments t_cells {A}.
(** labels in order, each once *)
Definition labels (l : list string) : list string := sort_str (as_set l).
Definition tabulate {A} (rows cols : list string) (f : string -> string -> A) : table A :=
  mkTable rows cols (map (fun a => map (f a) cols) rows).
Definition group (f g : rec -> string) (l : list rec) (a b : string) : list rec :=
  filter (fun r => String.eqb (f r) a && String.eqb (g r) b) l.
(** pivot_table(index=f, columns=g, aggfunc=agg); there is no value for an empty group *)
Definition pivot {A} (f g : rec -> string) (agg : list rec -> option A) (l : list rec) : table (option A) :=
  let value a b := match group f g l a b with [] => None | grp => agg grp end in
  let kept := filter (fun r => match value (f r) (g r) with Some _ => true | None => false end) l in
  tabulate (labels (map f kept)) (labels (map g kept)) value.
(** fillna(d) *)
Definition filled {A} (d : A) (t : table (option A)) : table A :=
  mkTable (t_rows t) (t_cols t) (map (map (fun o => match o with Some v => v | None => d end)) (t_cells t)).
(** the cell at two labels *)
Fixpoint position (l : list string) (a : string) : option nat :=
  match l with [] => None | b :: l => if String.eqb b a then Some O else match position l a with Some i => Some (S i) | None => None end end.
Definition tcell {A} (t : table A) (a b : string) : option A :=
  match position (t_rows t) a, position (t_cols t) b with
  | Some i, Some j => match nth_error (t_cells t) i with Some row => nth_error row j | None => None end
  | _, _ => None
  end.
(** 1229-1231, 1235-1236: numbers of curves *)
Definition counts (f g : rec -> string) (l : list rec) : table nat := filled O (pivot f g (fun grp => Some (List.length grp)) l).
(** 1065-1072: reindex leaves cells of new labels empty, and a sum with an empty cell is empty *)
Definition make_symmetric (t : table nat) : table nat :=
  let fields := labels (t_rows t ++ t_cols t) in
  let u := tabulate fields fields (tcell t) in
  let at_ a b := match tcell u a b with Some o => o | None => None end in
  filled O (tabulate fields fields (fun a b => match at_ a b, at_ b a with Some n, Some m => Some (n + m)%nat | _, _ => None end)).

(** ** aggregation of prices *)
Definition meanl (l : list R) : R := rsum l / INR (List.length l).
Definition squares (l : list R) : R := rsum (map (fun v => (v - meanl l) ^ 2) l).
(** aggfunc=np.std is pandas' std, with n-1, which has no value for one number *)
Definition std1 (l : list R) : option R := if Nat.ltb (List.length l) 2 then None else Some (sqrt (squares l / INR (List.length l - 1))).
(** 1672-1674: np.std of a Series divides by n *)
Definition sdpc (l : list R) : option R := if req (meanl l) 0 then None else Some (sqrt (squares l / INR (List.length l)) / meanl l).
Definition prices_by (agg : list R -> option R) (l : list rec) : table (option R) := pivot r_tknb r_tknq (fun grp => agg (map r_p grp)) l.

(** ** lists of prices (targets pricelist and plaggr) *)
Definition cid_leb (a b : cid) : bool :=
  match a, b with CInt n, CInt m => Nat.leb n m | CInt _, CStr _ => true | CStr _, CInt _ => false | CStr s, CStr t => String.leb s t end.
Fixpoint insert_row {A} (leb : A -> A -> bool) (a : A) (l : list A) : list A :=
  match l with [] => [a] | b :: r => if leb a b then a :: l else b :: insert_row leb a r end.
Fixpoint sort_rows {A} (leb : A -> A -> bool) (l : list A) : list A :=
  match l with [] => [] | a :: r => insert_row leb a (sort_rows leb r) end.
(** the directed pairs, in order *)
Definition directed (l : list rec) : list (string * string) :=
  flat_map (fun b => map (fun q => (b, q)) (labels (map r_tknq (filter (fun r => String.eqb (r_tknb r) b) l)))) (labels (map r_tknb l)).
Definition first_of (f : rec -> string) (l : list rec) : string := match l with [] => "" | r :: _ => f r end.
Record plrow := mkPl { l_tknb : string; l_tknq : string; l_cid : cid; l_primary : string; l_pair : string; l_p : R; l_pp : R }.
Definition cid_dec (a b : cid) : {a = b} + {a <> b}.
Proof. decide equality; [apply Nat.eq_dec|apply string_dec]. Defined.
(** 1273-1279 *)
Definition pricelist (l : list rec) : list plrow :=
  flat_map (fun bq => let g := group r_tknb r_tknq l (fst bq) (snd bq) in
    map (fun c => let g := filter (fun r => cid_eqb (r_cid r) c) g in
                  mkPl (fst bq) (snd bq) c (first_of r_primary g) (first_of r_pair g) (meanl (map r_p g)) (meanl (map r_pp g)))
        (sort_rows cid_leb (nodup cid_dec (map r_cid g)))) (directed l).
(** 1281-1288 *)
Record parow := mkPa { a_tknb : string; a_tknq : string; a_primary : string; a_mean : R; a_count : nat; a_sdpc100 : option R; a_min : R; a_max : R; a_rangepc100 : R; a_herf : option R }.
Definition finite (r : res R) : option R := match r with Ret v => Some v | Raise _ => None end.
Definition plaggr (l : list rec) : list parow :=
  map (fun bq => let g := group r_tknb r_tknq l (fst bq) (snd bq) in let v := map r_pp g in
         mkPa (fst bq) (snd bq) (first_of r_primary g) (meanl v) (List.length g) (match sdpc v with Some s => Some (s * 100) | None => None end)
              (minl v) (maxl v) (rangepc v * 100) (finite (herfindahl v))) (directed l).

(** ** volumes (1207-1227) *)
Record vrow := mkVol { v_tkn : string; v_cid : cid; v_amtv : R; v_amt : R }.
Definition vleb (a b : vrow) : bool := if String.eqb (v_tkn a) (v_tkn b) then cid_leb (v_cid a) (v_cid b) else String.leb (v_tkn a) (v_tkn b).
Definition volumes (l : list rec) : list vrow :=
  sort_rows vleb (map (fun r => mkVol (r_tknb r) (r_cid r) (r_x r) (r_xa r)) l ++ map (fun r => mkVol (r_tknq r) (r_cid r) (r_y r) (r_ya r)) l).
Definition quot (a b : R) : option R := if req b 0 then None else Some (a / b).
Definition volume_rows (l : list rec) : list (vrow * option R) := map (fun v => (v, quot (v_amtv v) (v_amt v))) (volumes l).
(** 1865-1866, 1885: T.ETH *)
Definition ETH : string := "WETH-6Cc2".
Record varow := mkVa { g_tkn : string; g_amtv : R; g_amt : R; g_amtv_h : option R; g_amt_h : option R; g_amtv_hn : option R; g_amt_hn : option R; g_n : nat;
                       g_price : option R; g_amtv_eth : option R; g_amt_eth : option R; g_lvg : option R }.
Definition times (a : R) (b : option R) : option R := match b with Some b => Some (a * b) | None => None end.
Definition oquot (a b : option R) : option R := match a, b with Some a, Some b => quot a b | _, _ => None end.
Definition volumes_by_token (h : heap) (cc : container) (l : list rec) : res (list varow) :=
  rmap (fun t => let g := filter (fun v => String.eqb (v_tkn v) t) (volumes l) in
          let av := map v_amtv g in let aa := map v_amt g in
          let* pr := (if String.eqb t ETH then Ret (Some 1) else price h cc t ETH) in
          let ev := times (rsum av) pr in let ea := times (rsum aa) pr in
          Ret (mkVa t (rsum av) (rsum aa) (finite (herfindahl av)) (finite (herfindahl aa)) (finite (herfindahlN av)) (finite (herfindahlN aa)) (List.length g)
                    pr ev ea (oquot ev ea)))
       (labels (map v_tkn (volumes l))).

(** ** 1170-1290: the targets *)
Inductive answer :=
| AList (l : list rec) | AVolumes (l : list (vrow * option R)) | AVolsagg (l : list varow) | ACounts (t : table nat)
| APrices (t : table R) | ASdpc (t : table (option R)) | APricelist (l : list plrow) | APlagg (l : list parow).
Definition pairs_analysis (h : heap) (cc : container) (target : string) (ps : option (list string)) : res answer :=
  let* l := curvedata h cc ps in
  if String.eqb target "list" || String.eqb target "listdf" then Ret (AList l)
  else if String.eqb target "volumes" then Ret (AVolumes (volume_rows l))
  else if String.eqb target "vaggr" then let* v := volumes_by_token h cc l in Ret (AVolsagg v)
  else if String.eqb target "pivotxy" then Ret (ACounts (counts r_tknx r_tkny l))
  else if String.eqb target "pivotxys" then Ret (ACounts (make_symmetric (counts r_tknx r_tkny l)))
  else if String.eqb target "pivotbq" then Ret (ACounts (counts r_tknb r_tknq l))
  else if String.eqb target "pivotbqs" then Ret (ACounts (make_symmetric (counts r_tknb r_tknq l)))
  else if String.eqb target "prices" then Ret (APrices (filled 0 (prices_by (fun v => Some (meanl v)) l)))
  else if String.eqb target "max" then Ret (APrices (filled 0 (prices_by (fun v => Some (maxl v)) l)))
  else if String.eqb target "min" then Ret (APrices (filled 0 (prices_by (fun v => Some (minl v)) l)))
  else if String.eqb target "std" then Ret (APrices (filled 0 (prices_by std1 l)))
  else if String.eqb target "stdpc" then Ret (ASdpc (prices_by sdpc l))
  else if String.eqb target "pricelist" then Ret (APricelist (pricelist l))
  else if String.eqb target "plaggr" then Ret (APlagg (plaggr l))
  else Raise ValueError.
