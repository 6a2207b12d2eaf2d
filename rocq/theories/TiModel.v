(** Model of the tables and result objects of carbon/tools/optimizer.py: the formats in which
    trade instructions are returned, the table of trades per curve of the convex optimizer, the
    scaled variables, and the instructions of the convex and of the simple optimizer.

    A data frame is its list of columns and its list of rows, each a label and one cell per
    column; a cell is a text, a number or missing (NaN). Python dicts are association lists in
    insertion order. Data types of columns, number formats and prints are left out. Numbers
    are real numbers as in OptModel.v, whose curves and instructions are used; the id of a
    curve is its position, and a function gives the texts that str(cid), pair and pairp
    return. *)
From Coq Require Import Reals Bool List String ZArith.
From Verif Require Import CurveModel PairModel HelperModel CpcModel ContainerModel OptModel.
Import ListNotations.
Local Open Scope R_scope.

(** ** data frames *)
Inductive cell := Txt (s : string) | Amt (v : R) | Hole.
Definition dict := list (string * cell).
(** a key of a dict display: a key that was there keeps its place and gets the new value *)
Fixpoint put (d : dict) (key : string) (v : cell) : dict :=
  match d with [] => [(key, v)] | (a, w) :: d => if String.eqb a key then (a, v) :: d else (a, w) :: put d key v end.
Definition display (l : list (string * cell)) : dict := fold_left (fun d e => put d (fst e) (snd e)) l [].
Fixpoint look (d : dict) (key : string) : cell :=
  match d with [] => Hole | (a, w) :: d => if String.eqb a key then w else look d key end.

Record frame := mkFrame { f_cols : list string; f_rows : list (cell * list cell) }.
Definition seen (acc : list string) (a : string) : list string := if existsb (String.eqb a) acc then acc else acc ++ [a].
(** pd.DataFrame.from_dict of a list of dicts: the keys in the order in which they appear *)
Definition columns (ds : list dict) : list string := fold_left seen (List.concat (map (map fst) ds)) [].
(** pd.DataFrame.from_dict(ds).set_index("cid") *)
Definition frame_by_cid (ds : list dict) : res frame :=
  let cols := columns ds in
  if existsb (String.eqb "cid") cols then
    let cols := filter (fun a => negb (String.eqb a "cid")) cols in
    Ret (mkFrame cols (map (fun d => (look d "cid", map (look d) cols)) ds))
  else Raise KeyError.
(** df[df.columns[n:]] *)
Definition columns_from (n : nat) (f : frame) : frame :=
  mkFrame (skipn n (f_cols f)) (map (fun r => (fst r, skipn n (snd r))) (f_rows f)).
(** a cell after fillna(0), as a summand; a text does not add to a number *)
Definition num (c : cell) : res R := match c with Amt v => Ret v | Hole => Ret 0 | Txt _ => Raise TypeError end.
(** the sum over each column of [g] of the cells; df[df>0].sum() masks the other cells, which
    then do not count *)
Definition sums (g : R -> R) (f : frame) : res (list cell) :=
  rmap (fun j => let* v := rmap (fun r : cell * list cell => num (nth j (snd r) Hole)) (f_rows f) in Ret (Amt (rsum (map g v))))
    (seq 0 (List.length (f_cols f))).

(** ** tables of trade instructions *)
(** what the instruction's curve and id say in text: str(cid), and pair and pairp if there is a curve *)
Record tag := mkTag { t_cid : string; t_pair : option (string * string) }.
(** lines 1527-1537 *)
Definition ti_row (info : nat -> tag) (t : instruction) : dict :=
  display [("cid", Txt (t_cid (info (ti_cid t))));
           ("pair", Txt (match t_pair (info (ti_cid t)) with Some p => fst p | None => "" end));
           ("pairp", Txt (match t_pair (info (ti_cid t)) with Some p => snd p | None => "" end));
           ("tknin", Txt (tknin t)); ("tknout", Txt (tknout t)); (tknin t, Amt (amtin t)); (tknout t, Amt (amtout t))]%string.
(** lines 1517-1520; asdict gives the five fields (the curve is not a field) *)
Definition ti_dict (info : nat -> tag) (t : instruction) : dict :=
  [("cid", Txt (t_cid (info (ti_cid t)))); ("tknin", Txt (tknin t)); ("amtin", Amt (amtin t)); ("tknout", Txt (tknout t)); ("amtout", Amt (amtout t))]%string.
(** lines 1542-1549 *)
Definition aggregate (f : frame) : res frame :=
  let f1 := columns_from 4 f in
  let* total := sums (fun v => v) f1 in
  let* pos := sums (fun v => if rlt 0 v then v else 0) f1 in
  let* neg := sums (fun v => if rlt v 0 then v else 0) f1 in
  Ret (mkFrame (f_cols f1) (f_rows f1 ++ [(Txt "AMMIn", pos); (Txt "AMMOut", neg); (Txt "TOTAL NET", total)])).
(** fillna("") *)
Definition filled (f : frame) : frame :=
  mkFrame (f_cols f) (map (fun r => (fst r, map (fun c => match c with Hole => Txt "" | _ => c end) (snd r))) (f_rows f)).
(** lines 1522-1552 *)
Definition to_df (info : nat -> tag) (l : list instruction) (fmt : option string) : res frame :=
  let fmt := match fmt with Some s => s | None => "dfraw"%string end in
  let* df := frame_by_cid (map (ti_row info) l) in
  if String.eqb fmt "dfraw" then Ret df else
  if String.eqb fmt "dfaggr" then aggregate df else
  if String.eqb fmt "dfp" then Ret (filled df) else Raise ValueError.
Inductive output := Objects (l : list instruction) | Dicts (l : list dict) | Frame (f : frame).
(** lines 1561-1576; the format is a string or None *)
Definition to_format (info : nat -> tag) (l : list instruction) (fmt : option string) : res output :=
  let fmt := match fmt with Some s => s | None => "objects"%string end in
  if String.eqb fmt "objects" then Ret (Objects l) else
  if String.eqb fmt "dicts" then Ret (Dicts (map (ti_dict info) l)) else
  if String.prefix "df" fmt then
    match l with [] => Ret (Frame (mkFrame [] [])) | _ => let* f := to_df info l (Some fmt) in Ret (Frame f) end
  else Raise ValueError.

(** pair and pairp of a curve (cpc.py:564-591) and of a curve behind an inverter (cpc.py:1779-1785) *)
Definition tag_of (name : nat -> string) (a b : string) (i : nat) : tag :=
  mkTag (name i) (Some (pair_str a b, pair_str (norm_cpc a) (norm_cpc b))).
(** lines 1408-1416 in any format: the instructions are made one by one while they are read, so
    for an unknown format this ValueError may come instead of that of an instruction *)
Definition m_instructions (name : nat -> string) (m : margp) (fmt : option string) : res output :=
  let* l := trade_instructions m in
  to_format (fun i => match nth_error (m_curves m) i with Some c => tag_of name (tknx c) (tkny c) i | None => mkTag "" None end) l fmt.

(** ** the convex optimizer's result *)
(** lines 78-102: the value of the solver's variable, if there is one, the scale (a number or
    one per entry) and the tokens, if given *)
Inductive scaling := One (r : R) | Each (l : list R).
Record scaled := mkScaled { v_raw : option (list R); v_scale : scaling; v_token : option (list string) }.
Definition make_scaled (v : scaled) : res scaled :=
  match v_raw v with
  | None => Ret v
  | Some l =>
    if match v_scale v with One _ => false | Each s => negb (Nat.eqb (List.length s) (List.length l)) end then Raise ValueError else
    if match v_token v with None => false | Some t => negb (Nat.eqb (List.length t) (List.length l)) end then Raise ValueError else Ret v
  end.
(** lines 104-122: without a value the division raises and the value None is returned *)
Definition scaled_value (v : scaled) : option (list R) :=
  match v_raw v with
  | None => None
  | Some l => Some (match v_scale v with One r => map (fun a => a / r) l | Each s => zipw Rdiv l s end)
  end.
(** zip(curves, dxvalues, dyvalues) *)
Fixpoint zip3 (cs : list cpc) (dx dy : list R) : list entry :=
  match cs, dx, dy with c :: cs, a :: dx, b :: dy => (c, a, b) :: zip3 cs dx dy | _, _, _ => [] end.
Definition moves (e : nat * entry) : bool := let '(_, (_, dx, dy)) := e in negb (req dx 0) || negb (req dy 0).
(** lines 425-430, as objects; iterating over the value None raises *)
Definition nofees_instructions (cs : list cpc) (dx dy : scaled) : res (list instruction) :=
  match scaled_value dx, scaled_value dy with
  | Some vx, Some vy =>
    let l := zip3 cs vx vy in
    rmap (fun e : nat * entry => let '(i, (c, dx, dy)) := e in new_ti i (tknx c) dx (tkny c) dy)
      (filter moves (combine (seq 0 (List.length l)) l))
  | _, _ => Raise TypeError
  end.
(** lines 444-459; a quotient by k = 0 is not modelled (numpy gives inf or nan) *)
Definition xy_row (name : nat -> string) (inclk : bool) (n : nat * entry) : dict :=
  let '(i, (c, dx, dy)) := n in
  display ([("cid", Txt (name i)); ("pair", Txt (pair_of c)); ("tknx", Txt (tknx c)); ("tkny", Txt (tkny c));
            ("x", Amt (x c)); ("y", Amt (y c)); ("xa", Amt (x_act c)); ("ya", Amt (y_act c))]%string ++
           (if inclk then [("k", Amt (k c)); ("kpost", Amt (((x c + dx) * (y c + dy))%R))]%string else []) ++
           [("kk", Amt (((x c + dx) * (y c + dy) / k c)%R)); (tknx c, Amt dx); (tkny c, Amt dy)]%string).
Definition xy_rows (name : nat -> string) (inclk : bool) (l : list entry) : list dict :=
  map (xy_row name inclk) (combine (seq 0 (List.length l)) l).
(** lines 460-465 with pretty=False: the totals are those of the columns from the ninth on *)
Definition dxdydf (name : nat -> string) (inclk : bool) (l : list entry) : res frame :=
  let* df := frame_by_cid (xy_rows name inclk l) in
  let* total := sums (fun v => v) (columns_from 8 df) in
  Ret (mkFrame (f_cols df) (f_rows df ++ [(Txt "total", repeat Hole (Nat.min 8 (List.length (f_cols df))) ++ total)])).

(** ** the simple optimizer's result *)
(** lines 905-931: dx and dy of the wrapped curves at the optimal price, all named by the first
    curve's tokens. Without curves zip gives nothing and index 0 fails. *)
Definition simple_instructions (r : so_result) : res (list instruction) :=
  let* v := dxdy_vec (so_curves r) (so_p r) in
  match so_curves r with
  | [] => Raise IndexError
  | c0 :: _ =>
    rmap (fun e : nat * (R * R) => let '(i, (dx, dy)) := e in new_ti i (side_tknx c0) dx (side_tkny c0) dy)
      (filter (fun e : nat * (R * R) => negb (req (fst (snd e)) 0) || negb (req (snd (snd e)) 0)) (combine (seq 0 (List.length v)) v))
  end.
Definition so_instructions (name : nat -> string) (r : so_result) (fmt : option string) : res output :=
  let* l := simple_instructions r in
  to_format (fun i => match nth_error (so_curves r) i with Some s => tag_of name (side_tknx s) (side_tkny s) i | None => mkTag "" None end) l fmt.
