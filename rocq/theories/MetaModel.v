(** Model of what constant product curves carry besides their numbers (carbon/tools/cpc.py):
    token scales, ids, descriptions, constructors and parameters, and of the conversion of
    curves to dicts and data frames and back.

    Token scales are Python objects shared between curves and containers and can be changed, so
    they are kept in a list and referred to by position; position 0 is TokenScale1Data, the
    default. Numbers are real numbers; how a number is printed is an arbitrary function. Parameters
    given as a string (lines 224-226, read as json) are left out. *)
From Coq Require Import Reals QArith Qreals Bool List String Ascii Arith.
From Verif Require Import CurveModel PairModel HelperModel CpcModel ContainerModel OptModel.
From Verif Require SdkModel CcModel SimModel.
Import ListNotations.
Local Open Scope R_scope.

(** ** token scales in programs with containers *)
(** tokenscale.py:45-75; [None] is TokenScale1 *)
Definition tscale := option scale_dct.
Definition scale_of (t : tscale) (tkn : string) : R := match t with None => 1 | Some d => Q2R (scale d tkn) end.
(** the containers, the scale objects, the scale object of every curve (line 277) and of every
    container (line 881) *)
Record sworld := mkS { s_base : world; s_scales : list tscale; s_curve : list nat; s_cont : list nat }.
Inductive saction :=
| SScale (d : scale_dct)                       (* a new TokenScale *)
| SAddScale (s : nat) (t : string) (v : Q)     (* add_scale *)
| SCurve (c : ccurve)                          (* a new curve *)
| SContainer (l : list nat) (s : option nat)   (* CPCContainer(l, tokenscale=s) *)
| SAdd (i : nat) (l : list nat)                (* i-th container += l *)
| SAddCont (i j : nat)                         (* i-th container += j-th container *)
| SSelect (i : nat) (l : list nat).            (* a selection of curves of the i-th container, lines 1292-1298 *)
(** lines 891-902: the constructor sets the scale of every curve *)
Definition set_scales (f : list nat) (l : list nat) (s : nat) : list nat := fold_left (fun f r => put f r s) l f.
Definition construct_cc (w : sworld) (l : list nat) (s : nat) : sworld :=
  if valid_refs (w_heap (s_base w)) l
  then mkS (act (s_base w) (NewContainer l)) (s_scales w) (set_scales (s_curve w) l s) (s_cont w ++ [s])
  else w.
(** actions on objects that do not exist do nothing; TokenScale1 has no add_scale. Lines 940-977
    (add) do not touch scales. Line 246: new curves have the default scale *)
Definition sact (w : sworld) (a : saction) : sworld :=
  match a with
  | SScale d => mkS (s_base w) (s_scales w ++ [Some d]) (s_curve w) (s_cont w)
  | SAddScale s t v => match nth_error (s_scales w) s with
                       | Some (Some d) => mkS (s_base w) (put (s_scales w) s (Some (add_scale d t v))) (s_curve w) (s_cont w)
                       | _ => w
                       end
  | SCurve c => if constructible c then mkS (act (s_base w) (NewCurve c)) (s_scales w) (s_curve w ++ [O]) (s_cont w) else w
  | SContainer l s => let s := match s with Some s => s | None => O end in
                      if Nat.ltb s (List.length (s_scales w)) then construct_cc w l s else w
  | SAdd i l => mkS (act (s_base w) (AddTo i l)) (s_scales w) (s_curve w) (s_cont w)
  | SAddCont i j => mkS (act (s_base w) (AddCont i j)) (s_scales w) (s_curve w) (s_cont w)
  | SSelect i l => match nth_error (w_ccs (s_base w)) i, nth_error (s_cont w) i with
                   | Some cc, Some s => if forallb (fun r => existsb (Nat.eqb r) (curves cc)) l then construct_cc w l s else w
                   | _, _ => w
                   end
  end.
Definition srun (l : list saction) : sworld := fold_left sact l (mkS no_world [None] [] []).
(** lines 279-291: the scale of a token as a curve sees it *)
Definition curve_scale (w : sworld) (r : nat) (tkn : string) : R := scale_of (nth (nth r (s_curve w) O) (s_scales w) None) tkn.
(** lines 916-918 *)
Definition cont_scale (w : sworld) (i : nat) (tkn : string) : R := scale_of (nth (nth i (s_cont w) O) (s_scales w) None) tkn.

(** ** the problem posed by nofees_optimizer with the scale each curve has *)
(** a curve, its scales and its two raw variables *)
Definition mentry : Type := cpc * (string -> R) * R * R.
Definition bare (e : mentry) : entry := let '(c, _, vx, vy) := e in (c, vx, vy).
(** optimizer.py:716-748 *)
Definition mconstraints (e : mentry) : Prop := let '(c, sc, vx, vy) := e in curve_constraints sc (c, vx, vy).
(** optimizer.py:755-761: the scale of the first curve is used for all *)
Definition first_scale (l : list mentry) : string -> R := match l with [] => fun _ => 1 | (_, sc, _, _) :: _ => sc end.
Definition mfinancing (items : list (string * sfcval)) (l : list mentry) : Prop := financing (first_scale l) items (map bare l).
Definition mfeasible (s : sfc) (l : list mentry) : Prop :=
  Forall mconstraints l /\ (exists items, sfc_items s = Ret items /\ mfinancing items l).
Definition mobjective (s : sfc) (l : list mentry) : R := raw_sum (map bare l) (s_ov s).
(** optimizer.py:796-797, 103-118 *)
Definition mreported (e : mentry) : entry := let '(c, sc, vx, vy) := e in reported sc (c, vx, vy).

(** ** curve objects *)
(** values in params *)
Inductive pval := PNone | PNum (v : R) | PStr (s : string) | PList (l : list pval) | PDict (l : list (string * pval)).
Fixpoint aget {A} (d : list (string * A)) (a : string) : option A :=
  match d with [] => None | (b, v) :: d => if String.eqb b a then Some v else aget d a end.
Fixpoint aset {A} (d : list (string * A)) (a : string) (v : A) : list (string * A) :=
  match d with [] => [(a, v)] | (b, w) :: d => if String.eqb b a then (b, v) :: d else (b, w) :: aset d a v end.
(** {**d, **e} *)
Definition update {A} (d e : list (string * A)) : list (string * A) := fold_left (fun d i => aset d (fst i) (snd i)) e d.
(** lines 206-215 *)
Record ocurve := mkO { o_body : cpc; o_cid : option cid; o_fee : option R; o_descr : option string; o_constr : string; o_params : list (string * pval) }.
(** lines 249-267; [None]: the default value. Only a missing key gives the default value, an
    index into anything but a dict raises TypeError *)
Fixpoint plookup (v : pval) (fields : list string) : res (option pval) :=
  match fields with
  | [] => Ret (Some v)
  | f :: fs => match v with
               | PDict d => match aget d f with Some w => plookup w fs | None => Ret None end
               | _ => Raise TypeError
               end
  end.
Definition P (c : ocurve) (pstr : string) (defaultval : pval) : res pval :=
  let* o := plookup (PDict (o_params c)) (CcModel.split_on ":" (SdkModel.strip pstr)) in
  Ret (match o with Some v => v | None => defaultval end).

(** lines 308-514: the alternative constructors with what they record. [from_univ2] needs an id,
    a fee and a description (365-368). Line 348 ignores the name given to from_pkpp (346) *)
Inductive how :=
| Kx (k x : R) (xa ya : option R) | Ky (k y : R) (xa ya : option R) | Xy (x y : R) (xa ya : option R)
| Pk (p k : R) (xa ya : option R) | Px (p x : R) (xa ya : option R) | Py (p y : R) (xa ya : option R)
| Pkpp (p k : R) (p_min p_max : option R) (constr : option string)
| Univ2 (x y k : option R) | Univ3 (Pm L Pa Pb : R)
| Carbon (yint y : R) (pa pb A B : option R) (tkn : string) (isdydx : bool).
Definition build (h : how) (b q : string) (i : option cid) (fee : option R) (descr : option string) (params : option (list (string * pval))) : res ocurve :=
  let ps := match params with Some d => d | None => [] end in
  let obj name ps (c : res cpc) := let* c := c in Ret (mkO c i fee descr name ps) in
  match h with
  | Kx k x xa ya => obj "kx"%string ps (from_kx k x xa ya b q)
  | Ky k y xa ya => obj "ky"%string ps (from_ky k y xa ya b q)
  | Xy x y xa ya => obj "xy"%string ps (from_xy x y xa ya b q)
  | Pk p k xa ya => obj "pk"%string ps (from_pk p k xa ya b q)
  | Px p x xa ya => obj "px"%string ps (from_px p x xa ya b q)
  | Py p y xa ya => obj "py"%string ps (from_py p y xa ya b q)
  | Pkpp p k lo hi _ => obj "pkpp"%string ps (from_pkpp p k lo hi b q)
  | Univ2 x y k => match i, descr, fee with
                   | Some _, Some _, Some _ => obj "uv2"%string ps (from_univ2 x y k b q)
                   | _, _, _ => Raise AssertionError
                   end
  | Univ3 Pm L Pa Pb => obj "pkpp"%string (update ps [("L", PNum L)]%string) (from_univ3 Pm L Pa Pb b q)
  | Carbon yint y pa pb A B tkn isdydx =>
    let* c := from_carbon yint y pa pb A B b q tkn isdydx in
    let* AB := carbon_AB pa pb A B isdydx (String.eqb tkn q) in
    obj "carb"%string (update ps [("y", PNum y); ("yint", PNum yint); ("A", PNum (fst AB)); ("B", PNum (snd AB))]%string) (Ret c)
  end.

(** f"{cid}" *)
Definition cid_text (i : option cid) : string :=
  match i with None => "None" | Some (CInt n) => SimModel.nat_str n | Some (CStr s) => s end.
Section EXECUTE.
(** f"{v}" of a number *)
Variable text : R -> string.
Definition otext (o : option R) : string := match o with Some v => text v | None => "None" end.
Definition opval (o : option R) : pval := match o with Some v => PNum v | None => PNone end.
(** lines 516-562: with verbose the amounts that are not given are filled in (549-551) before
    they are recorded *)
Definition execute_obj (c : ocurve) (dx dy : option R) (ignorebounds verbose : bool) : res ocurve :=
  let* n := execute (o_body c) dx dy ignorebounds in
  let dx := match dx, dy with None, None => Some 0 | _, _ => dx end in
  let rx := if verbose then Some (dflt dx (x n - x (o_body c))) else dx in
  let newy := match dy with Some dy => y (o_body c) + dy | None => k (o_body c) / x n end in
  let ry := if verbose then Some (dflt dy (newy - y (o_body c))) else dy in
  Ret (mkO n (Some (CStr (cid_text (o_cid c) ++ "-x"))) (o_fee c)
           (Some ((match o_descr c with Some d => d | None => "None" end) ++ " [dx=" ++ otext rx ++ "]")%string) "default"
           (aset (o_params c) "traded" (PDict [("dx", opval rx); ("dy", opval ry)]%string))).
(** a sequence of trades *)
Record order := mkOrder { t_dx : option R; t_dy : option R; t_ib : bool; t_verbose : bool }.
Fixpoint executes (c : ocurve) (l : list order) : res ocurve :=
  match l with [] => Ret c | t :: l => let* c := execute_obj c (t_dx t) (t_dy t) (t_ib t) (t_verbose t) in executes c l end.
End EXECUTE.

(** ** dicts and data frames *)
Inductive fval := FNone | FNum (v : R) | FNaN | FStr (s : string) | FInt (n : nat) | FDict (l : list (string * pval)).
Definition fcid (i : option cid) : fval := match i with None => FNone | Some (CInt n) => FInt n | Some (CStr s) => FStr s end.
Definition frow := list (string * fval).
(** lines 293-295: the fields of the dataclass, in order; the pair object and the token scale are not fields *)
Definition asdict (c : ocurve) : frow :=
  [("k", FNum (k (o_body c))); ("x", FNum (x (o_body c))); ("x_act", FNum (x_act (o_body c))); ("y_act", FNum (y_act (o_body c)));
   ("pair", FStr (pair_of (o_body c))); ("cid", fcid (o_cid c)); ("fee", match o_fee c with Some v => FNum v | None => FNone end);
   ("descr", match o_descr c with Some s => FStr s | None => FNone end); ("constr", FStr (o_constr c)); ("params", FDict (o_params c))]%string.
(** a curve read from a dict: the fee may be nan *)
Inductive nfee := NoFee | Fee (v : R) | NaNFee.
Record ncurve := mkN { n_body : cpc; n_cid : option cid; n_fee : nfee; n_descr : option string; n_constr : string; n_params : list (string * pval) }.
Definition field_names : list string := ["k"; "x"; "x_act"; "y_act"; "pair"; "cid"; "fee"; "descr"; "constr"; "params"]%string.
Definition fnum (o : option fval) : res (option R) := match o with Some (FNum v) => Ret (Some v) | None | Some FNone => Ret None | _ => Raise TypeError end.
Definition fstr (o : option fval) : res (option string) := match o with Some (FStr s) => Ret (Some s) | None | Some FNone => Ret None | _ => Raise TypeError end.
(** lines 297-300 and 217-246. Values of a kind that the field does not have (simplified: in
    Python they are refused later or not at all) raise TypeError; nan is only read as a fee *)
Definition from_dict (d : frow) : res ncurve :=
  if negb (forallb (fun i => existsb (String.eqb (fst i)) field_names) d) then Raise TypeError else
  let* ko := fnum (aget d "k") in let* xo := fnum (aget d "x") in
  match ko, xo with
  | Some k, Some x =>
    let* xa := fnum (aget d "x_act") in let* ya := fnum (aget d "y_act") in
    let* y := (match ya with Some _ => Ret 0 | None => rdiv k x end) in
    let* ps := fstr (aget d "pair") in
    match parse_pair (match ps with Some s => s | None => "TKNB/TKNQ" end) with
    | None => Raise ValueError
    | Some (b, q) =>
      let* c := make k x xa ya b q in
      let* i := (match aget d "cid" with None | Some FNone => Ret None | Some (FInt n) => Ret (Some (CInt n)) | Some (FStr s) => Ret (Some (CStr s)) | _ => Raise TypeError end) in
      let* fee := (match aget d "fee" with None | Some FNone => Ret NoFee | Some (FNum v) => Ret (Fee v) | Some FNaN => Ret NaNFee | _ => Raise TypeError end) in
      let* descr := fstr (aget d "descr") in
      let* constr := fstr (aget d "constr") in
      let* params := (match aget d "params" with None | Some FNone => Ret [] | Some (FDict l) => Ret l | _ => Raise TypeError end) in
      Ret (mkN c i fee descr (match constr with Some s => s | None => "default" end) params)
    end
  | _, _ => Raise TypeError
  end.
(** lines 895-902: new curves without an id get their position *)
Fixpoint ids (i : nat) (l : list ncurve) : list ncurve :=
  match l with
  | [] => []
  | c :: l => mkN (n_body c) (match n_cid c with None => Some (CInt i) | o => o end) (n_fee c) (n_descr c) (n_constr c) (n_params c) :: ids (S i) l
  end.
(** lines 920-922, 928-931: the curves of the new container *)
Definition asdicts (l : list ocurve) : list frow := map asdict l.
Definition from_dicts (l : list frow) : res (list ncurve) := let* cs := rmap from_dict l in Ret (ids 0 cs).
(** pandas keeps a column with numbers as floats: None becomes nan (here only the fees can be
    mixed) *)
Definition num_column (f : string) (l : list frow) : list frow :=
  if existsb (fun d => match aget d f with Some (FNum _) => true | _ => false end) l
  then map (fun d => match aget d f with Some FNone => aset d f FNaN | _ => d end) l else l.
(** line 926; without rows there is no column cid *)
Definition asdf (l : list ocurve) : res (list frow) :=
  match l with [] => Raise KeyError | _ => Ret (num_column "fee" (asdicts l)) end.
(** lines 933-938: the index is turned back into a column, the first one *)
Definition cid_first (d : frow) : frow :=
  match aget d "cid" with Some v => ("cid"%string, v) :: filter (fun i => negb (String.eqb (fst i) "cid")) d | None => d end.
Definition from_df (t : list frow) : res (list ncurve) := from_dicts (map cid_first t).
