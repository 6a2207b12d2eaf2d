(** Model of the graphs that are made from the results of the optimizers and from containers
    of curves (carbon/tools/arbgraphs.py:854-878) and of the way margp_optimizer is called
    (carbon/tools/optimizer.py:1036-1045, 1078-1250).

    Floats are real numbers. The id of a curve is a function of its position; ids that are
    not strings are not modelled. *)
From Coq Require Import Reals Bool List String Arith ZArith.
From Verif Require Import CurveModel PairModel CpcModel ContainerModel OptModel GraphModel.
Import ListNotations.
Local Open Scope R_scope.

(** ** graphs *)
(** arbgraphs.py:845: zip of the curves (their tokens and ids) with the two vectors *)
Fixpoint trades (cid : nat -> string) (i : nat) (tokens : list (string * string)) (v : list (R * R)) : list (string * R * string * R * string) :=
  match tokens, v with
  | (tx, ty) :: tokens, (dx, dy) :: v => (tx, dx, ty, dy, cid i) :: trades cid (S i) tokens v
  | _, _ => []
  end.
(** the value of the constructor, or the exception it ends with *)
Definition built (r : graph * option exc) : res graph := match r with (g, None) => Ret g | (_, Some e) => Raise e end.
(** arbgraphs.py:854-861 for a result of margp_optimizer (optimizer.py:1393-1399); a result
    without convergence has no values (optimizer.py:1387) *)
Definition from_r (cid : nat -> string) (o : outcome) (ignorezero : bool) : res graph :=
  match o with
  | NotConverged _ => Raise AssertionError
  | Converged m => let* v := dxdyvalues m in
                   built (from_ccdxdy empty_graph (trades cid 0 (map (fun c => (tknx c, tkny c)) (m_curves m)) v) ignorezero)
  end.
(** the same for a result of simple_optimizer (optimizer.py:865-867, 894-904): its curves
    are the wrapped ones. Without curves zip gives nothing and index 0 fails. *)
Definition from_so (cid : nat -> string) (r : so_result) (ignorezero : bool) : res graph :=
  let* v := dxdy_vec (so_curves r) (so_p r) in
  match so_curves r with
  | [] => Raise IndexError
  | _ => built (from_ccdxdy empty_graph (trades cid 0 (map (fun s => (side_tknx s, side_tkny s)) (so_curves r)) v) ignorezero)
  end.
(** arbgraphs.py:863-871 *)
Definition from_cc (cid : nat -> string) (cs : list cpc) : res graph :=
  built (add_edges_cpc empty_graph (combine cs (map cid (seq 0 (List.length cs)))) None).

(** ** calling margp_optimizer *)
(** optimizer.py:1036-1045: the estimates of the container, one quote token; the row is
    unwrapped (cpc.py:1515-1516) *)
Definition opt_estimates (h : heap) (cc : container) (target : string) (ts : list string) : res (list R) :=
  let* m := price_estimates h cc [target] ts true in
  match m with row :: _ => Ret (somes row) | [] => Raise IndexError end.
(** the parameter sfc: an object, or the name of the target (optimizer.py:1113-1114) *)
Inductive sfcarg := ByName (t : string) | ByObject (s : sfc).
(** the parameter pstart: none, a dictionary, or a data frame given by its columns
    (optimizer.py:1127-1138); a column is a dictionary from the index *)
Inductive startarg := NoStart | StartDict (d : list (string * R)) | StartFrame (cols : list (string * list (string * R))).
(** the parameter result *)
Inductive wanted := Full | Minimal | PStart.
(** what is returned: a result, or the data frame of the start prices: its one column, with
    NaN ([None]) in each row if there are no estimates *)
Inductive answer := Result (o : outcome) | Prices (column : string) (rows : list (string * option R)).

(** optimizer.py:1133-1136: a frame without the column is an Exception *)
Fixpoint frame_column (cols : list (string * list (string * R))) (t : string) : option (list (string * R)) :=
  match cols with [] => None | (c, d) :: cols => if String.eqb c t then Some d else frame_column cols t end.
(** lines 1126-1149: the start prices, [None] if the estimates fail *)
Definition starting (h : heap) (cc : container) (target : string) (ts : list string) (a : startarg) : res (option (list R)) :=
  match a with
  | NoStart => match opt_estimates h cc target ts with Ret v => Ret (Some v) | Raise _ => Ret None end
  | StartDict d => let* v := start_prices ts (Some d) None in Ret (Some v)
  | StartFrame cols => match frame_column cols target with
                       | Some d => let* v := start_prices ts (Some d) None in Ret (Some v)
                       | None => Raise RuntimeError
                       end
  end.
(** lines 1150-1156 *)
Definition price_frame (target : string) (ts : list string) (v : option (list R)) : answer :=
  Prices target (match v with Some v => combine ts (map Some v) | None => map (fun t => (t, None)) ts end).
(** lines 1078-1340 for a container. Checks come first (lines 1115-1122); then the start prices;
    then the frame if that is asked for; without prices it ends with an Exception (line 1241) *)
Definition optimize (ot op : list string -> list string) (solve : list (list R) -> list R -> list R) (h : heap) (cc : container)
    (a : sfcarg) (want : wanted) (eps : option R) (maxiter : option Z) (start : startarg) : res answer :=
  let* s := match a with ByName t => arb t | ByObject s => Ret s end in
  let cs := map (obj h) (curves cc) in
  if negb (is_arbsfc s) then Raise AssertionError else
  match cs with
  | [] => Raise AssertionError
  | _ =>
    if negb (str_in (s_ov s) (token_set cs)) then Raise AssertionError else
    let ts := tokens_t ot cs (s_ov s) in
    let* p0 := starting h cc (s_ov s) ts start in
    match want with
    | PStart => Ret (price_frame (s_ov s) ts p0)
    | _ =>
      let* o := margp_optimizer ot op solve cs s eps maxiter None p0 (match want with Minimal => true | _ => false end) in
      Ret (Result o)
    end
  end.
