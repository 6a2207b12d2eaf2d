(** Model of the parts of carbon/tools/arbgraphs.py that look at an arbitrage graph as a
    network: conversion to networkx, matrices and degrees, connectivity, shortest paths, prices
    and price tables, runs over many cycles, tables of edges. Over GraphModel.v (real numbers;
    a node is its position, which is its ix). networkx graphs have one edge per pair of nodes;
    its functions are modelled by what they return, the search for shortest paths is a
    parameter. Labels, plots and eigenvalues are not modelled; pandas tables are lists of rows. *)
From Coq Require Import Reals ZArith List Bool String Arith.
From Verif Require Import CurveModel GraphModel HelperModel.
Import ListNotations.
Local Open Scope R_scope.

(** a list comprehension whose elements may raise *)
Fixpoint mapr {A B} (f : A -> res B) (l : list A) : res (list B) :=
  match l with [] => Ret [] | a :: r => let* b := f a in let* bs := mapr f r in Ret (b :: bs) end.

(** ** lines 1231-1261: as_graph *)
(** networkx.DiGraph ([nx_dir]) or networkx.Graph with nodes 0..n-1; edges in order of insertion *)
Record nxgraph := mkNx { nx_dir : bool; nx_n : nat; nx_edges : list (nat * nat) }.
Definition same_pair (p q : nat * nat) : bool := Nat.eqb (fst p) (fst q) && Nat.eqb (snd p) (snd q).
(** G.has_edge: in a Graph either orientation *)
Definition has (dir : bool) (l : list (nat * nat)) (i j : nat) : bool :=
  existsb (fun p => same_pair p (i, j) || (negb dir && same_pair p (j, i))) l.
(** G.add_edge: a second edge between the nodes only replaces the label *)
Definition nx_add (dir : bool) (l : list (nat * nat)) (e : edge) : list (nat * nat) :=
  if has dir l (e_in e) (e_out e) then l else l ++ [(e_in e, e_out e)].
Definition as_graph (g : graph) (directed weighted : bool) : res nxgraph :=
  if weighted then Raise AssertionError else
  Ret (mkNx directed (List.length (g_nodes g)) (fold_left (nx_add directed) (g_edges g) [])).

(** ** lines 1263-1300: matrices, row by row *)
Definition indices (G : nxgraph) : list nat := seq 0 (nx_n G).
Definition cell (G : nxgraph) (i j : nat) : Z := if has (nx_dir G) (nx_edges G) i j then 1%Z else 0%Z.
Definition zsum (l : list Z) : Z := fold_right Z.add 0%Z l.
(** lines 1285-1297; networkx.adjacency_matrix *)
Definition adjacency (g : graph) (directed weighted : bool) : res (list (list Z)) :=
  let* G := as_graph g directed weighted in
  Ret (map (fun i => map (cell G i) (indices G)) (indices G)).
(** lines 1263-1276, for directed=False (networkx.laplacian_matrix, the row sums on the diagonal
    less the adjacency matrix; directed graphs depend on the version of networkx and are not
    modelled) *)
Definition laplacian (g : graph) (weighted : bool) : res (list (list Z)) :=
  let* G := as_graph g false weighted in
  Ret (map (fun i => map (fun j => ((if Nat.eqb i j then zsum (map (cell G i) (indices G)) else 0) - cell G i j)%Z) (indices G)) (indices G)).

(** ** lines 1381-1417: degrees. In a Graph an edge from a node to itself counts twice. As a
    matrix the code refers to G, which is not defined (line 1404) *)
Inductive inout := Sym | Indeg | Outdeg | Otherdeg.
Definition nx_degree (G : nxgraph) (i : nat) : nat :=
  List.length (filter (fun j => has false (nx_edges G) i j) (indices G)) + (if has false (nx_edges G) i i then 1 else 0).
Definition nx_in (G : nxgraph) (i : nat) : nat := List.length (filter (fun p => Nat.eqb (snd p) i) (nx_edges G)).
Definition nx_out (G : nxgraph) (i : nat) : nat := List.length (filter (fun p => Nat.eqb (fst p) i) (nx_edges G)).
Definition degree (g : graph) (io : inout) (as_matrix : bool) : res (list nat) :=
  let* d := match io with
            | Sym => let* G := as_graph g false false in Ret (map (nx_degree G) (indices G))
            | Indeg => let* G := as_graph g true false in Ret (map (nx_in G) (indices G))
            | Outdeg => let* G := as_graph g true false in Ret (map (nx_out G) (indices G))
            | Otherdeg => Raise ValueError
            end in
  if as_matrix then Raise NameError else Ret d.

(** ** lines 1364-1378: is_weakly_connected. networkx raises NetworkXPointlessConcept (here
    RuntimeError) for the empty graph, else searches from the first node in both directions *)
Definition touch (G : nxgraph) (i j : nat) : bool := has false (nx_edges G) i j.
Definition spread (G : nxgraph) (s : list nat) : list nat :=
  filter (fun j => existsb (fun i => Nat.eqb i j || touch G i j) s) (indices G).
Fixpoint spread_n (G : nxgraph) (k : nat) (s : list nat) : list nat := match k with O => s | S k => spread_n G k (spread G s) end.
Definition is_weakly_connected (g : graph) : res bool :=
  let* G := as_graph g true false in
  if Nat.eqb (nx_n G) 0 then Raise RuntimeError else
  Ret (Nat.eqb (List.length (spread_n G (nx_n G) [0%nat])) (nx_n G)).

(** ** lines 1302-1309: shortest_path. [find] is networkx.shortest_path, None is NetworkXNoPath
    (here RuntimeError) *)
Definition searcher := nxgraph -> nat -> nat -> option (list nat).
Definition shortest_path (find : searcher) (g : graph) (b q : nat) : res (list nat) :=
  let* G := as_graph g true false in
  match find G b q with Some l => Ret l | None => Raise RuntimeError end.
(** one such search: all walks of 0, 1, 2, ... steps *)
Fixpoint walks (E : list (nat * nat)) (k b : nat) : list (list nat) :=
  match k with
  | O => [[b]]
  | S k => flat_map (fun p => if Nat.eqb (fst p) b then map (cons b) (walks E k (snd p)) else []) E
  end.
Fixpoint search (E : list (nat * nat)) (b q k m : nat) : option (list nat) :=
  match List.find (fun w => Nat.eqb (last w b) q) (walks E k b) with
  | Some w => Some w
  | None => match m with O => None | S m => search E b q (S k) m end
  end.
Definition by_length : searcher := fun G b q => search (nx_edges G) b q 0 (nx_n G).

(** ** lines 1311-1324: price. Arguments are names or nodes; a node equals only itself *)
Inductive tknarg := Tkn (t : string) | Nd (n : nat).
Definition arg_eqb (a b : tknarg) : bool :=
  match a, b with Tkn s, Tkn t => String.eqb s t | Nd n, Nd m => Nat.eqb n m | _, _ => false end.
Definition tkn_of (g : graph) (n : nat) : string := match nth_error (g_nodes g) n with Some m => n_tkn m | None => "" end.
(** lines 1148-1169: a node must be the one known by its name; nodes of other graphs are not
    modelled *)
Definition node_of (g : graph) (a : tknarg) : res nat :=
  match a with
  | Tkn t => node_by_tkn g t
  | Nd n => let* k := node_by_tkn g (tkn_of g n) in if Nat.eqb k n then Ret n else Raise AssertionError
  end.
Definition price (find : searcher) (g : graph) (b q : tknarg) : res (option R) :=
  match g_is_amount g with Some true => Raise AssertionError | _ =>
  if arg_eqb b q then Ret (Some 1) else
  let* i := node_of g b in
  let* j := node_of g q in
  let* l := shortest_path find g i j in
  let* prs := path_pairs l in
  let* r := ptransport g prs in Ret (fst (fst r)) end.
(** with_units: of two equal names none is replaced by its node, and a string has no tkn *)
Definition units (g : graph) (b q : nat) : string :=
  (tkn_of g q ++ " per " ++ tkn_of g b ++ " [" ++ tkn_of g b ++ "/" ++ tkn_of g q ++ "]")%string.
Definition price_units (find : searcher) (g : graph) (b q : tknarg) : res (option R * string) :=
  let* p := price find g b q in
  if arg_eqb b q then match b with Nd n => Ret (p, units g n n) | Tkn _ => Raise AttributeError end else
  let* i := node_of g b in
  let* j := node_of g q in Ret (p, units g i j).

(** ** lines 1326-1353: pricetable; labels and rows *)
Definition pricetable (find : searcher) (g : graph) (include exclude : option (list tknarg)) : res (list string * list (list (option R))) :=
  let inc := match include with None => map Nd (seq 0 (List.length (g_nodes g))) | Some l => l end in
  let inc := match exclude with None => inc | Some x => filter (fun n => negb (existsb (arg_eqb n) x)) inc end in
  let* labels := mapr (fun a => match a with Nd n => Ret (tkn_of g n) | Tkn _ => Raise AttributeError end) inc in
  let* data := mapr (fun nj => mapr (fun ni => price find g nj ni) inc) inc in
  Ret (labels, data).

(** ** lines 1627-1679: run_arbitrage_cycles and run_arbitrage_cyclesf *)
Inductive acformat := FNone | FGen | FTuple | FDicts | FDf | FAggr | FPretty | FOther.
Inductive acout := Lazy (l : list (res arbresult)) | Results (l : list arbresult) | NoDicts.
(** lines 1655-1679, for results that may still have to be computed. asdict takes no positional
    argument (lines 1478 and 1658), so the first result raises TypeError. Without results there
    are no columns *)
Definition tabulate (l : list (res arbresult)) (f : acformat) : res acout :=
  match l with
  | Raise e :: _ => Raise e
  | Ret _ :: _ => Raise TypeError
  | [] => match f with FDicts => Ret NoDicts | _ => Raise KeyError end
  end.
(** lines 1646-1679: the attribute ACREF_DF does not exist *)
Definition run_arbitrage_cyclesf (raw : list arbresult) (f : acformat) : res acout :=
  match f with
  | FNone => Raise AttributeError
  | FGen | FTuple => Ret (Results raw)
  | _ => tabulate (map Ret raw) f
  end.
(** lines 1627-1644. The token is the same for all cycles; a list of tokens is no name of a node
    ([TokenList]), line 1538 *)
Inductive tokens := NoToken | OneToken (t : string) | TokenList (l : list string).
Definition run_cycle (g : graph) (t : tokens) (any : bool) (c : list nat) : res arbresult :=
  match t with
  | NoToken => run_arbitrage_cycle g c None any
  | OneToken t => run_arbitrage_cycle g c (Some t) any
  | TokenList _ => if any then run_arbitrage_cycle g c None any else Raise ValueError
  end.
Definition run_arbitrage_cycles (g : graph) (cycles : list (list nat)) (t : tokens) (any : bool) (f : acformat) : res acout :=
  match f with
  | FGen => Ret (Lazy (map (run_cycle g t any) cycles))
  | FNone | FTuple => let* l := mapr (run_cycle g t any) cycles in Ret (Results l)
  | _ => tabulate (map (run_cycle g t any) cycles) f
  end.

(** ** lines 1784-1839: edgedf *)
(** sorted() *)
Fixpoint insert_by {A} (leb : A -> A -> bool) (a : A) (l : list A) : list A :=
  match l with [] => [a] | b :: r => if leb a b then a :: l else b :: insert_by leb a r end.
Fixpoint sort_by {A} (leb : A -> A -> bool) (l : list A) : list A :=
  match l with [] => [] | a :: r => insert_by leb a (sort_by leb r) end.
(** the columns pair, tkn_in, tkn_out of an edge *)
Definition key : Type := string * string * string.
Definition key_of (g : graph) (e : edge) : key :=
  (primary norm_simple (tkn_of g (e_in e)) (tkn_of g (e_out e)), tkn_of g (e_in e), tkn_of g (e_out e)).
Definition is_reverse (k : key) : bool := let '(_, i, o) := k in negb (isprimary norm_simple i o).
Definition key_dec (a b : key) : {a = b} + {a <> b}.
Proof. repeat decide equality. Defined.
Definition key_eqb (a b : key) : bool := if key_dec a b then true else false.
(** tuples are compared from the left *)
Definition key_leb (a b : key) : bool :=
  let '(p, i, o) := a in let '(p', i', o') := b in
  if String.eqb p p' then if String.eqb i i' then String.leb o o' else String.leb i i' else String.leb p p'.
(** groupby and pivot_table: one group per key, in order of the keys *)
Definition groups (g : graph) (es : list edge) : list (key * list edge) :=
  map (fun k => (k, filter (fun e => key_eqb (key_of g e) k) es)) (sort_by key_leb (nodup key_dec (map (key_of g) es))).

(** lines 1791-1806: tables of amounts *)
Definition amount_rows (g : graph) (es : list edge) : list (option string * key * R * R) :=
  map (fun e => (e_uid e, key_of g e, e_ain e, e_aout e)) es.
Definition amount_groups (g : graph) (es : list edge) : res (list (key * R * R)) :=
  match es with [] => Raise KeyError | _ :: _ =>
  Ret (map (fun p => (fst p, rsum (map e_ain (snd p)), rsum (map e_aout (snd p)))) (groups g es)) end.

(** lines 1812-1822: tables of connections; the price in the primary direction, None for NaN *)
Record connrow := mkConn { c_key : key; c_n : R; c_rev : bool; c_outin : R; c_price : option R }.
Definition primary_price (k : key) (p : R) : option R := if req p 0 then None else Some (if is_reverse k then 1 / p else p).
Definition conn_rows (g : graph) (es : list edge) : res (list connrow) :=
  mapr (fun e => let* p := rdiv (e_aout e) (e_ain e) in
                 Ret (mkConn (key_of g e) (- e_ain e) (is_reverse (key_of g e)) p (primary_price (key_of g e) p))) es.
(** np.mean over the prices that are not NaN *)
Definition nanmean (l : list (option R)) : option R := mean (flat_map (fun o => match o with Some x => [x] | None => [] end) l).
(** lines 1825-1835: the groups in primary direction; beside them, row by row, the weights of
    the groups in reverse direction *)
Record connsum := mkSum { s_pair : option string; s_n : option R; s_nrev : option R; s_prc : option R }.
Definition pair_of (k : key) : string := fst (fst k).
Fixpoint paste (a : list (string * R * option R)) (b : list R) : list connsum :=
  match a with
  | [] => map (fun m => mkSum None None (Some m) None) b
  | (p, n, x) :: a => mkSum (Some p) (Some n) (hd_error b) x :: paste a (tl b)
  end.
Definition conn_groups (g : graph) (es : list edge) : res (list connsum) :=
  let* rows := conn_rows g es in
  match rows with [] => Raise KeyError | _ :: _ =>
  let weight (p : key * list edge) := rsum (map (fun e => - e_ain e) (snd p)) in
  let prc (p : key * list edge) := nanmean (map (fun e => primary_price (fst p) (e_aout e / e_ain e)) (snd p)) in
  let fwd := filter (fun p => negb (is_reverse (fst p))) (groups g es) in
  let bwd := filter (fun p => is_reverse (fst p)) (groups g es) in
  Ret (paste (map (fun p => (pair_of (fst p), weight p, prc p)) fwd) (map weight bwd)) end.
Inductive edgetable := AmountRows (l : list (option string * key * R * R)) | AmountGroups (l : list (key * R * R)) | ConnRows (l : list connrow) | ConnGroups (l : list connsum).
Definition edgedf (g : graph) (edges : option (list edge)) (consolidated : bool) : res edgetable :=
  let es := match edges with Some l => l | None => g_edges g end in
  match g_is_amount g with
  | Some true => if consolidated then let* l := amount_groups g es in Ret (AmountGroups l) else Ret (AmountRows (amount_rows g es))
  | _ => if consolidated then let* l := conn_groups g es in Ret (ConnGroups l) else let* l := conn_rows g es in Ret (ConnRows l)
  end.
