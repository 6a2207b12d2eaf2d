(** Model of carbon/tools/arbgraphs.py: amounts, nodes, edges, paths, cycles and the graph.

    Floats are real numbers. A node is identified by its position in the graph's node list
    (the code compares nodes by identity and numbers them by position), an edge by its
    position in the edge list; nodes and edges belong to one graph. networkx algorithms
    (simple_cycles, shortest_path, matrices), plots and pandas tables are not modelled; a
    path found by networkx is an argument here. *)
From Coq Require Import Reals Bool String List ZArith Arith.
From Verif Require Import CurveModel.
From Verif Require CpcModel.
Import ListNotations.
Local Open Scope R_scope.

(** line 21 *)
Definition EPS : R := / 10 ^ 9.

(** ** lines 75-135: TrackedStateFloat *)
Record tracked := mkTracked { t_value : R; t_hist : list R }.
(** lines 117-126 *)
Definition t_reset (t : tracked) (v : option R) (clear : bool) : tracked :=
  let h := if clear then [] else t_hist t in
  let x := match v with Some x => x | None => t_value t end in
  mkTracked x (h ++ [x]).
(** lines 128-132 *)
Definition t_set (t : tracked) (v : option R) : tracked := t_reset t v false.
(** lines 112-115 *)
Definition t_new (v : option R) : tracked := t_reset (mkTracked 0 []) (Some (match v with Some x => x | None => 0 end)) true.

(** ** lines 208-318: Amount; the other operand is an Amount or a number *)
Record amount := mkAmount { a_val : R; a_node : nat }.
Inductive operand := Am (a : amount) | Num (r : R).
(** lines 226-231 *)
Definition am_add (a : amount) (o : operand) : res amount :=
  match o with
  | Num _ => Raise ValueError
  | Am b => if Nat.eqb (a_node a) (a_node b) then Ret (mkAmount (a_val a + a_val b) (a_node a)) else Raise ValueError
  end.
(** lines 233-238 *)
Definition am_sub (a : amount) (o : operand) : res amount :=
  match o with
  | Num _ => Raise ValueError
  | Am b => if Nat.eqb (a_node a) (a_node b) then Ret (mkAmount (a_val a - a_val b) (a_node a)) else Raise ValueError
  end.
(** lines 240-243 *)
Definition am_mul (a : amount) (o : operand) : res amount :=
  match o with Am _ => Raise ValueError | Num r => Ret (mkAmount (a_val a * r) (a_node a)) end.
(** lines 245-251: a number for two Amounts, an Amount otherwise *)
Definition am_div (a : amount) (o : operand) : res operand :=
  match o with
  | Am b => if Nat.eqb (a_node a) (a_node b) then let* q := rdiv (a_val a) (a_val b) in Ret (Num q) else Raise ValueError
  | Num r => let* q := rdiv (a_val a) r in Ret (Am (mkAmount q (a_node a)))
  end.
(** lines 253-260 *)
Definition am_neg (a : amount) : amount := mkAmount (- a_val a) (a_node a).
Definition am_abs (a : amount) : amount := mkAmount (Rabs (a_val a)) (a_node a).
(** lines 262-288: <, <=, >, >= *)
Definition am_cmp (f : R -> R -> bool) (a : amount) (o : operand) : res bool :=
  match o with
  | Num _ => Raise ValueError
  | Am b => if Nat.eqb (a_node a) (a_node b) then Ret (f (a_val a) (a_val b)) else Raise ValueError
  end.
Definition am_lt := am_cmp rlt.
Definition am_le := am_cmp rle.
Definition am_gt := am_cmp (fun u v => rlt v u).
Definition am_ge := am_cmp (fun u v => rle v u).
(** lines 311-318: __radd__, __rsub__, __rmul__ (the number or Amount is on the left) *)
Definition am_radd (a : amount) (o : operand) : res amount := am_add a o.
Definition am_rsub (a : amount) (o : operand) : res amount := am_add (am_neg a) o.
Definition am_rmul (a : amount) (o : operand) : res amount := am_mul a o.
(** Python's sum() over Amounts: 0 + a1 calls __radd__ *)
Definition am_sum (l : list amount) : res operand :=
  fold_left (fun acc a => let* s := acc in
               match s with
               | Num r => let* x := am_radd a (Num r) in Ret (Am x)
               | Am b => let* x := am_add b (Am a) in Ret (Am x)
               end) l (Ret (Num 0)).

(** ** lines 334-625: Edge. [e_rem] is state.amount_in_remaining, missing on connection edges *)
Record edge := mkEdge { e_in : nat; e_ain : R; e_out : nat; e_aout : R; e_inv : bool; e_uid : option string; e_rem : option R }.
(** lines 368-382 *)
Definition is_amount (e : edge) : bool := negb (rlt (e_ain e) 0).
(** lines 450-456, 426-434 *)
Definition edge_make (i : nat) (ai : R) (o : nat) (ao : R) (inv : bool) (uid : option string) : edge :=
  mkEdge i ai o ao inv uid (if rlt ai 0 then None else Some ai).
Definition e_reset (e : edge) : edge := mkEdge (e_in e) (e_ain e) (e_out e) (e_aout e) (e_inv e) (e_uid e) (if rlt (e_ain e) 0 then None else Some (e_ain e)).
(** lines 436-441 *)
Definition e_state (e : edge) : res R := match e_rem e with Some r => Ret r | None => Raise ValueError end.
(** lines 443-448 *)
Definition e_has_capacity (e : edge) : res bool := let* r := e_state e in Ret (rlt EPS r).
(** lines 417-423 *)
Definition e_is_empty (e : edge) : res bool := let* r := e_state e in Ret (rle (Rabs r) EPS).
(** lines 391-409 *)
Definition connection_edge (i o : nat) (price : option R) (inv : bool) (weight : option R) (uid : option string) : res edge :=
  let p := match price with Some p => p | None => 1 end in
  let p := if inv then if req p 0 then p else 1 / p else p in
  let w := match weight with Some w => w | None => 1 end in
  if negb (rlt 0 w) then Raise AssertionError else Ret (edge_make i (- w) o (- p * w) inv uid).
(** lines 461-472: the identity of nodes is compared after the types; uid is dropped *)
Definition e_add (e f : edge) : res edge :=
  if negb (Bool.eqb (is_amount e) (is_amount f)) then Raise AssertionError else
  if negb (Nat.eqb (e_out e) (e_out f) && Nat.eqb (e_in e) (e_in f)) then Raise ValueError else
  Ret (edge_make (e_in e) (e_ain e + e_ain f) (e_out e) (e_aout e + e_aout f) (e_inv e) None).
(** lines 480-489, for a float factor *)
Definition e_mul (e : edge) (r : R) : res edge :=
  if negb (rlt 0 r) then Raise AssertionError else
  Ret (edge_make (e_in e) (e_ain e * r) (e_out e) (e_aout e * r) (e_inv e) None).
(** lines 497-501 *)
Definition e_dup (e : edge) : edge := edge_make (e_in e) (e_ain e) (e_out e) (e_aout e) (e_inv e) None.
(** lines 503-508 *)
Definition e_reverse (e : edge) : edge := edge_make (e_out e) (e_aout e) (e_in e) (e_ain e) (negb (e_inv e)) None.
(** Python's sum() over edges: 0 + e1 is a duplicate of e1 (line 465); 0 for no edges *)
Definition e_sum (l : list edge) : res (option edge) :=
  match l with
  | [] => Ret None
  | e :: t => let* s := fold_left (fun acc f => let* s := acc in e_add s f) t (Ret (e_dup e)) in Ret (Some s)
  end.
(** lines 535-544: "numerator per denominator", as nodes *)
Definition e_convention (e : edge) (inv : option bool) : nat * nat :=
  if match inv with Some b => b | None => e_inv e end then (e_in e, e_out e) else (e_out e, e_in e).
(** lines 552-570 *)
Definition e_price (e : edge) (inv : option bool) : res R :=
  if match inv with Some b => b | None => e_inv e end then rdiv (e_ain e) (e_aout e) else rdiv (e_aout e) (e_ain e).
Definition e_price_outperin (e : edge) : res R := e_price e (Some false).

(** ** The graph. [g_index] is _node_by_tkn; [g_fixed]: nodes and edges are held in
    containers without append, as in a duplicate (line 923) *)
Record node := mkNode { n_tkn : string; n_amount : tracked }.
Record graph := mkGraph { g_nodes : list node; g_index : list (string * nat); g_edges : list edge; g_fixed : bool }.
Definition empty_graph : graph := mkGraph [] [] [] false.

(** dictionary access *)
Fixpoint dict_get (d : list (string * nat)) (t : string) : option nat :=
  match d with [] => None | (u, n) :: r => if String.eqb u t then Some n else dict_get r t end.
Fixpoint dict_set (d : list (string * nat)) (t : string) (n : nat) : list (string * nat) :=
  match d with [] => [(t, n)] | (u, m) :: r => if String.eqb u t then (u, n) :: r else (u, m) :: dict_set r t n end.

(** lines 138-169: a new node; the amount given to reset_state is never used, because the
    nested State class has no __post_init__ that would receive it *)
Definition new_node (t : string) : node := mkNode t (t_new None).
Definition n_reset (n : node) (amount : option R) : node := mkNode (n_tkn n) (t_new None).

(** lines 886-897: type of the graph *)
Definition g_is_amount (g : graph) : option bool := match g_edges g with [] => None | e :: _ => Some (is_amount e) end.

(** lines 959-974 *)
Definition add_node (g : graph) (t : string) : graph * option exc :=
  if g_fixed g then (g, Some AttributeError) else
  (mkGraph (g_nodes g ++ [new_node t]) (dict_set (g_index g) t (List.length (g_nodes g))) (g_edges g) (g_fixed g), None).
(** lines 1148-1169, for a token name *)
Definition node_by_tkn (g : graph) (t : string) : res nat :=
  match dict_get (g_index g) t with Some n => Ret n | None => Raise KeyError end.
Definition node_create (g : graph) (t : string) : graph * res nat :=
  match dict_get (g_index g) t with
  | Some n => (g, Ret n)
  | None => match add_node g t with
            | (g', Some e) => (g', Raise e)
            | (g', None) => (g', node_by_tkn g' t)
            end
  end.
(** lines 976-984 *)
Definition add_edge_obj (g : graph) (e : edge) : graph * option exc :=
  if match g_is_amount g with None => false | Some b => negb (Bool.eqb (is_amount e) b) end then (g, Some ValueError) else
  if g_fixed g then (g, Some AttributeError) else
  (mkGraph (g_nodes g) (g_index g) (g_edges g ++ [e]) (g_fixed g), None).
(** lines 986-1011: both nodes are created before the type of the edge is checked *)
Definition add_edge (g : graph) (ti : string) (ai : R) (to : string) (ao : R) (inv : bool) (uid : option string) : graph * option exc :=
  if negb (rlt 0 ai) then (g, Some AssertionError) else
  if negb (rlt 0 ao) then (g, Some AssertionError) else
  let '(g1, r1) := node_create g ti in
  match r1 with Raise e => (g1, Some e) | Ret i =>
  let '(g2, r2) := node_create g1 to in
  match r2 with Raise e => (g2, Some e) | Ret o => add_edge_obj g2 (edge_make i ai o ao inv uid) end end.
(** lines 1013-1046 *)
Definition EPSDXDY : R := / 10 ^ 8.
Definition add_edge_dxdy (g : graph) (tx : string) (dx : R) (ty : string) (dy : R) (inv : bool) (uid : option string) : graph * option exc :=
  if negb (rlt (dx * dy) 0) then if rlt EPSDXDY (dx * dy) then (g, Some ValueError) else (g, None) else
  if rlt 0 dx then add_edge g tx dx ty (- dy) inv uid else add_edge g ty dy tx (- dx) inv uid.
(** lines 1048-1101; the uid is formatted into a string, "None" if there is none *)
Definition fmt_uid (uid : option string) : string := match uid with Some u => u | None => "None" end.
Definition add_edge_connection (g : graph) (ti to : string) (price : option R) (inv : bool) (poi weight : option R) (symmetric : bool) (uid : option string) : graph * option exc :=
  if match poi with Some _ => match price with Some _ => true | None => inv end | None => false end then (g, Some AssertionError) else
  let p := match poi with Some q => q | None => match price with Some q => q | None => 1 end end in
  let w := match weight with Some w => w | None => 1 end in
  if negb (rlt 0 w) then (g, Some AssertionError) else
  let '(g1, r1) := node_create g ti in
  match r1 with Raise e => (g1, Some e) | Ret i =>
  let '(g2, r2) := node_create g1 to in
  match r2 with Raise e => (g2, Some e) | Ret o =>
  match connection_edge i o (Some p) inv (Some w) (Some (fmt_uid uid)) with Raise e => (g2, Some e) | Ret e1 =>
  match add_edge_obj g2 e1 with (g3, Some e) => (g3, Some e) | (g3, None) =>
  if negb symmetric then (g3, None) else
  match connection_edge o i (Some p) (negb inv) (Some w) (Some (fmt_uid uid ++ "-r")%string) with Raise e => (g3, Some e) | Ret e2 => add_edge_obj g3 e2 end end end end end.
(** lines 1103-1146, for a list of curves with their ids *)
Fixpoint add_edges_cpc (g : graph) (l : list (CpcModel.cpc * string)) (uid : option string) : graph * option exc :=
  match l with
  | [] => (g, None)
  | (c, cid) :: r =>
    match add_edge_connection g (CpcModel.tknx c) (CpcModel.tkny c) None false (Some (CpcModel.p c)) None true (Some (match uid with Some u => u | None => cid end)) with
    | (g', Some e) => (g', Some e)
    | (g', None) => add_edges_cpc g' r uid
    end
  end.
(** lines 836-852 *)
Fixpoint from_ccdxdy (g : graph) (l : list (string * R * string * R * string)) (ignorezero : bool) : graph * option exc :=
  match l with
  | [] => (g, None)
  | (tx, dx, ty, dy, cid) :: r =>
    if ignorezero && req dx 0 && req dy 0 then from_ccdxdy g r ignorezero else
    match add_edge_dxdy g tx dx ty dy false (Some cid) with
    | (g', Some e) => (g', Some e)
    | (g', None) => from_ccdxdy g' r ignorezero
    end
  end.

(** lines 1185-1226, with the nodes already looked up *)
Definition edges_between (g : graph) (i o : option nat) : list edge :=
  filter (fun e => match i with Some n => Nat.eqb (e_in e) n | None => true end && match o with Some n => Nat.eqb (e_out e) n | None => true end) (g_edges g).
Definition filter_edges (g : graph) (i o n : option nat) (bothways : bool) : res (list edge) :=
  match n, i, o with
  | Some _, Some _, _ | Some _, _, Some _ => Raise AssertionError
  | Some m, None, None =>
    let l := filter (fun e => Nat.eqb (e_in e) m || Nat.eqb (e_out e) m) (g_edges g) in Ret (if bothways then l ++ l else l)
  | None, _, _ => Ret (if bothways then edges_between g i o ++ edges_between g o i else edges_between g i o)
  end.

(** lines 925-933 *)
Definition reset_state (g : graph) : graph :=
  mkGraph (map (fun n => n_reset n None) (g_nodes g)) (g_index g) (map e_reset (g_edges g)) (g_fixed g).
(** any(...) over properties that may raise *)
Fixpoint any_capacity (l : list edge) : res bool :=
  match l with [] => Ret false | e :: r => let* b := e_has_capacity e in if b then Ret true else any_capacity r end.
(** lines 935-944 *)
Definition has_capacity (g : graph) (ti to : option string) : res bool :=
  let* i := match ti with Some t => let* n := node_by_tkn g t in Ret (Some n) | None => Ret None end in
  let* o := match to with Some t => let* n := node_by_tkn g t in Ret (Some n) | None => Ret None end in
  any_capacity (edges_between g i o).

(** ** lines 578-614: transport through an edge *)
Definition upd {A} (l : list A) (i : nat) (f : A -> A) : list A :=
  map (fun p => if Nat.eqb (fst p) i then f (snd p) else snd p) (combine (seq 0 (List.length l)) l).
Definition set_rem (g : graph) (i : nat) (r : R) : graph :=
  mkGraph (g_nodes g) (g_index g) (upd (g_edges g) i (fun e => mkEdge (e_in e) (e_ain e) (e_out e) (e_aout e) (e_inv e) (e_uid e) (Some r))) (g_fixed g).
(** state.amount += d *)
Definition add_amount (g : graph) (n : nat) (d : R) : graph :=
  mkGraph (upd (g_nodes g) n (fun m => mkNode (n_tkn m) (t_set (n_amount m) (Some (t_value (n_amount m) + d))))) (g_index g) (g_edges g) (g_fixed g).
Definition node_amount (g : graph) (n : nat) : R := match nth_error (g_nodes g) n with Some m => t_value (n_amount m) | None => 0 end.
(** lines 591-596: the amount to be sent *)
Definition transport_in (e : edge) (o : option operand) : res R :=
  match o with
  | None => Ret (if is_amount e then e_ain e else 1)
  | Some (Num r) => Ret r
  | Some (Am a) => if Nat.eqb (a_node a) (e_in e) then Ret (a_val a) else Raise AssertionError
  end.
(** lines 598-602 *)
Definition transport_out (e : edge) (v : R) : res R :=
  if is_amount e && negb (rle v (e_ain e + EPS)) then Raise AssertionError else
  if is_amount e && negb (rle (- EPS) v) then Raise AssertionError else
  rdiv (v * e_aout e) (e_ain e).
Definition edge_transport (g : graph) (i : nat) (o : option operand) (record raiseonerror : bool) : graph * res amount :=
  match nth_error (g_edges g) i with None => (g, Raise IndexError) | Some e =>
  if record && negb (is_amount e) then (g, Raise ValueError) else
  match transport_in e o with Raise x => (g, Raise x) | Ret v =>
  match transport_out e v with Raise x => (g, Raise x) | Ret w =>
  if negb record then (g, Ret (mkAmount w (e_out e))) else
  match e_state e with Raise x => (g, Raise x) | Ret r =>
  let g1 := set_rem g i (r - v) in
  if rlt (r - v) (- EPS) && raiseonerror then (g1, Raise ValueError) else
  let g3 := add_amount (add_amount g1 (e_out e) w) (e_in e) (- v) in
  if rlt (node_amount g3 (e_in e)) (- EPS) && raiseonerror then (g3, Raise ValueError) else
  (g3, Ret (mkAmount w (e_out e))) end end end end.

(** ** lines 1691-1742: pro rata transport through all edges between two nodes. The positions
    of these edges in the graph, in order *)
Definition between (g : graph) (i o : nat) : list nat :=
  map fst (filter (fun p => Nat.eqb (e_in (snd p)) i && Nat.eqb (e_out (snd p)) o) (combine (seq 0 (List.length (g_edges g))) (g_edges g))).
Fixpoint states (l : list edge) : res (list R) :=
  match l with [] => Ret [] | e :: r => let* x := e_state e in let* xs := states r in Ret (x :: xs) end.
Definition rsum (l : list R) : R := fold_left Rplus l 0.
Fixpoint push_all (g : graph) (l : list (nat * R)) (record raiseonerror : bool) : graph * res (list R) :=
  match l with
  | [] => (g, Ret [])
  | (i, v) :: r =>
    match edge_transport g i (Some (Num v)) record raiseonerror with
    | (g', Raise e) => (g', Raise e)
    | (g', Ret a) => match push_all g' r record raiseonerror with (g'', Ret xs) => (g'', Ret (a_val a :: xs)) | (g'', Raise e) => (g'', Raise e) end
    end
  end.
(** result: total out, amounts in, amounts out. An Amount as argument fails on the missing
    attribute token (line 1712) *)
Definition graph_transport (g : graph) (o : operand) (ti to : string) (record raiseonerror : bool) : graph * res (R * list R * list R) :=
  match node_by_tkn g ti with Raise e => (g, Raise e) | Ret i =>
  match node_by_tkn g to with Raise e => (g, Raise e) | Ret j =>
  match o with Am _ => (g, Raise AttributeError) | Num v =>
  match edges_between g (Some i) (Some j) with [] => (g, Raise ValueError) | _ :: _ =>
  match states (edges_between g (Some i) (Some j)) with Raise e => (g, Raise e) | Ret caps =>
  match rdiv v (rsum caps) with Raise e => (g, Raise e) | Ret f =>
  let ins := map (fun c => c * f) caps in
  match push_all g (combine (between g i j) ins) record raiseonerror with
  | (g', Raise e) => (g', Raise e)
  | (g', Ret outs) => (g', Ret (rsum outs, ins, outs))
  end end end end end end end.

(** ** lines 672-808: Cycle, lines 627-669: Path *)
(** lines 701-718: CycleIterator; position and counter *)
Record iter (A : Type) := mkIter { it_data : list A; it_ix : Z; it_counter : Z }.
Arguments mkIter {A}. Arguments it_data {A}. Arguments it_ix {A}. Arguments it_counter {A}.
Definition iter_new {A} (d : list A) (start : Z) : iter A := mkIter d (start - 1) (Z.of_nat (List.length d) + 2).
(** None is StopIteration; the position is taken modulo the length *)
Definition iter_next {A} (it : iter A) : res (option (A * iter A)) :=
  let c := (it_counter it - 1)%Z in
  if Z.eqb c 0 then Ret None else
  match it_data it with [] => Raise ZeroDivision | _ :: _ =>
  let ix := ((it_ix it + 1) mod Z.of_nat (List.length (it_data it)))%Z in
  match nth_error (it_data it) (Z.to_nat ix) with Some a => Ret (Some (a, mkIter (it_data it) ix c)) | None => Raise IndexError end end.
(** all items of an iterator, as a for loop sees them; the counter bounds the number of steps *)
Fixpoint iter_all_n {A} (n : nat) (it : iter A) : res (list A) :=
  match n with
  | O => Ret []
  | S m => match iter_next it with
           | Raise e => Raise e
           | Ret None => Ret []
           | Ret (Some (a, it')) => match iter_all_n m it' with Ret l => Ret (a :: l) | Raise e => Raise e end
           end
  end.
Definition iter_all {A} (it : iter A) : res (list A) := iter_all_n (Z.to_nat (it_counter it)) it.
(** list.index *)
Fixpoint index_of {A} (eqb : A -> A -> bool) (v : A) (l : list A) : res nat :=
  match l with [] => Raise ValueError | a :: r => if eqb a v then Ret 0%nat else let* n := index_of eqb v r in Ret (S n) end.
(** lines 763-778 *)
Definition cycle_items {A} (eqb : A -> A -> bool) (d : list A) (start_ix : option Z) (start_val : option A) : res (iter A) :=
  match start_val, start_ix with
  | Some _, Some _ => Raise ValueError
  | Some v, None => let* n := index_of eqb v d in Ret (iter_new d (Z.of_nat n))
  | None, Some i => Ret (iter_new d i)
  | None, None => Ret (iter_new d 0)
  end.
(** lines 780-792; zip pairs the items with the items from the second one on *)
Definition pair_up {A} (l : list A) : list (A * A) := combine l (tl l).
Definition cycle_pairs {A} (eqb : A -> A -> bool) (d : list A) (start_ix : option Z) (start_val : option A) : res (list (A * A)) :=
  let* it := cycle_items eqb d start_ix start_val in
  let* first := iter_next it in
  let* l := iter_all it in Ret (pair_up l).
(** lines 656-663: next() on the empty path raises StopIteration (RuntimeError here) *)
Definition path_pairs {A} (d : list A) : res (list (A * A)) := match d with [] => Raise RuntimeError | _ :: _ => Ret (pair_up d) end.
(** lines 743-753: consume [super] up to the next item of [sub], for each item of [sub] *)
Fixpoint skip_to {A} (eqb : A -> A -> bool) (v : A) (l : list A) : option (list A) :=
  match l with [] => None | a :: r => if eqb a v then Some r else skip_to eqb v r end.
Fixpoint consume {A} (eqb : A -> A -> bool) (sub super : list A) : bool :=
  match sub with [] => true | v :: r => match skip_to eqb v super with None => false | Some s => consume eqb r s end end.
(** lines 733-753; the bare except turns every failure to find the first node into False *)
Definition is_subcycle {A} (eqb : A -> A -> bool) (self other : list A) : res bool :=
  if Nat.ltb (List.length other) (List.length self) then Ret false else
  match self with [] => Ret false | v :: _ =>
  match cycle_items eqb other None (Some v) with Raise _ => Ret false | Ret it =>
  let* super := iter_all it in
  let* it' := cycle_items eqb self None None in
  let* sub := iter_all it' in Ret (consume eqb sub super) end end.
(** lines 755-761 *)
Fixpoint filter_subcycles {A} (eqb : A -> A -> bool) (self : list A) (l : list (list A)) : res (list (list A)) :=
  match l with [] => Ret [] | c :: r => let* b := is_subcycle eqb c self in let* rs := filter_subcycles eqb self r in Ret (if b then c :: rs else rs) end.

(** ** lines 1510-1617: run_arbitrage_cycle *)
(** lines 1545-1552: state of the loop *)
Record runst := mkRun { r_mult : R; r_initial : R; r_tkn_in : nat; r_out : R; r_tkn_out : nat }.
(** transport without recording, through each edge (line 1600) *)
Fixpoint transports (l : list (edge * R)) : res (list R) :=
  match l with [] => Ret [] | (e, v) :: r => let* x := transport_out e v in let* xs := transports r in Ret (x :: xs) end.
(** lines 1563-1601: one pair of nodes *)
Definition run_pair (g : graph) (st : option runst) (pr : nat * nat) : res (option runst) :=
  let edges := edges_between g (Some (fst pr)) (Some (snd pr)) in
  match edges with [] => Raise IndexError | e :: _ =>
  let caps := map e_ain edges in
  let cap := rsum caps in
  match st with
  | None =>
    let* outs := transports (combine edges caps) in
    Ret (Some (mkRun 1 cap (e_in e) (rsum outs) (e_out e)))
  | Some s =>
    if rlt cap (r_out s) then
      let* q := rdiv cap (r_out s) in
      let* outs := transports (combine edges caps) in
      Ret (Some (mkRun (r_mult s * q) (r_initial s) (r_tkn_in s) (rsum outs) (e_out e)))
    else
      let* f := rdiv (r_out s) cap in
      let* outs := transports (combine edges (map (fun a => a * f) caps)) in
      Ret (Some (mkRun (r_mult s) (r_initial s) (r_tkn_in s) (rsum outs) (e_out e)))
  end end.
Fixpoint run_pairs (g : graph) (st : option runst) (l : list (nat * nat)) : res (option runst) :=
  match l with [] => Ret st | pr :: r => let* s := run_pair g st pr in run_pairs g s r end.
(** lines 1554-1565: the pairs of the cycle, starting at the token if there is one. A token is
    compared by node; in the code the bare except also catches failures of pairs() itself *)
Definition arb_pairs (g : graph) (cycle : list nat) (token : option string) (allow_any : bool) : res (list (nat * nat)) :=
  match token with
  | None => cycle_pairs Nat.eqb cycle None None
  | Some t =>
    match (let* n := node_by_tkn g t in cycle_pairs Nat.eqb cycle None (Some n)) with
    | Ret l => Ret l
    | Raise _ => if allow_any then cycle_pairs Nat.eqb cycle None None else Raise ValueError
    end
  end.
(** lines 1466-1508: the result; tokens are compared by node in the assertion of line 1611
    (the code compares names, which agree when no two nodes share one) *)
Record arbresult := mkArb { arb_token : nat; arb_profit : R; arb_in : R; arb_out : R }.
Definition run_arbitrage_cycle (g : graph) (cycle : list nat) (token : option string) (allow_any : bool) : res arbresult :=
  let* prs := arb_pairs g cycle token allow_any in
  let* st := run_pairs g None prs in
  match st with None => Raise NameError | Some s =>
  let ain := r_mult s * r_initial s in
  if negb (Nat.eqb (r_tkn_in s) (r_tkn_out s)) then Raise AssertionError else
  Ret (mkArb (r_tkn_out s) (r_out s - ain) ain (r_out s)) end.
(** lines 1495-1508 *)
Definition arb_r (a : arbresult) : res R := let* q := rdiv (arb_out a) (arb_in a) in Ret (q - 1).
Definition arb_rpcs (a : arbresult) (len : nat) : res R := let* r := arb_r a in rdiv r (INR len).
Definition arb_ppcs (a : arbresult) (len : nat) : res R := rdiv (arb_profit a) (INR len).

(** ** lines 1755-1782: ptransport; None is the NaN that np.mean yields for no edges *)
Fixpoint prices (l : list edge) : res (list R) :=
  match l with [] => Ret [] | e :: r => let* x := e_price_outperin e in let* xs := prices r in Ret (x :: xs) end.
Definition mean (l : list R) : option R := match l with [] => None | _ :: _ => Some (rsum l / INR (List.length l)) end.
Fixpoint ptransport_n (g : graph) (mult : option R) (l : list (nat * nat)) : res (option R * list (option R) * list nat) :=
  match l with
  | [] => Ret (mult, [], [])
  | (i, o) :: r =>
    let es := edges_between g (Some i) (Some o) in
    let* ps := prices es in
    let m := mean ps in
    let mult' := match mult, m with Some a, Some b => Some (a * b) | _, _ => None end in
    match ptransport_n g mult' r with Ret (f, pl, nl) => Ret (f, m :: pl, List.length es :: nl) | Raise e => Raise e end
  end.
Definition ptransport (g : graph) (l : list (nat * nat)) : res (option R * list (option R) * list nat) := ptransport_n g (Some 1) l.
(** lines 1311-1324: the price along a path found by networkx; a graph without edges counts as
    connection type *)
Definition graph_price (g : graph) (path : nat -> nat -> list nat) (b q : nat) : res (option R) :=
  match g_is_amount g with Some true => Raise AssertionError | _ =>
  if Nat.eqb b q then Ret (Some 1) else
  let* prs := path_pairs (path b q) in
  let* r := ptransport g prs in Ret (fst (fst r)) end.

(** ** lines 899-923: duplicate *)
(** the dictionary of new nodes: first occurrence of every name, in order *)
Fixpoint names (seen : list string) (l : list node) : list string :=
  match l with [] => [] | n :: r => if existsb (String.eqb (n_tkn n)) seen then names seen r else n_tkn n :: names (seen ++ [n_tkn n]) r end.
Fixpoint position (l : list string) (t : string) : nat :=
  match l with [] => 0 | u :: r => if String.eqb u t then 0 else S (position r t) end.
Definition relabel (g : graph) (ns : list string) (e : edge) : edge :=
  let new n := match nth_error (g_nodes g) n with Some m => position ns (n_tkn m) | None => 0%nat end in
  mkEdge (new (e_in e)) (e_ain e) (new (e_out e)) (e_aout e) (e_inv e) (e_uid e) (e_rem e).
Fixpoint sums (l : list (list edge)) : res (list edge) :=
  match l with
  | [] => Ret []
  | es :: r => let* s := e_sum es in let* ss := sums r in Ret (match s with Some e => e :: ss | None => ss end)
  end.
(** pairs of different nodes (lines 918-919), by position *)
Definition node_pairs (g : graph) : list (nat * nat) :=
  let ix := seq 0 (List.length (g_nodes g)) in
  flat_map (fun i => map (fun o => (i, o)) (filter (fun o => negb (Nat.eqb i o)) ix)) ix.
(** all edges of one type (lines 832-834) *)
Definition homogeneous (l : list edge) : bool := match l with [] => true | e :: r => forallb (fun f => Bool.eqb (is_amount e) (is_amount f)) r end.
(** without consolidation the inverse flag is passed in the position of the index and lost
    (line 914) *)
Definition duplicate (g : graph) (consolidate : bool) : res graph :=
  let ns := names [] (g_nodes g) in
  let* es := (if consolidate then sums (map (fun p => edges_between g (Some (fst p)) (Some (snd p))) (node_pairs g))
              else Ret (map (fun e => edge_make (e_in e) (e_ain e) (e_out e) (e_aout e) false (e_uid e)) (g_edges g))) in
  let es := map (relabel g ns) es in
  if homogeneous es then Ret (mkGraph (map new_node ns) (combine ns (seq 0 (List.length ns))) es true) else Raise ValueError.

(** ** lines 1859-1932: edge statistics, for two nodes (both given, or edges given) *)
Record edgestats := mkStats { s_len : nat; s_in : R; s_rem : R; s_out : R; s_price : R; s_util : option R; s_prices : list R; s_utils : list R }.
Fixpoint rdivs (l : list (R * R)) : res (list R) :=
  match l with [] => Ret [] | (a, b) :: r => let* q := rdiv a b in let* qs := rdivs r in Ret (q :: qs) end.
Definition stats (es : list edge) : res (option edgestats) :=
  match es with [] => Ret None | _ :: _ =>
  let ins := map e_ain es in
  let* rems := states es in
  let* ut := rdivs (combine rems ins) in
  let util := if rlt 0 (rsum ins) then Some (1 - rsum rems / rsum ins) else None in
  let outs := map e_aout es in
  let* ps := rdivs (combine outs ins) in
  let* p := rdiv (rsum outs) (rsum ins) in
  Ret (Some (mkStats (List.length es) (rsum ins) (rsum rems) (rsum outs) p util ps (map (fun u => 1 - u) ut))) end.
Definition edge_statistics (g : graph) (i o : option nat) : res (option edgestats) :=
  match g_is_amount g with Some true => stats (edges_between g i o) | _ => Raise ValueError end.
(** lines 1954-1979: what flows into and out of a node *)
Definition node_statistics (g : graph) (t : string) : res (R * R * R) :=
  let* n := node_by_tkn g t in
  let* rems := states (edges_between g (Some n) None) in
  Ret (rsum (map e_aout (edges_between g None (Some n))), rsum (map e_ain (edges_between g (Some n) None)), rsum rems).
