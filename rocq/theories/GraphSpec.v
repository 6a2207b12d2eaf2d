(** Vocabulary for the properties of arbitrage graphs. *)
From Coq Require Import Reals Bool String List Arith.
From Verif Require Import CurveModel GraphModel.
Import ListNotations.
Local Open Scope R_scope.

(** ** lists *)
(** the list that starts [n] places further on *)
Definition rotate {A} (n : nat) (l : list A) : list A := skipn n l ++ firstn n l.
(** [sub] arises from [super] by deleting items *)
Inductive subseq {A} : list A -> list A -> Prop :=
| sub_nil : forall l, subseq [] l
| sub_take : forall a s l, subseq s l -> subseq (a :: s) (a :: l)
| sub_skip : forall a s l, subseq s l -> subseq s (a :: l).

(** ** graphs *)
(** sum of a quantity over the edges from [i] to [o] *)
Definition total (f : edge -> R) (g : graph) (i o : nat) : R :=
  fold_right (fun e s => if Nat.eqb (e_in e) i && Nat.eqb (e_out e) o then f e + s else s) 0 (g_edges g).
(** sum of [f] over the edges selected by [sel] *)
Definition total_of (sel : edge -> bool) (f : edge -> R) (g : graph) : R := fold_right (fun e s => if sel e then f e + s else s) 0 (g_edges g).
Definition capacity (g : graph) (p : nat * nat) : R := total e_ain g (fst p) (snd p).
(** units of the second node paid per unit of the first *)
Definition exchange (g : graph) (p : nat * nat) : R := total e_aout g (fst p) (snd p) / capacity g p.
(** what arrives when [a] is sent along the steps, ignoring capacities *)
Fixpoint arrives (g : graph) (a : R) (l : list (nat * nat)) : R := match l with [] => a | p :: r => arrives g (a * exchange g p) r end.
(** every step can take what is sent into it *)
Fixpoint fits (g : graph) (a : R) (l : list (nat * nat)) : Prop := match l with [] => True | p :: r => a <= capacity g p /\ fits g (a * exchange g p) r end.
(** what is sent through one edge when every step is split pro rata *)
Fixpoint through (g : graph) (e : edge) (a : R) (l : list (nat * nat)) : R :=
  match l with
  | [] => 0
  | p :: r => (if Nat.eqb (e_in e) (fst p) && Nat.eqb (e_out e) (snd p) then a * e_ain e / capacity g p else 0) + through g e (a * exchange g p) r
  end.
(** all edges carry positive amounts, as after add_edge *)
Definition positive (g : graph) : Prop := Forall (fun e => 0 < e_ain e /\ 0 < e_aout e) (g_edges g).
Definition has_edge (g : graph) (p : nat * nat) : Prop := exists e, In e (g_edges g) /\ e_in e = fst p /\ e_out e = snd p.

(** ** recorded transports *)
(** remaining capacity of an edge *)
Definition rem (e : edge) : R := match e_rem e with Some r => r | None => 0 end.
Definition remaining (g : graph) (i : nat) : R := match nth_error (g_edges g) i with Some e => rem e | None => 0 end.
(** everything about an edge but its remaining capacity *)
Definition fixed_part (e : edge) := (e_in e, e_ain e, e_out e, e_aout e, e_inv e, e_uid e).
(** [g'] has the same nodes, names and edges as [g]; only amounts and remaining capacities may differ *)
Definition same_graph (g g' : graph) : Prop :=
  map n_tkn (g_nodes g') = map n_tkn (g_nodes g) /\ g_index g' = g_index g /\ map fixed_part (g_edges g') = map fixed_part (g_edges g) /\ g_fixed g' = g_fixed g.
(** what an amount [v] sent through edge [e] adds to node [n] *)
Definition effect (e : edge) (v : R) (n : nat) : R :=
  (if Nat.eqb (e_out e) n then v * (e_aout e / e_ain e) else 0) - (if Nat.eqb (e_in e) n then v else 0).
(** the effect of all used capacity between two states of a graph *)
Definition booked (g g' : graph) (n : nat) : R :=
  fold_right (fun p s => effect (fst p) (rem (fst p) - rem (snd p)) n + s) 0 (combine (g_edges g) (g_edges g')).
(** edges join existing nodes and amount edges have a state *)
Definition linked (g : graph) : Prop :=
  Forall (fun e => (e_in e < List.length (g_nodes g))%nat /\ (e_out e < List.length (g_nodes g))%nat /\ (is_amount e = true <-> e_rem e <> None)) (g_edges g).
(** the last value of a node's history *)
Definition history (g : graph) (n : nat) : list R := match nth_error (g_nodes g) n with Some m => t_hist (n_amount m) | None => [] end.

(** price of the edge at a position, in units out per unit in *)
Definition price_at (g : graph) (p : nat) : R := match nth_error (g_edges g) p with Some e => e_aout e / e_ain e | None => 0 end.
(** the edge at position [p] leads from [i] to [o] *)
Definition joins (g : graph) (i o p : nat) : Prop := exists e, nth_error (g_edges g) p = Some e /\ e_in e = i /\ e_out e = o.
(** what is given to position [p] *)
Definition given (l : list (nat * R)) (p : nat) : R := fold_right (fun q s => if Nat.eqb (fst q) p then snd q + s else s) 0 l.
Definition summed (l : list R) : R := fold_right Rplus 0 l.

(** ** building graphs *)
(** a call that adds to a graph; a call that fails may still have changed the graph *)
Inductive call :=
| CNode (t : string)
| CEdge (ti : string) (ai : R) (to : string) (ao : R) (inv : bool) (uid : option string)
| CDxdy (tx : string) (dx : R) (ty : string) (dy : R) (inv : bool) (uid : option string)
| CConn (ti to : string) (price : option R) (inv : bool) (poi weight : option R) (symmetric : bool) (uid : option string)
| CCpc (l : list (CpcModel.cpc * string)) (uid : option string)
| CTrades (l : list (string * R * string * R * string)) (ignorezero : bool).
Definition do_call (g : graph) (c : call) : graph :=
  fst (match c with
       | CNode t => add_node g t
       | CEdge ti ai to ao inv uid => add_edge g ti ai to ao inv uid
       | CDxdy tx dx ty dy inv uid => add_edge_dxdy g tx dx ty dy inv uid
       | CConn ti to price inv poi w sym uid => add_edge_connection g ti to price inv poi w sym uid
       | CCpc l uid => add_edges_cpc g l uid
       | CTrades l iz => from_ccdxdy g l iz
       end).
Definition build (l : list call) : graph := fold_left do_call l empty_graph.
Definition no_add_node (c : call) : Prop := match c with CNode _ => False | _ => True end.
(** name of a node *)
Definition name (g : graph) (n : nat) : option string := option_map n_tkn (nth_error (g_nodes g) n).
(** [n] is the last node with this name *)
Definition last_named (g : graph) (t : string) (n : nat) : Prop := name g n = Some t /\ forall m, (n < m)%nat -> name g m <> Some t.
(** what the edges take from a token minus what they pay in it *)
Definition net (g : graph) (t : string) : R :=
  fold_right (fun e s => (match name g (e_in e) with Some u => if String.eqb u t then e_ain e else 0 | None => 0 end)
                       - (match name g (e_out e) with Some u => if String.eqb u t then e_aout e else 0 | None => 0 end) + s) 0 (g_edges g).
(** what a list of trades asks for in a token *)
Definition asked (l : list (string * R * string * R * string)) (t : string) : R :=
  fold_right (fun x s => let '(tx, dx, ty, dy, _) := x in (if String.eqb tx t then dx else 0) + (if String.eqb ty t then dy else 0) + s) 0 l.
(** the edge leads between the named tokens *)
Definition leads (g : graph) (e : edge) (ti to : string) : Prop :=
  name g (e_in e) = Some ti /\ name g (e_out e) = Some to /\ node_by_tkn g ti = Ret (e_in e) /\ node_by_tkn g to = Ret (e_out e).

(** ** prices *)
(** average price of the edges from [i] to [o] *)
Definition avg_price (g : graph) (p : nat * nat) : R :=
  total (fun e => e_aout e / e_ain e) g (fst p) (snd p) / total (fun _ => 1) g (fst p) (snd p).
Definition product (l : list R) : R := fold_right Rmult 1 l.
(** values of the nodes under which every edge is fairly priced *)
Definition fair (g : graph) (V : nat -> R) : Prop :=
  (forall n, 0 < V n) /\ Forall (fun e => e_ain e <> 0 /\ e_aout e / e_ain e = V (e_in e) / V (e_out e)) (g_edges g).
(** number of edges from [i] to [o] *)
Definition count (g : graph) (i o : nat) : nat := List.length (filter (fun e => Nat.eqb (e_in e) i && Nat.eqb (e_out e) o) (g_edges g)).

(** a sequence of recorded transports through numbered edges, all of which succeed *)
Fixpoint run (g : graph) (l : list (nat * R)) : option graph :=
  match l with
  | [] => Some g
  | (i, v) :: r => match edge_transport g i (Some (Num v)) true true with (g', Ret _) => run g' r | (_, Raise _) => None end
  end.
