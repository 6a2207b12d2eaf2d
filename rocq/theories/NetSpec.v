(** Vocabulary for the properties of arbitrage graphs as networks. *)
From Coq Require Import Reals ZArith List Bool String Arith Permutation.
From Verif Require Import CurveModel GraphModel GraphSpec PairProofs NetModel.
From Verif Require CpcModel.
Import ListNotations.
Local Open Scope R_scope.

(** the nodes visited on the way from [a] to [z] along the relation [E], both included *)
Inductive walk (E : nat -> nat -> Prop) : nat -> nat -> list nat -> Prop :=
| walk_here : forall a, walk E a a [a]
| walk_step : forall a b z l, E a b -> walk E b z l -> walk E a z (a :: l).
Definition edge_in (L : list (nat * nat)) (a b : nat) : Prop := In (a, b) L.
(** what is assumed of networkx.shortest_path: on a directed graph it finds a walk with as few
    nodes as possible if there is one *)
Definition searches (find : searcher) : Prop := forall n L b q,
  Forall (fun p => (fst p < n)%nat /\ (snd p < n)%nat) L -> (b < n)%nat -> (q < n)%nat ->
  (forall l, find (mkNx true n L) b q = Some l -> walk (edge_in L) b q l /\ forall l', walk (edge_in L) b q l' -> (List.length l <= List.length l')%nat) /\
  (find (mkNx true n L) b q = None -> forall l, ~ walk (edge_in L) b q l).
(** there is an edge from [a] to [b] *)
Definition step (g : graph) (a b : nat) : Prop := has_edge g (a, b).
(** the steps of a list of nodes *)
Definition steps (l : list nat) : list (nat * nat) := combine l (tl l).
(** connection graph: what goes in is the negative of a weight, prices are positive *)
Definition connections (g : graph) : Prop := Forall (fun e => e_ain e < 0 /\ e_aout e < 0) (g_edges g).
Definition on_graph (g : graph) (n : nat) : Prop := (n < List.length (g_nodes g))%nat.
(** every node is known by its name *)
Definition named (g : graph) : Prop := forall n, on_graph g n -> exists t, name g n = Some t /\ node_by_tkn g t = Ret n.

(** every edge has its own counterpart in the other direction at the reciprocal price: the
    prices from [j] to [i] are the reciprocals of those from [i] to [j] *)
Definition out_per_in (e : edge) : R := e_aout e / e_ain e.
Definition prices_between (g : graph) (i j : nat) : list R :=
  map out_per_in (filter (fun e => Nat.eqb (e_in e) i && Nat.eqb (e_out e) j) (g_edges g)).

Definition inv (l : list R) : list R := map (fun q => 1 / q) l.
Definition mirrored (g : graph) : Prop := forall i j, i <> j -> Permutation (prices_between g j i) (inv (prices_between g i j)).
(** the prices between nodes *)
Definition priced (find : searcher) (g : graph) (P : nat -> nat -> R) : Prop := forall i j, on_graph g i -> on_graph g j -> price find g (Nd i) (Nd j) = Ret (Some (P i j)).
(** the edge belongs to the pool, in one of the directions *)
Definition from_pool (g : graph) (e : edge) (c : CpcModel.cpc) : Prop :=
  (name g (e_in e) = Some (CpcModel.tknx c) /\ name g (e_out e) = Some (CpcModel.tkny c) /\ out_per_in e = CpcModel.p c) \/
  (name g (e_in e) = Some (CpcModel.tkny c) /\ name g (e_out e) = Some (CpcModel.tknx c) /\ out_per_in e = 1 / CpcModel.p c).

(** ** matrices *)
Definition joined_by (g : graph) (i j : nat) : Prop := has_edge g (i, j) \/ has_edge g (j, i).
Definition at_ (m : list (list Z)) (i j : nat) : Z := nth j (nth i m []) 0%Z.
(** sum over the nodes *)
Fixpoint rsumn (n : nat) (f : nat -> R) : R := match n with O => 0 | S m => rsumn m f + f m end.
Fixpoint zsumn (n : nat) (f : nat -> Z) : Z := match n with O => 0%Z | S m => (zsumn m f + f m)%Z end.
Fixpoint nsumn (n : nat) (f : nat -> nat) : nat := match n with O => 0%nat | S m => (nsumn m f + f m)%nat end.
(** connected when the direction of the edges is ignored *)
Inductive linked_to (g : graph) : nat -> nat -> Prop :=
| to_self : forall a, linked_to g a a
| to_next : forall a b c, linked_to g a b -> joined_by g b c -> linked_to g a c.

(** ** tables of edges *)
(** the edges from token [i] to token [o] *)
Definition traded (g : graph) (es : list edge) (i o : string) : list edge :=
  filter (fun e => String.eqb (tkn_of g (e_in e)) i && String.eqb (tkn_of g (e_out e)) o) es.
Definition total_weight (l : list edge) : R := rsum (map (fun e => - e_ain e) l).
Definition average (l : list R) : R := rsum l / INR (List.length l).
(** two tokens joined in one direction are joined in the other *)
Definition both_ways (g : graph) (es : list edge) : Prop := forall i o, traded g es i o <> [] -> traded g es o i <> [].
(** tokens are joined to other tokens, and slashes do not occur in their names *)
Definition clean (g : graph) (es : list edge) : Prop := Forall (fun e => tkn_of g (e_in e) <> tkn_of g (e_out e) /\ no_slash (tkn_of g (e_in e)) = true /\ no_slash (tkn_of g (e_out e)) = true) es.
