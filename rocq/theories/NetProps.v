(** Theorems about arbitrage graphs as networks: prices along shortest paths (C139), price tables
    (C140), matrices, degrees and connectivity (C141), tables of edges (C142), runs over many
    cycles (C143). *)
From Coq Require Import Reals Lra Bool String List ZArith Arith Lia Permutation Sorted.
From Verif Require Import CurveModel CurveProofs GraphModel GraphSpec GraphProofs9 HelperModel PairProofs FileSpec NetModel NetSpec NetProofs NetProofs2 NetProofs3 NetProofs4 NetProofs5 NetProofs6 NetProofs7.
From Verif Require CpcModel CpcSpec.
Import ListNotations.
Local Open Scope R_scope.

(** three tokens; A and B are joined twice in one direction and once in the other, B and C once
    in each *)
Definition link (i o : nat) (p : R) : edge := mkEdge i (-1) o (- p) false None None.
Definition ex_net : graph := mkGraph [new_node "A"; new_node "B"; new_node "C"] [("A"%string, 0%nat); ("B"%string, 1%nat); ("C"%string, 2%nat)]
  [link 0 1 1; link 0 1 3; link 1 0 (1 / 2); link 1 2 5; link 2 1 (1 / 5)] false.
Example ex_net_linked : linked ex_net.
Proof.
  unfold linked. assert (X : forall i o p, (i < 3)%nat -> (o < 3)%nat -> (e_in (link i o p) < 3)%nat /\ (e_out (link i o p) < 3)%nat /\ (is_amount (link i o p) = true <-> e_rem (link i o p) <> None)).
  { intros i o p I O. split; [exact I|]. split; [exact O|]. unfold is_amount, link. cbn. rewrite rlt_true by lra. cbn. split; [discriminate|congruence]. }
  repeat (apply Forall_cons; [apply X; lia|]). apply Forall_nil.
Qed.
Example ex_net_connections : connections ex_net.
Proof. unfold connections. repeat (apply Forall_cons; [cbn; lra|]). apply Forall_nil. Qed.
Example ex_net_named : named ex_net.
Proof. intros n I. unfold on_graph in I. cbn in I. destruct n as [|[|[|n]]]; [exists "A"%string|exists "B"%string|exists "C"%string|lia]; split; reflexivity. Qed.
Example ex_net_edges : has_edge ex_net (0%nat, 1%nat) /\ has_edge ex_net (1%nat, 2%nat) /\ ~ has_edge ex_net (0%nat, 2%nat).
Proof.
  split; [exists (link 0 1 1); cbn; auto|]. split; [exists (link 1 2 5); cbn; auto 8|]. intros (e & I & A & B). cbn in I, A, B. repeat (destruct I as [<-|I]; [cbn in A, B; congruence|]). exact I.
Qed.

(** ** C139 *)
(** what is assumed of networkx.shortest_path can be had: searching all walks by length does it *)
Theorem C139_search : searches by_length.
Proof. exact by_length_searches. Qed.
(** the price between two tokens is the product of the average prices along a path with as few
    edges as possible; without a path there is an error. Tokens are given by name or as nodes *)
Theorem C139_price : forall find g b q i j, searches find -> linked g -> connections g -> arg_eqb b q = false -> node_of g b = Ret i -> node_of g q = Ret j -> on_graph g i -> on_graph g j ->
  (exists l, walk (step g) i j l /\ (forall l', walk (step g) i j l' -> (List.length l <= List.length l')%nat) /\ price find g b q = Ret (Some (product (map (avg_price g) (steps l))))) \/
  ((forall l, ~ walk (step g) i j l) /\ price find g b q = Raise RuntimeError).
Proof. exact price_spec. Qed.
(** tokens that are joined have the average price of the edges between them, whatever the prices
    elsewhere *)
Theorem C139_direct : forall find g b q i j, searches find -> linked g -> connections g -> arg_eqb b q = false -> node_of g b = Ret i -> node_of g q = Ret j -> i <> j -> has_edge g (i, j) ->
  price find g b q = Ret (Some (average (prices_between g i j))).
Proof.
  intros find g b q i j S L C E B Q D H. rewrite (price_direct find g b q i j S L C E B Q D H). f_equal. f_equal. rewrite avg_prices. unfold average. rewrite summed_rsum. reflexivity.
Qed.
(** in units of itself a token costs one *)
Theorem C139_same : forall find g b q i, searches find -> linked g -> connections g -> node_of g b = Ret i -> node_of g q = Ret i -> on_graph g i -> price find g b q = Ret (Some 1).
Proof. exact price_same_node. Qed.
(** where all edges are fairly priced, the price is the ratio of the values whatever the path *)
Theorem C139_fair : forall find g V i j l, searches find -> linked g -> named g -> connections g -> fair g V -> on_graph g i -> on_graph g j -> walk (step g) i j l ->
  price find g (Nd i) (Nd j) = Ret (Some (V i / V j)).
Proof. exact fair_price. Qed.
(** prices are refused on graphs of amounts, and for names that are not on the graph *)
Theorem C139_refused : forall find g b q,
  (g_is_amount g = Some true -> price find g b q = Raise AssertionError) /\
  (forall t e, connections g -> b = Tkn t -> arg_eqb b q = false -> node_by_tkn g t = Raise e -> price find g b q = Raise e).
Proof.
  intros find g b q. split; [intros A; unfold price; rewrite A; reflexivity|]. intros t e C -> E H. assert (T := connections_type g C). unfold price. rewrite E. cbn [node_of]. rewrite H. destruct (g_is_amount g) as [[|]|]; [congruence|reflexivity|reflexivity].
Qed.
(** with units: the price and both names; asked for the same name twice there is an error, for
    the same node twice there is none *)
Theorem C139_units : forall find g,
  (forall b q i j p, arg_eqb b q = false -> node_of g b = Ret i -> node_of g q = Ret j -> price find g b q = Ret p ->
     price_units find g b q = Ret (p, (tkn_of g j ++ " per " ++ tkn_of g i ++ " [" ++ tkn_of g i ++ "/" ++ tkn_of g j ++ "]")%string)) /\
  (connections g -> (forall t, price_units find g (Tkn t) (Tkn t) = Raise AttributeError) /\ forall n, exists u, price_units find g (Nd n) (Nd n) = Ret (Some 1, u)).
Proof.
  intros find g. split.
  - intros b q i j p E B Q P. unfold price_units. rewrite P. cbn [rbind]. rewrite E, B. cbn [rbind]. rewrite Q. reflexivity.
  - intros C. split; [intros t|intros n; exists (units g n n)]; unfold price_units; rewrite price_same; try exact C; cbn [rbind arg_eqb]; rewrite ?String.eqb_refl, ?Nat.eqb_refl; reflexivity.
Qed.
Lemma ex_avg : avg_price ex_net (0%nat, 1%nat) = 2 /\ avg_price ex_net (1%nat, 2%nat) = 5 /\ avg_price ex_net (1%nat, 0%nat) = 1 / 2 /\ avg_price ex_net (2%nat, 1%nat) = 1 / 5.
Proof. repeat split; rewrite avg_prices; unfold prices_between, ex_net, out_per_in; cbn; field. Qed.
Lemma ex_walks l : walk (step ex_net) 0 2 l -> (List.length l <= 3)%nat -> l = [0; 1; 2]%nat.
Proof.
  assert (E : forall a b, step ex_net a b -> (a, b) = (0, 1)%nat \/ (a, b) = (1, 0)%nat \/ (a, b) = (1, 2)%nat \/ (a, b) = (2, 1)%nat).
  { intros a b (e & I & A & B). cbn in I, A, B. subst. repeat (destruct I as [<-|I]; [cbn; tauto|]). destruct I. }
  intros W L. inversion W as [|? b ? l1 S1 W1]; subst. destruct (E _ _ S1) as [X|[X|[X|X]]]; try discriminate. injection X as ->.
  inversion W1 as [|? c ? l2 S2 W2]; subst. destruct (E _ _ S2) as [X|[X|[X|X]]]; try discriminate; injection X as ->.
  - inversion W2 as [|? d ? l3 S3 W3]; subst. inversion W3; subst; cbn in L; lia.
  - inversion W2 as [|? d ? l3 S3 W3]; subst; [reflexivity|]. inversion W3; subst; cbn in L; lia.
Qed.
(** A to C goes over B: twice the average of 1 and 3 *)
Example C139_ex : price by_length ex_net (Tkn "A") (Tkn "C") = Ret (Some 10).
Proof.
  destruct (C139_price by_length ex_net (Tkn "A") (Tkn "C") 0 2) as [(l & W & M & P)|[N _]]; try reflexivity; [apply C139_search|apply ex_net_linked|apply ex_net_connections|unfold on_graph; cbn; lia|unfold on_graph; cbn; lia| |].
  - destruct ex_net_edges as (E1 & E2 & _). assert (W' : walk (step ex_net) 0 2 [0; 1; 2]%nat) by (repeat (econstructor; [eassumption|]); constructor). assert (L := M _ W'). rewrite (ex_walks l W L) in P. rewrite P. cbn. destruct ex_avg as (-> & -> & _). do 2 f_equal. ring.
  - exfalso. destruct ex_net_edges as (E1 & E2 & _). apply (N [0; 1; 2]%nat). repeat (econstructor; [eassumption|]). constructor.
Qed.
Print Assumptions C139_search. Print Assumptions C139_price. Print Assumptions C139_direct. Print Assumptions C139_same. Print Assumptions C139_fair. Print Assumptions C139_refused. Print Assumptions C139_units.

(** ** C140 *)
(** the table of a list of nodes between which there are paths: in row i and column j the price
    of i in units of j, under the names of the nodes *)
Theorem C140_table : forall find g ns, searches find -> linked g -> named g -> connections g -> Forall (on_graph g) ns -> (forall i j, In i ns -> In j ns -> exists l, walk (step g) i j l) ->
  exists P, pricetable find g (Some (map Nd ns)) None = Ret (map (tkn_of g) ns, map (fun i => map (fun j => Some (P i j)) ns) ns) /\
  forall i j, In i ns -> In j ns -> price find g (Nd i) (Nd j) = Ret (Some (P i j)).
Proof. intros find g ns S L N C F W. exists (quoted find g). exact (table_ok find g ns S L N C F W). Qed.
(** a single missing path and there is no table *)
Theorem C140_missing : forall find g ns i j, searches find -> linked g -> named g -> connections g -> Forall (on_graph g) ns -> In i ns -> In j ns -> (forall l, ~ walk (step g) i j l) ->
  pricetable find g (Some (map Nd ns)) None = Raise RuntimeError.
Proof. exact table_fails. Qed.
(** by default all nodes; excluded nodes are left out; names among the excluded have no effect,
    and names among the included are an error *)
Theorem C140_selection : forall find g,
  (forall x, pricetable find g None x = pricetable find g (Some (map Nd (seq 0 (List.length (g_nodes g))))) x) /\
  (forall ns xs, pricetable find g (Some (map Nd ns)) (Some (map Nd xs)) = pricetable find g (Some (map Nd (filter (fun n => negb (existsb (Nat.eqb n) xs)) ns))) None) /\
  (forall ns ts, pricetable find g (Some (map Nd ns)) (Some (map Tkn ts)) = pricetable find g (Some (map Nd ns)) None) /\
  (forall t l, pricetable find g (Some (Tkn t :: l)) None = Raise AttributeError).
Proof.
  intros find g. split; [reflexivity|]. split; [|split; [intros; apply exclude_names|reflexivity]]. intros ns xs. rewrite exclude_spec. f_equal. f_equal. f_equal. apply filter_ext. intros n. f_equal. induction xs as [|x xs IH]; [reflexivity|]. cbn. rewrite IH. reflexivity.
Qed.
(** the table of a graph made of pools is consistent (P(i,j) P(j,k) = P(i,k)) if and only if
    there is no arbitrage: some values of the tokens price all pools *)
Theorem C140_pools : forall pools uid, Forall (fun x => CpcSpec.pool_ok (fst x)) pools -> Forall (fun x => CpcModel.tknx (fst x) <> CpcModel.tkny (fst x)) pools ->
  exists g, add_edges_cpc empty_graph pools uid = (g, None) /\ forall find P, searches find -> priced find g P ->
    ((forall i j k, on_graph g i -> on_graph g j -> on_graph g k -> P i j * P j k = P i k) <->
     exists v : string -> R, (forall t, 0 < v t) /\ forall c cid, In (c, cid) pools -> CpcModel.p c = v (CpcModel.tknx c) / v (CpcModel.tkny c)).
Proof.
  intros pools uid PO D. destruct (pool_graph pools uid PO D) as (g & E & L & N & C & M & NL & F1 & F2). exists g. split; [exact E|]. intros find P S H. rewrite (mirrored_consistent find g P S L N C M NL H). apply (pools_fair pools g L N C F1 F2).
Qed.
(** of any graph the table is consistent if and only if the average prices are ratios of values *)
Theorem C140_average : forall find g P, searches find -> linked g -> named g -> connections g -> priced find g P ->
  (forall i j k, on_graph g i -> on_graph g j -> on_graph g k -> P i j * P j k = P i k) <->
  (exists V, (forall n, 0 < V n) /\ forall i j, i <> j -> has_edge g (i, j) -> average (prices_between g i j) = V i / V j).
Proof.
  intros find g P S L N C H. rewrite (consistent_iff find g P S L N C H). split; intros (V & PV & K); exists V; (split; [exact PV|]); intros i j D E; specialize (K i j D E); rewrite avg_prices, summed_rsum in *; exact K.
Qed.
(** a round trip over tokens joined by pools never loses, and only breaks even if the pools agree *)
Theorem C140_roundtrip : forall pools uid, Forall (fun x => CpcSpec.pool_ok (fst x)) pools -> Forall (fun x => CpcModel.tknx (fst x) <> CpcModel.tkny (fst x)) pools ->
  exists g, add_edges_cpc empty_graph pools uid = (g, None) /\ forall find i j p q, searches find -> i <> j -> has_edge g (i, j) -> price find g (Nd i) (Nd j) = Ret (Some p) -> price find g (Nd j) (Nd i) = Ret (Some q) ->
    1 <= p * q /\ (p * q = 1 -> forall e f, In e (g_edges g) -> In f (g_edges g) -> e_in e = i -> e_out e = j -> e_in f = i -> e_out f = j -> out_per_in e = out_per_in f).
Proof.
  intros pools uid PO D. destruct (pool_graph pools uid PO D) as (g & E & L & N & C & M & NL & F1 & F2). exists g. split; [exact E|]. intros find i j p q S IJ H P Q.
  destruct (linked_edge g i j L H) as [I J]. assert (H' := mirrored_edge g i j M IJ H).
  rewrite (price_direct find g (Nd i) (Nd j) i j S L C) in P; try assumption; [|cbn; apply Nat.eqb_neq; exact IJ|apply node_of_named; assumption|apply node_of_named; assumption].
  rewrite (price_direct find g (Nd j) (Nd i) j i S L C) in Q; try assumption; [|cbn; apply Nat.eqb_neq; congruence|apply node_of_named; assumption|apply node_of_named; assumption|congruence].
  injection P as <-. injection Q as <-. apply (round_trip g i j M C IJ H).
Qed.
(** without an edge in the other direction for every edge a table can be consistent though there
    is an arbitrage *)
Theorem C140_consistent_refuted : exists find g P, searches find /\ linked g /\ named g /\ connections g /\ priced find g P /\
  (forall i j k, on_graph g i -> on_graph g j -> on_graph g k -> P i j * P j k = P i k) /\ ~ exists V, fair g V.
Proof.
  assert (W : forall i j, on_graph ex_net i -> on_graph ex_net j -> exists l, walk (step ex_net) i j l).
  { assert (E01 : step ex_net 0 1) by apply ex_net_edges. assert (E12 : step ex_net 1 2) by apply ex_net_edges. assert (E10 : step ex_net 1 0) by (exists (link 1 0 (1/2)); cbn; auto). assert (E21 : step ex_net 2 1) by (exists (link 2 1 (1/5)); cbn; auto 8).
    intros i j I J. unfold on_graph in I, J. cbn in I, J. destruct i as [|[|[|i]]], j as [|[|[|j]]]; try lia; eauto 8 using walk_here, walk_step. }
  destruct (C140_table by_length ex_net (seq 0 3)) as (P & _ & HP); [apply C139_search|apply ex_net_linked|apply ex_net_named|apply ex_net_connections|repeat constructor|intros i j I J; apply in_seq in I, J; apply W; unfold on_graph; cbn; lia|].
  assert (PR : priced by_length ex_net P) by (intros i j I J; unfold on_graph in I, J; cbn in I, J; apply HP; apply in_seq; lia).
  exists by_length, ex_net, P. split; [apply C139_search|]. split; [apply ex_net_linked|]. split; [apply ex_net_named|]. split; [apply ex_net_connections|]. split; [exact PR|]. split.
  - apply (consistent_iff by_length ex_net P C139_search ex_net_linked ex_net_named ex_net_connections PR). exists (fun n => match n with 0%nat => 10 | 1%nat => 5 | _ => 1 end). split; [intros [|[|n]]; lra|].
    intros i j D (e & I & A & B). cbn in A, B. destruct ex_avg as (A1 & A2 & A3 & A4). cbn in I. repeat (destruct I as [<-|I]; [cbn in A, B; subst i j; rewrite ?A1, ?A2, ?A3, ?A4; lra|]). destruct I.
  - intros (V & PV & F). cbn in F. inversion F as [|? ? [_ F1] F']; subst. inversion F' as [|? ? [_ F2] _]; subst. cbn in F1, F2. lra.
Qed.
(** two pools that agree, and values for them *)
Definition ex_pools (p : R) : list (CpcModel.cpc * string) := [(CpcModel.mkCpc 100 10 10 10 "A" "B", "p1"%string); (CpcModel.mkCpc (100 * p) 10 10 (10 * p) "B" "C", "p2"%string)].
Example C140_ex : Forall (fun x => CpcSpec.pool_ok (fst x)) (ex_pools 5) /\ Forall (fun x => CpcModel.tknx (fst x) <> CpcModel.tkny (fst x)) (ex_pools 5) /\
  exists v : string -> R, (forall t, 0 < v t) /\ forall c cid, In (c, cid) (ex_pools 5) -> CpcModel.p c = v (CpcModel.tknx c) / v (CpcModel.tkny c).
Proof.
  split. { unfold ex_pools, CpcSpec.pool_ok. repeat (apply Forall_cons; [cbn; lra|]). apply Forall_nil. }
  split. { repeat (apply Forall_cons; [cbn; congruence|]). apply Forall_nil. }
  exists (fun t => if String.eqb t "C" then 1 else 5). split; [intros t; destruct (String.eqb t "C"); lra|]. intros c cid [[= <- <-]|[[= <- <-]|[]]]; unfold CpcModel.p, CpcModel.y; cbn; field.
Qed.
Print Assumptions C140_table. Print Assumptions C140_missing. Print Assumptions C140_selection. Print Assumptions C140_pools. Print Assumptions C140_average. Print Assumptions C140_roundtrip. Print Assumptions C140_consistent_refuted.
(** pools have a table of prices if and only if they hang together *)
Theorem C140_connected : forall pools uid, pools <> [] -> Forall (fun x => CpcSpec.pool_ok (fst x)) pools -> Forall (fun x => CpcModel.tknx (fst x) <> CpcModel.tkny (fst x)) pools ->
  exists g, add_edges_cpc empty_graph pools uid = (g, None) /\ forall find, searches find -> (is_weakly_connected g = Ret true <-> exists P, priced find g P).
Proof.
  intros pools uid NE PO D. destruct (pool_graph pools uid PO D) as (g & E & L & N & C & M & NL & F1 & F2). exists g. split; [exact E|]. intros find S. apply connected_priced; try assumption.
  destruct pools as [|[c cid] r]; [congruence|]. destruct (F2 c cid (or_introl eq_refl)) as (e & I & _). intros X. unfold linked in L. rewrite Forall_forall in L. destruct (L e I) as (A & _). rewrite X in A. cbn in A. lia.
Qed.
Print Assumptions C140_connected.

(** ** C141 *)
(** the adjacency matrix has a one where there is an edge, for the undirected graph one in
    either direction, however many edges there are; else a zero *)
Theorem C141_adjacency : forall g d, exists m, adjacency g d false = Ret m /\ List.length m = List.length (g_nodes g) /\ Forall (fun r => List.length r = List.length (g_nodes g)) m /\
  forall i j, on_graph g i -> on_graph g j ->
    let there := if d then has_edge g (i, j) else has_edge g (i, j) \/ has_edge g (j, i) in (at_ m i j = 1%Z <-> there) /\ (at_ m i j = 0%Z <-> ~ there).
Proof. exact adjacency_spec. Qed.
(** the Laplacian is symmetric; minus one where nodes are joined; on the diagonal the number of
    other nodes joined to the node; all rows sum to zero *)
Theorem C141_laplacian : forall g, linked g -> exists m, laplacian g false = Ret m /\ List.length m = List.length (g_nodes g) /\ Forall (fun r => List.length r = List.length (g_nodes g)) m /\
  (forall i j, on_graph g i -> on_graph g j -> at_ m i j = at_ m j i) /\
  (forall i j, on_graph g i -> on_graph g j -> i <> j -> (at_ m i j = -1)%Z /\ joined_by g i j \/ at_ m i j = 0%Z /\ ~ joined_by g i j) /\
  (forall i l, on_graph g i -> NoDup l -> (forall a, In a l <-> a <> i /\ joined_by g i a) -> at_ m i i = Z.of_nat (List.length l)) /\
  (forall i, on_graph g i -> zsumn (List.length (g_nodes g)) (at_ m i) = 0%Z).
Proof.
  intros g L. destruct (laplacian_at g) as (m & E & A & B & H). exists m. split; [exact E|]. split; [exact A|]. split; [exact B|]. split; [intros i j I J; rewrite !H by assumption; apply lap_sym|].
  split; [intros i j I J D; rewrite H by assumption; apply lap_off, D|]. split; [intros i l I N K; rewrite H by assumption; apply lap_diag; assumption|].
  intros i I. rewrite <- (lap_rows_zero g i I). assert (X : forall n, (n <= List.length (g_nodes g))%nat -> zsumn n (at_ m i) = zsumn n (fun j => lap g i j)). { induction n as [|n IH]; intros K; [reflexivity|]. cbn. rewrite IH, H by (unfold on_graph in *; lia). reflexivity. } apply X. lia.
Qed.
(** the quadratic form of the Laplacian adds up the squared differences along the joined nodes,
    hence is nowhere negative *)
Theorem C141_quadratic : forall g m (x : nat -> R), laplacian g false = Ret m -> let n := List.length (g_nodes g) in
  exists a : nat -> nat -> R, (forall i j, a i j = 1 /\ joined_by g i j \/ a i j = 0 /\ ~ joined_by g i j) /\
  2 * rsumn n (fun i => x i * rsumn n (fun j => IZR (at_ m i j) * x j)) = rsumn n (fun i => rsumn n (fun j => a i j * ((x i - x j) * (x i - x j)))) /\
  0 <= rsumn n (fun i => x i * rsumn n (fun j => IZR (at_ m i j) * x j)).
Proof.
  intros g m x E n. destruct (laplacian_at g) as (m' & E' & _ & _ & H). rewrite E in E'. injection E' as <-. exists (adj g). split; [intros i j; destruct (joined_dec g i j) as [J|J]; [left|right]; split; auto; [apply adj_joined|apply adj_zero]; exact J|].
  assert (X : rsumn n (fun i => x i * rsumn n (fun j => IZR (at_ m i j) * x j)) = rsumn n (fun i => x i * rsumn n (fun j => IZR (lap g i j) * x j))). { apply rsumn_ext. intros i I. f_equal. apply rsumn_ext. intros j J. rewrite H by assumption. reflexivity. }
  rewrite X. assert (Q := lap_quadratic g x). cbn zeta in Q. fold n in Q. split; [exact Q|]. assert (0 <= rsumn n (fun i => rsumn n (fun j => adj g i j * ((x i - x j) * (x i - x j))))); [|lra]. apply rsumn_nonneg. intros i _. apply rsumn_nonneg. intros j _. apply Rmult_le_pos; [apply adj_nonneg|]. apply Rle_0_sqr.
Qed.
(** degrees: of directed graphs the number of nodes with an edge to, or from, the node; of
    undirected graphs the number of nodes joined to it, itself counting twice *)
Theorem C141_degree : forall g, linked g -> exists i_d o_d s_d,
  degree g Indeg false = Ret i_d /\ degree g Outdeg false = Ret o_d /\ degree g Sym false = Ret s_d /\
  (forall i l, on_graph g i -> NoDup l -> (forall a, In a l <-> has_edge g (a, i)) -> nth_error i_d i = Some (List.length l)) /\
  (forall i l, on_graph g i -> NoDup l -> (forall a, In a l <-> has_edge g (i, a)) -> nth_error o_d i = Some (List.length l)) /\
  (forall i l, on_graph g i -> NoDup l -> (forall a, In a l <-> joined_by g i a) -> (has_edge g (i, i) -> nth_error s_d i = Some (S (List.length l))) /\ (~ has_edge g (i, i) -> nth_error s_d i = Some (List.length l))).
Proof.
  intros g L. assert (X : forall (f : nat -> nat) i, on_graph g i -> nth_error (map f (seq 0 (List.length (g_nodes g)))) i = Some (f i)). { intros f i I. apply map_nth_error. rewrite (nth_error_nth' _ 0%nat) by (rewrite seq_length; exact I). rewrite seq_nth by exact I. reflexivity. }
  eexists _, _, _. split; [reflexivity|]. split; [reflexivity|]. split; [reflexivity|]. split; [|split].
  - intros i l I N H. rewrite <- (in_degree_spec g i l N H). apply X, I.
  - intros i l I N H. rewrite <- (out_degree_spec g i l N H). apply X, I.
  - intros i l I N H. assert (D := degree_spec g i l L N H). assert (Y := has_net g false i i). unfold joined_by in Y. assert (Z : nth_error (map (nx_degree (net_of g false)) (seq 0 (List.length (g_nodes g)))) i = Some (nx_degree (net_of g false) i)) by apply X, I. split; intros K; (etransitivity; [exact Z|]); rewrite D; f_equal.
    + rewrite (proj2 Y) by tauto. lia.
    + destruct (has false (nx_edges (net_of g false)) i i); [exfalso; tauto|lia].
Qed.
(** in-degrees and out-degrees both add up to the number of pairs with an edge; degrees add up
    to twice the number of joined pairs *)
Theorem C141_handshake : forall g i_d o_d s_d, linked g -> degree g Indeg false = Ret i_d -> degree g Outdeg false = Ret o_d -> degree g Sym false = Ret s_d ->
  (forall l, NoDup l -> (forall p, In p l <-> has_edge g p) -> list_sum i_d = List.length l /\ list_sum o_d = List.length l) /\
  (forall l, NoDup l -> (forall i j, In (i, j) l <-> (i <= j)%nat /\ joined_by g i j) -> list_sum s_d = (2 * List.length l)%nat).
Proof.
  intros g i_d o_d s_d L [= <-] [= <-] [= <-]. assert (X : forall (f : nat -> nat) n, list_sum (map f (seq 0 n)) = nsumn n f). { intros f. induction n as [|n IH]; [reflexivity|]. rewrite seq_S, map_app, list_sum_app, IH. cbn. lia. }
  split; intros l N H; unfold indices; cbn [nx_n]; rewrite !X.
  - rewrite <- (directed_count g l N H). split; [exact (in_sum g L)|exact (out_sum g L)].
  - rewrite <- (undirected_count g l N H). exact (degree_sum g L).
Qed.
(** weakly connected: every node can be reached from every other if directions are ignored;
    equivalently only constants are in the kernel of the Laplacian *)
Theorem C141_connected : forall g, linked g -> g_nodes g <> [] -> exists b, is_weakly_connected g = Ret b /\ (b = true <-> forall i j, on_graph g i -> on_graph g j -> linked_to g i j).
Proof. exact connected_spec. Qed.
Theorem C141_kernel : forall g m, linked g -> g_nodes g <> [] -> laplacian g false = Ret m -> let n := List.length (g_nodes g) in
  is_weakly_connected g = Ret true <-> forall x : nat -> R, (forall i, on_graph g i -> rsumn n (fun j => IZR (at_ m i j) * x j) = 0) -> forall i j, on_graph g i -> on_graph g j -> x i = x j.
Proof.
  intros g m L NE E n. destruct (laplacian_at g) as (m' & E' & _ & _ & H). rewrite E in E'. injection E' as <-. rewrite (connected_kernel g L NE). fold n.
  assert (X : forall x i, on_graph g i -> rsumn n (fun j => IZR (at_ m i j) * x j) = rsumn n (fun j => IZR (lap g i j) * x j)) by (intros x i I; apply rsumn_ext; intros j J; rewrite H by assumption; reflexivity).
  split; intros K x Z; apply K; intros i I; [rewrite <- X by exact I|rewrite X by exact I]; apply Z, I.
Qed.
(** what is refused: weighted graphs, degrees as a matrix, other kinds of degrees, and asking
    whether nothing is connected *)
Theorem C141_refused : forall g d io,
  as_graph g d true = Raise AssertionError /\ adjacency g d true = Raise AssertionError /\ laplacian g true = Raise AssertionError /\
  (io <> Otherdeg -> degree g io true = Raise NameError) /\ (forall b, degree g Otherdeg b = Raise ValueError) /\ (g_nodes g = [] -> is_weakly_connected g = Raise RuntimeError).
Proof. intros g d io. split; [reflexivity|]. split; [reflexivity|]. split; [reflexivity|]. split; [intros H; destruct io; try congruence; reflexivity|]. split; [reflexivity|]. apply connected_empty. Qed.
Example C141_ex : adjacency ex_net true false = Ret [[0; 1; 0]; [1; 0; 1]; [0; 1; 0]]%Z /\ laplacian ex_net false = Ret [[1; -1; 0]; [-1; 2; -1]; [0; -1; 1]]%Z /\
  degree ex_net Sym false = Ret [1; 2; 1]%nat /\ degree ex_net Indeg false = Ret [1; 2; 1]%nat /\ is_weakly_connected ex_net = Ret true.
Proof. repeat split; reflexivity. Qed.
Print Assumptions C141_adjacency. Print Assumptions C141_laplacian. Print Assumptions C141_quadratic. Print Assumptions C141_degree. Print Assumptions C141_handshake. Print Assumptions C141_connected. Print Assumptions C141_kernel. Print Assumptions C141_refused.

(** ** C142 *)
(** tables of amounts: one row per pair of tokens and direction with an edge, in order, with the
    sums of its edges; nothing gets lost *)
Theorem C142_amounts : forall g es, g_is_amount g = Some true -> es <> [] -> exists l, edgedf g (Some es) true = Ret (AmountGroups l) /\
  NoDup (map (fun r => fst (fst r)) l) /\ StronglySorted (fun a b => key_leb (fst (fst a)) (fst (fst b)) = true) l /\
  (forall p i o x y, In (p, i, o, x, y) l <-> p = primary norm_simple i o /\ traded g es i o <> [] /\ x = rsum (map e_ain (traded g es i o)) /\ y = rsum (map e_aout (traded g es i o))) /\
  rsum (map (fun r => snd (fst r)) l) = rsum (map e_ain es) /\ rsum (map snd l) = rsum (map e_aout es).
Proof.
  intros g es A NE. destruct (amount_groups_spec g es NE) as (l & E & N & S & H). destruct (amount_totals g es l E) as [T1 T2]. exists l. split; [unfold edgedf; rewrite A, E; reflexivity|]. auto.
Qed.
(** tables of connections, where all tokens are joined in both directions: one row per pair in its
    primary direction, in alphabetical order, with the weights in this and in the other
    direction and the average price of the edges in this direction *)
Theorem C142_connections : forall g es, g_is_amount g <> Some true -> es <> [] -> clean g es -> both_ways g es -> Forall (fun e => e_ain e < 0 /\ e_aout e < 0) es ->
  exists l, edgedf g (Some es) true = Ret (ConnGroups l) /\
  StronglySorted (fun a b => exists p q, s_pair a = Some p /\ s_pair b = Some q /\ before p q /\ p <> q) l /\
  (forall r, In r l <-> exists i o, isprimary norm_simple i o = true /\ traded g es i o <> [] /\
     r = mkSum (Some (pair_str i o)) (Some (total_weight (traded g es i o))) (Some (total_weight (traded g es o i))) (Some (average (map out_per_in (traded g es i o))))).
Proof.
  intros g es A NE C W F. destruct (conn_groups_spec g es NE C W F) as (l & E & S & H). exists l. split; [unfold edgedf; rewrite E; destruct (g_is_amount g) as [[|]|]; [congruence|reflexivity|reflexivity]|]. auto.
Qed.
(** graphs made of pools are of this kind *)
Theorem C142_pools : forall pools uid, pools <> [] -> Forall (fun x => CpcSpec.pool_ok (fst x)) pools ->
  Forall (fun x => CpcModel.tknx (fst x) <> CpcModel.tkny (fst x) /\ no_slash (CpcModel.tknx (fst x)) = true /\ no_slash (CpcModel.tkny (fst x)) = true) pools ->
  exists g l, add_edges_cpc empty_graph pools uid = (g, None) /\ edgedf g None true = Ret (ConnGroups l) /\
  forall p, (exists r, In r l /\ s_pair r = Some p) <-> exists c cid, In (c, cid) pools /\ p = primary norm_simple (CpcModel.tknx c) (CpcModel.tkny c).
Proof.
  intros pools uid NE P D. destruct (pools_table pools uid NE P D) as (g & E & NE' & C & W & CN & T). destruct (C142_connections g (g_edges g) (connections_type g CN) NE' C W CN) as (l & EL & _ & H). exists g, l. split; [exact E|]. split; [exact EL|].
  intros p. split.
  - intros (r & I & R). apply H in I. destruct I as (i & o & Q & TR & ->). cbn in R. injection R as <-. apply T in TR. destruct TR as (c & cid & I & K). exists c, cid. split; [exact I|]. rewrite Forall_forall in D. destruct (D _ I) as (ND & _). cbn in ND. unfold primary. destruct K as [[<- <-]|[<- <-]]; [rewrite Q; reflexivity|]. rewrite (HelperProofs.isprimary_flip norm_simple _ _ (not_eq_sym ND)), Q. reflexivity.
  - intros (c & cid & I & ->). rewrite Forall_forall in D. destruct (D _ I) as (ND & _). cbn in ND. unfold primary. destruct (isprimary norm_simple (CpcModel.tknx c) (CpcModel.tkny c)) eqn:Q.
    + eexists. split; [apply H; exists (CpcModel.tknx c), (CpcModel.tkny c); split; [exact Q|]; split; [apply T; exists c, cid; auto|reflexivity]|reflexivity].
    + eexists. split; [apply H; exists (CpcModel.tkny c), (CpcModel.tknx c); split; [rewrite (HelperProofs.isprimary_flip norm_simple _ _ ND), Q; reflexivity|]; split; [apply T; exists c, cid; auto|reflexivity]|reflexivity].
Qed.
(** row by row; connections without weight are an error, and so are tables of nothing *)
Theorem C142_rows : forall g es,
  (g_is_amount g = Some true -> edgedf g (Some es) false = Ret (AmountRows (map (fun e => (e_uid e, key_of g e, e_ain e, e_aout e)) es)) /\ edgedf g (Some []) true = Raise KeyError) /\
  (g_is_amount g <> Some true -> (Forall (fun e => e_ain e <> 0) es -> exists l, edgedf g (Some es) false = Ret (ConnRows l) /\
      map (fun r => (c_key r, c_n r, c_outin r)) l = map (fun e => (key_of g e, - e_ain e, out_per_in e)) es) /\
    ((exists e, In e es /\ e_ain e = 0) -> forall b, edgedf g (Some es) b = Raise ZeroDivision) /\ edgedf g (Some []) true = Raise KeyError).
Proof.
  intros g es. split.
  - intros A. unfold edgedf. rewrite A. split; reflexivity.
  - intros A. assert (X : forall l b, edgedf g (Some l) b = if b then let* l := conn_groups g l in Ret (ConnGroups l) else let* l := conn_rows g l in Ret (ConnRows l)) by (intros l b; unfold edgedf; destruct (g_is_amount g) as [[|]|]; [congruence|reflexivity|reflexivity]).
    split; [|split].
    + intros F. eexists. split; [rewrite X, (conn_rows_ok g es F); reflexivity|]. rewrite map_map. reflexivity.
    + intros (e & I & Z) b. rewrite X. assert (R : conn_rows g es = Raise ZeroDivision). { apply mapr_fail; [|exists e; split; [exact I|]]. - intros a _. unfold rdiv. destruct (req (e_ain a) 0); [left|right; eexists]; reflexivity. - unfold rdiv. rewrite Z. unfold req. destruct (Req_EM_T 0 0); [reflexivity|congruence]. }
      destruct b; [unfold conn_groups|]; rewrite R; reflexivity.
    + rewrite X. reflexivity.
Qed.
(** every row shows the price in the primary direction of its pair *)
Theorem C142_prices : forall g es, g_is_amount g <> Some true -> Forall (fun e => e_ain e <> 0 /\ e_aout e <> 0) es ->
  exists l, edgedf g (Some es) false = Ret (ConnRows l) /\
  map (fun r => (c_rev r, c_price r)) l = map (fun e => if isprimary norm_simple (tkn_of g (e_in e)) (tkn_of g (e_out e)) then (false, Some (e_aout e / e_ain e)) else (true, Some (e_ain e / e_aout e))) es.
Proof.
  intros g es A F. assert (F0 : Forall (fun e => e_ain e <> 0) es) by (eapply Forall_impl; [|exact F]; cbn; tauto).
  eexists. split; [unfold edgedf; rewrite (conn_rows_ok g es F0); destruct (g_is_amount g) as [[|]|]; [congruence|reflexivity|reflexivity]|]. rewrite map_map. apply map_ext_in. intros e I.
  rewrite Forall_forall in F. destruct (F e I) as [N N']. cbn [c_rev c_price]. unfold primary_price, key_of, is_reverse.
  assert (P : e_aout e / e_ain e <> 0) by (unfold Rdiv; apply Rmult_integral_contrapositive_currified; [exact N'|apply Rinv_neq_0_compat; exact N]).
  unfold req. destruct (Req_EM_T (e_aout e / e_ain e) 0); [contradiction|]. destruct (isprimary norm_simple (tkn_of g (e_in e)) (tkn_of g (e_out e))); cbn [negb]; [reflexivity|]. do 2 f_equal. field. split; assumption.
Qed.
(** where a pair is joined in one direction only, the weights of the other direction are those
    of another pair *)
Theorem C142_paste_refuted : exists g l r, linked g /\ named g /\ connections g /\ clean g (g_edges g) /\ edgedf g None true = Ret (ConnGroups l) /\ In r l /\
  s_pair r = Some "A/B"%string /\ traded g (g_edges g) "B" "A" = [] /\ s_nrev r = Some 1.
Proof.
  set (g := mkGraph [new_node "A"; new_node "B"; new_node "C"] [("A"%string, 0%nat); ("B"%string, 1%nat); ("C"%string, 2%nat)] [link 0 1 2; link 1 2 5; link 2 1 (1 / 5)] false).
  assert (T : g_is_amount g = Some false) by (unfold g_is_amount, g; cbn; unfold is_amount; cbn; rewrite rlt_true by lra; reflexivity).
  eexists g, _, _. split. { unfold linked. assert (X : forall i o p, (i < 3)%nat -> (o < 3)%nat -> (e_in (link i o p) < 3)%nat /\ (e_out (link i o p) < 3)%nat /\ (is_amount (link i o p) = true <-> e_rem (link i o p) <> None)).
    { intros i o p I O. split; [exact I|]. split; [exact O|]. unfold is_amount, link. cbn. rewrite rlt_true by lra. cbn. split; [discriminate|congruence]. } repeat (apply Forall_cons; [apply X; lia|]). apply Forall_nil. }
  split. { intros n I. unfold on_graph in I. cbn in I. destruct n as [|[|[|n]]]; [exists "A"%string|exists "B"%string|exists "C"%string|lia]; split; reflexivity. }
  split. { unfold connections. repeat (apply Forall_cons; [cbn; lra|]). apply Forall_nil. }
  split. { unfold clean. repeat (apply Forall_cons; [cbn; repeat split; congruence|]). apply Forall_nil. }
  split. { unfold edgedf. rewrite T. unfold conn_groups. rewrite conn_rows_ok by (repeat (apply Forall_cons; [cbn; lra|]); apply Forall_nil). cbn [rbind g g_edges map]. reflexivity. }
  cbn -[rsum nanmean]. split; [left; reflexivity|]. cbn. split; [reflexivity|]. split; [reflexivity|]. f_equal. lra.
Qed.
Example C142_ex : clean ex_net (g_edges ex_net) /\ both_ways ex_net (g_edges ex_net) /\ traded ex_net (g_edges ex_net) "A" "B" = [link 0 1 1; link 0 1 3] /\ isprimary norm_simple "A" "B" = true.
Proof.
  split. { unfold clean. repeat (apply Forall_cons; [cbn; repeat split; congruence|]). apply Forall_nil. }
  split. { intros i o H. apply traded_in in H. destruct H as (e & I & A & B). cbn in I. repeat (destruct I as [<-|I]; [cbn in A, B; subst; discriminate|]). destruct I. }
  split; reflexivity.
Qed.
Print Assumptions C142_amounts. Print Assumptions C142_connections. Print Assumptions C142_pools. Print Assumptions C142_rows. Print Assumptions C142_prices. Print Assumptions C142_paste_refuted.

(** ** C143 *)
(** as a tuple: the results of the cycles in order if all have one, else the first error *)
Theorem C143_tuple : forall g cs t any f, f = FNone \/ f = FTuple ->
  (forall l, run_arbitrage_cycles g cs t any f = Ret l <-> exists rs, l = Results rs /\ map (run_cycle g t any) cs = map Ret rs) /\
  (forall e, run_arbitrage_cycles g cs t any f = Raise e <-> exists a x b rs, cs = a ++ x :: b /\ map (run_cycle g t any) a = map Ret rs /\ run_cycle g t any x = Raise e).
Proof. intros g cs t any f F. split; [intros l; apply cycles_tuple, F|intros e; apply cycles_first, F]. Qed.
(** lazily: whatever the single runs give, errors included, when it is asked for *)
Theorem C143_lazy : forall g cs t any, run_arbitrage_cycles g cs t any FGen = Ret (Lazy (map (run_cycle g t any) cs)).
Proof. reflexivity. Qed.
(** as dictionaries or tables: always an error once there is a cycle *)
Theorem C143_tables : forall g c cs t any f, f = FDicts \/ f = FDf \/ f = FAggr \/ f = FPretty \/ f = FOther ->
  exists e, run_arbitrage_cycles g (c :: cs) t any f = Raise e /\ (forall r, run_cycle g t any c = Ret r -> e = TypeError) /\ forall e', run_cycle g t any c = Raise e' -> e = e'.
Proof. exact cycles_tables. Qed.
(** one token: every cycle is run from it; a list of tokens, one per cycle, has no effect but to
    be refused unless any token is allowed *)
Theorem C143_tokens : forall g cs any f,
  (forall t c, run_cycle g (OneToken t) any c = run_arbitrage_cycle g c (Some t) any) /\
  (forall l l', run_arbitrage_cycles g cs (TokenList l) any f = run_arbitrage_cycles g cs (TokenList l') any f) /\
  (forall l, run_arbitrage_cycles g cs (TokenList l) true f = run_arbitrage_cycles g cs NoToken true f) /\
  (forall l, cs <> [] -> f <> FGen -> run_arbitrage_cycles g cs (TokenList l) false f = Raise ValueError).
Proof. intros g cs any f. split; [reflexivity|]. split; [intros l l'; apply cycles_list|]. split; [intros l; apply (cycles_list g cs l l any f)|]. intros l. apply (cycles_list g cs l l any f). Qed.
(** reformatting results that are there *)
Theorem C143_reformat : forall raw f,
  (f = FGen \/ f = FTuple -> run_arbitrage_cyclesf raw f = Ret (Results raw)) /\ run_arbitrage_cyclesf raw FNone = Raise AttributeError /\
  (f = FDicts \/ f = FDf \/ f = FAggr \/ f = FPretty \/ f = FOther -> raw <> [] -> run_arbitrage_cyclesf raw f = Raise TypeError) /\
  run_arbitrage_cyclesf [] FDicts = Ret NoDicts.
Proof. intros raw f. split; [intros [->| ->]; reflexivity|]. split; [reflexivity|]. split; [|reflexivity]. intros F NE. destruct raw; [congruence|]. destruct F as [->|[->|[->|[->| ->]]]]; reflexivity. Qed.
(** a cycle that runs, and yet there is no table *)
Theorem C143_tables_refuted : exists g cs r, run_arbitrage_cycles g cs NoToken true FTuple = Ret (Results [r]) /\ run_arbitrage_cycles g cs NoToken true FDf = Raise TypeError /\ run_arbitrage_cycles g cs NoToken true FDicts = Raise TypeError.
Proof.
  set (e i o b := mkEdge i 10 o b false None (Some 10)). set (g := mkGraph [new_node "A"; new_node "B"] [("A"%string, 0%nat); ("B"%string, 1%nat)] [e 0%nat 1%nat 20; e 1%nat 0%nat 8] false).
  assert (P : positive g) by (repeat constructor; cbn; lra). assert (A : arb_pairs g [0; 1]%nat None true = Ret [(0, 1); (1, 0)]%nat) by reflexivity.
  destruct (arb_ok g [0; 1]%nat None true _ P A) as (r & E & _). { repeat constructor; [exists (e 0%nat 1%nat 20)|exists (e 1%nat 0%nat 8)]; cbn; auto. }
  exists g, [[0; 1]%nat], r. unfold run_arbitrage_cycles. cbn [mapr map run_cycle tabulate]. unfold run_cycle. rewrite E. cbn [rbind]. auto.
Qed.
Print Assumptions C143_tuple. Print Assumptions C143_lazy. Print Assumptions C143_tables. Print Assumptions C143_tokens. Print Assumptions C143_reformat. Print Assumptions C143_tables_refuted.
