(** Theorems about edge lookups in arbitrage graphs (C164). *)
From Coq Require Import Reals Lra Bool String List Arith Lia Permutation.
From Verif Require Import CurveModel CurveProofs GraphModel GraphSpec GraphProofs HelperModel EdgeModel.
From Verif Require PairModel PairSpec PairProofs.
Notation slash_free := PairSpec.slash_free.
Import ListNotations.
Local Open Scope R_scope.

(** the edges of a graph, in their order, for which something holds *)
Definition those (g : graph) (P : edge -> Prop) (l : list edge) : Prop :=
  exists keep, l = filter keep (g_edges g) /\ forall e, In e (g_edges g) -> keep e = true <-> P e.
Lemma by_in_out g i o : those g (fun e => (forall n, i = Some n -> e_in e = n) /\ (forall n, o = Some n -> e_out e = n)) (edges_between g i o).
Proof.
  eexists. split; [reflexivity|]. intros e _. rewrite andb_true_iff. destruct i as [i|], o as [o|]; rewrite ?Nat.eqb_eq; split; intros [A B]; split; try (intros n [= <-]); try (intros n [=]); auto.
Qed.
Lemma those_iff g P Q l : (forall e, P e <-> Q e) -> those g P l -> those g Q l.
Proof. intros H (k & E & K). exists k. split; [exact E|]. intros e He. rewrite K by exact He. apply H. Qed.
Lemma two_filters {A} (f h : A -> bool) l : (forall a, In a l -> f a = true -> h a = false) -> Permutation (filter f l ++ filter h l) (filter (fun a => f a || h a) l).
Proof.
  induction l as [|a l IH]; intros H; [constructor|]. cbn [filter]. specialize (IH (fun b Hb => H b (or_intror Hb))). destruct (f a) eqn:Ef.
  - rewrite (H a (or_introl eq_refl) Ef). cbn [orb app]. constructor. exact IH.
  - destruct (h a); cbn [orb]; [|exact IH]. rewrite <- Permutation_middle. constructor. exact IH.
Qed.

(** ** C164 *)
(** from one token to another *)
Theorem C164_directed : forall g a b i o bw, node_by_tkn g a = Ret i -> node_by_tkn g b = Ret o -> bw <> Some true ->
  exists l, find_edges g (Some a) (Some b) None bw None = Ret l /\ those g (fun e => e_in e = i /\ e_out e = o) l.
Proof.
  intros g a b i o bw Ea Eb Hb. exists (edges_between g (Some i) (Some o)). split.
  - unfold find_edges, one_way, lookup. cbn [rbind]. rewrite Ea, Eb. cbn [rbind filter_edges]. destruct bw as [[|]|]; [congruence|reflexivity|reflexivity].
  - eapply those_iff; [|apply by_in_out]. intros e. split; [intros [A B]; split; auto|]. intros [A B]. split; intros n [= <-]; assumption.
Qed.
Print Assumptions C164_directed.
(** out of one token or into one, or all *)
Theorem C164_one_sided : forall g a i bw, node_by_tkn g a = Ret i -> bw <> Some true ->
  (exists l, find_edges g (Some a) None None bw None = Ret l /\ those g (fun e => e_in e = i) l) /\
  (exists l, find_edges g None (Some a) None bw None = Ret l /\ those g (fun e => e_out e = i) l) /\
  find_edges g None None None bw None = Ret (g_edges g) /\ find_edges g None None None (Some true) None = Ret (g_edges g ++ g_edges g).
Proof.
  assert (All : forall g, edges_between g None None = g_edges g).
  { intros g. unfold edges_between. cbn [andb]. induction (g_edges g) as [|e l IH]; [reflexivity|]. cbn [filter]. rewrite IH. reflexivity. }
  intros g a i bw Ea Hb. split; [|split; [|split]].
  - exists (edges_between g (Some i) None). split; [|eapply those_iff; [|apply by_in_out]; intros e; split; [intros [A _]; auto|intros A; split; [intros n [= <-]; exact A|intros n [=]]]].
    unfold find_edges, one_way, lookup. cbn [rbind]. rewrite Ea. cbn [rbind filter_edges]. destruct bw as [[|]|]; [congruence|reflexivity|reflexivity].
  - exists (edges_between g None (Some i)). split; [|eapply those_iff; [|apply by_in_out]; intros e; split; [intros [_ A]; auto|intros A; split; [intros n [=]|intros n [= <-]; exact A]]].
    unfold find_edges, one_way, lookup. cbn [rbind]. rewrite Ea. cbn [rbind filter_edges]. destruct bw as [[|]|]; [congruence|reflexivity|reflexivity].
  - unfold find_edges, one_way, lookup. cbn [rbind filter_edges]. rewrite All. destruct bw as [[|]|]; [congruence|reflexivity|reflexivity].
  - unfold find_edges, one_way, lookup. cbn [rbind filter_edges]. rewrite All. reflexivity.
Qed.
Print Assumptions C164_one_sided.
(** a pair means both directions, those of the pair itself first; a pair of a token with itself
    lists every edge twice *)
Theorem C164_pair : forall g a b i o, slash_free a -> slash_free b -> node_by_tkn g a = Ret i -> node_by_tkn g b = Ret o ->
  exists l1 l2, those g (fun e => e_in e = i /\ e_out e = o) l1 /\ those g (fun e => e_in e = o /\ e_out e = i) l2 /\
    find_edges g None None None None (Some (a ++ "/" ++ b)%string) = Ret (l1 ++ l2) /\ find_edges g None None None (Some true) (Some (a ++ "/" ++ b)%string) = Ret (l1 ++ l2) /\
    find_edges g (Some a) (Some b) None (Some true) None = Ret (l1 ++ l2) /\ find_edges g None None None (Some false) (Some (a ++ "/" ++ b)%string) = Ret l1 /\
    (i <> o -> exists l, Permutation (l1 ++ l2) l /\ those g (fun e => e_in e = i /\ e_out e = o \/ e_in e = o /\ e_out e = i) l) /\ (i = o -> l2 = l1).
Proof.
  intros g a b i o Sa Sb Ea Eb. exists (edges_between g (Some i) (Some o)), (edges_between g (Some o) (Some i)).
  assert (B : forall i o, those g (fun e => e_in e = i /\ e_out e = o) (edges_between g (Some i) (Some o))).
  { intros u v. eapply those_iff; [|apply by_in_out]. intros e. split; [intros [A B]; split; auto|]. intros [A B]. split; intros n [= <-]; assumption. }
  assert (Pa : parse_pair (a ++ "/" ++ b)%string = Some (a, b)) by (unfold parse_pair; rewrite PairProofs.split_app by (apply PairProofs.no_slash_free; assumption); reflexivity).
  assert (W : forall u v x y, node_by_tkn g u = Ret x -> node_by_tkn g v = Ret y -> one_way g (Some u) (Some v) None = Ret (edges_between g (Some x) (Some y))).
  { intros u v x y Eu Ev. unfold one_way, lookup. rewrite Eu, Ev. reflexivity. }
  split; [apply B|]. split; [apply B|]. split; [|split; [|split; [|split; [|split]]]].
  1-4: unfold find_edges; rewrite ?Pa; cbn [rbind]; rewrite (W a b i o Ea Eb); cbn [rbind]; rewrite ?(W b a o i Eb Ea); reflexivity.
  - intros N. eexists. split; [apply two_filters|].
    + intros e _ H. apply andb_true_iff in H as [H _]. apply Nat.eqb_eq in H. apply andb_false_iff. left. apply Nat.eqb_neq. congruence.
    + eexists. split; [reflexivity|]. intros e _. rewrite orb_true_iff, !andb_true_iff, !Nat.eqb_eq. tauto.
  - intros ->. reflexivity.
Qed.
Print Assumptions C164_pair.
(** at a token, in either direction; asking for both ways lists each of them twice *)
Theorem C164_at : forall g a n bw, node_by_tkn g a = Ret n -> bw <> Some true ->
  exists l, find_edges g None None (Some a) bw None = Ret l /\ those g (fun e => e_in e = n \/ e_out e = n) l /\ find_edges g None None (Some a) (Some true) None = Ret (l ++ l).
Proof.
  intros g a n bw Ea Hb. eexists. split; [|split].
  - unfold find_edges, one_way, lookup. cbn [rbind]. rewrite Ea. cbn [rbind filter_edges]. destruct bw as [[|]|]; [congruence|reflexivity|reflexivity].
  - eexists. split; [reflexivity|]. intros e _. rewrite orb_true_iff, !Nat.eqb_eq. tauto.
  - unfold find_edges, one_way, lookup. cbn [rbind]. rewrite Ea. reflexivity.
Qed.
Print Assumptions C164_at.
(** refused combinations *)
Theorem C164_refused : forall g,
  (forall s bw t, find_edges g (Some t) None None bw (Some s) = Raise AssertionError /\ find_edges g None (Some t) None bw (Some s) = Raise AssertionError /\ find_edges g None None (Some t) bw (Some s) = Raise AssertionError) /\
  (forall s bw, (forall a b, slash_free a -> slash_free b -> s <> (a ++ "/" ++ b)%string) -> find_edges g None None None bw (Some s) = Raise ValueError) /\
  (forall a b i n bw, node_by_tkn g a = Ret i -> node_by_tkn g b = Ret n -> find_edges g (Some a) None (Some b) bw None = Raise AssertionError /\ find_edges g None (Some a) (Some b) bw None = Raise AssertionError) /\
  (forall a bw, node_by_tkn g a = Raise KeyError -> find_edges g (Some a) None None bw None = Raise KeyError /\ find_edges g None (Some a) None bw None = Raise KeyError /\ find_edges g None None (Some a) bw None = Raise KeyError).
Proof.
  intros g. split; [intros; repeat split; reflexivity|]. split; [|split].
  - intros s bw H. unfold find_edges. destruct (parse_pair s) as [[a b]|] eqn:E; [|reflexivity]. exfalso. unfold parse_pair in E. destruct (PairModel.split_slash s) as [|u [|v [|w r]]] eqn:Es; try discriminate. injection E as -> ->. apply PairProofs.split_inv_2 in Es as (C & A & B). apply PairProofs.no_slash_free in A, B. exact (H a b A B C).
  - intros a b i n bw Ea Eb. unfold find_edges, one_way, lookup. cbn [rbind]. rewrite Ea, Eb. cbn [rbind]. destruct bw as [[|]|]; split; reflexivity.
  - intros a bw Ea. unfold find_edges, one_way, lookup. cbn [rbind]. rewrite Ea. cbn [rbind]. destruct bw as [[|]|]; split; try split; reflexivity.
Qed.
Print Assumptions C164_refused.
(** an edge that has not lost more than it had is empty or has capacity left; connections have no state *)
Theorem C164_empty : forall e,
  (forall r, e_rem e = Some r -> - / 10 ^ 9 <= r -> exists b, e_is_empty e = Ret b /\ e_has_capacity e = Ret (negb b) /\ (b = true <-> r <= / 10 ^ 9)) /\
  (forall r, e_rem e = Some r -> r < - / 10 ^ 9 -> e_is_empty e = Ret false /\ e_has_capacity e = Ret false) /\
  (e_rem e = None -> e_is_empty e = Raise ValueError /\ e_has_capacity e = Raise ValueError).
Proof.
  intros e. unfold e_is_empty, e_has_capacity, e_state. assert (HE : 0 < EPS) by (apply Rinv_0_lt_compat, pow_lt; lra). split; [|split].
  - intros r E H. fold EPS in *. rewrite E. cbn [rbind]. exists (rle (Rabs r) EPS). split; [reflexivity|]. destruct (Rle_dec r EPS) as [L|L].
    + rewrite rle_true by (apply Rabs_le; lra). rewrite rlt_false by lra. split; [reflexivity|]. split; auto.
    + rewrite rle_false by (apply Rlt_le_trans with r; [lra|apply Rle_abs]). rewrite rlt_true by lra. split; [reflexivity|]. split; [discriminate|intros X; contradiction].
  - intros r E H. fold EPS in *. rewrite E. cbn [rbind]. rewrite rle_false by (rewrite Rabs_left by lra; lra). rewrite rlt_false by lra. split; reflexivity.
  - intros ->. split; reflexivity.
Qed.
Print Assumptions C164_empty.
Definition ex_g : graph := mkGraph [new_node "ETH"; new_node "USDC"] [("ETH", 0%nat); ("USDC", 1%nat)]%string [mkEdge 0 1 1 2000 false None (Some 1); mkEdge 1 1000 0 1 false None (Some 1000)] false.
Example C164_ex : exists e1 e2, find_edges ex_g None None None None (Some "ETH/USDC"%string) = Ret [e1; e2] /\ e_in e1 = 0%nat /\ e_in e2 = 1%nat /\
  find_edges ex_g None None None None (Some "USDC/ETH"%string) = Ret [e2; e1] /\ node_by_tkn ex_g "DAI" = Raise KeyError.
Proof. exists (mkEdge 0 1 1 2000 false None (Some 1)), (mkEdge 1 1000 0 1 false None (Some 1000)). repeat split. Qed.
