(** Proofs about arbitrage graphs as networks: matrices. *)
From Coq Require Import Reals ZArith List Bool String Arith Lia Lra.
From Verif Require Import CurveModel GraphModel GraphSpec NetModel NetSpec NetProofs.
Import ListNotations.
Local Open Scope R_scope.

(** ** sums *)
Lemma rsumn_ext n f h : (forall i, (i < n)%nat -> f i = h i) -> rsumn n f = rsumn n h.
Proof. induction n as [|n IH]; intros H; [reflexivity|]. cbn. rewrite IH by (intros; apply H; lia). rewrite H by lia. reflexivity. Qed.
Lemma rsumn_plus n f h : rsumn n (fun i => f i + h i) = rsumn n f + rsumn n h.
Proof. induction n as [|n IH]; cbn; [lra|]. rewrite IH. lra. Qed.
Lemma rsumn_scal n c f : rsumn n (fun i => c * f i) = c * rsumn n f.
Proof. induction n as [|n IH]; cbn; [lra|]. rewrite IH. lra. Qed.
Lemma rsumn_swap n m (f : nat -> nat -> R) : rsumn n (fun i => rsumn m (f i)) = rsumn m (fun j => rsumn n (fun i => f i j)).
Proof.
  induction n as [|n IH]; cbn.
  - induction m as [|m IHm]; cbn; [reflexivity|]. rewrite <- IHm. lra.
  - rewrite IH, <- rsumn_plus. apply rsumn_ext. intros; reflexivity.
Qed.
Lemma rsumn_nonneg n f : (forall i, (i < n)%nat -> 0 <= f i) -> 0 <= rsumn n f.
Proof. induction n as [|n IH]; intros H; cbn; [lra|]. assert (0 <= rsumn n f) by (apply IH; intros; apply H; lia). assert (0 <= f n) by (apply H; lia). lra. Qed.
Lemma rsumn_zero n f : (forall i, (i < n)%nat -> 0 <= f i) -> rsumn n f = 0 -> forall i, (i < n)%nat -> f i = 0.
Proof.
  induction n as [|n IH]; intros H E i I; [lia|]. cbn in E. assert (A : 0 <= rsumn n f) by (apply rsumn_nonneg; intros; apply H; lia). assert (B : 0 <= f n) by (apply H; lia).
  destruct (Nat.eq_dec i n) as [->|]; [lra|]. apply IH; [intros; apply H; lia|lra|lia].
Qed.
Lemma rsumn_delta n f i : (i < n)%nat -> rsumn n (fun j => (if Nat.eqb i j then 1 else 0) * f j) = f i.
Proof.
  induction n as [|n IH]; intros I; [lia|]. cbn. destruct (Nat.eqb_spec i n) as [->|D].
  - rewrite (rsumn_ext n _ (fun _ => 0 * 0)); [rewrite rsumn_scal; lra|]. intros j J. destruct (Nat.eqb_spec n j); [lia|lra].
  - rewrite IH by lia. lra.
Qed.
Lemma zsum_app l m : zsum (l ++ m) = (zsum l + zsum m)%Z.
Proof. induction l as [|a l IH]; [reflexivity|]. change (zsum ((a :: l) ++ m)) with (a + zsum (l ++ m))%Z. change (zsum (a :: l)) with (a + zsum l)%Z. rewrite IH. lia. Qed.
Lemma zsum_seq n (f : nat -> Z) : IZR (zsum (map f (seq 0 n))) = rsumn n (fun i => IZR (f i)).
Proof. induction n as [|n IH]; [reflexivity|]. rewrite seq_S, map_app, zsum_app, plus_IZR, IH. cbn. rewrite Z.add_0_r. reflexivity. Qed.
Lemma zsumn_IZR n (f : nat -> Z) : IZR (zsumn n f) = rsumn n (fun i => IZR (f i)).
Proof. induction n as [|n IH]; [reflexivity|]. cbn. rewrite plus_IZR, IH. reflexivity. Qed.
Lemma nth_seq_map {A} (f : nat -> A) d n i : (i < n)%nat -> nth i (map f (seq 0 n)) d = f i.
Proof. intros I. rewrite (nth_indep _ d (f 0%nat)) by (rewrite map_length, seq_length; exact I). rewrite map_nth, seq_nth by exact I. reflexivity. Qed.

(** ** adjacency *)
Definition net_of (g : graph) (d : bool) : nxgraph := mkNx d (List.length (g_nodes g)) (collected d (g_edges g)).
Lemma as_graph_net g d : as_graph g d false = Ret (net_of g d). Proof. reflexivity. Qed.
Lemma joined_dec g i j : {joined_by g i j} + {~ joined_by g i j}.
Proof.
  destruct (has false (collected false (g_edges g)) i j) eqn:H.
  - left. apply collected_has in H. unfold joined_by, has_edge. cbn. destruct H as (e & I & [[A B]|(_ & A & B)]); [left|right]; exists e; auto.
  - right. intros [(e & I & A & B)|(e & I & A & B)]; cbn in A, B; assert (X : has false (collected false (g_edges g)) i j = true) by (apply collected_has; exists e; auto); congruence.
Qed.
Lemma edge_dec g i j : {has_edge g (i, j)} + {~ has_edge g (i, j)}.
Proof.
  destruct (has true (collected true (g_edges g)) i j) eqn:H; [left|right]; [apply has_dir, directed_edge in H; exact H|]. intros E. apply directed_edge, has_dir in E. congruence.
Qed.
Lemma has_net g d i j : has d (nx_edges (net_of g d)) i j = true <-> if d then has_edge g (i, j) else joined_by g i j.
Proof.
  unfold net_of. cbn [nx_edges]. rewrite collected_has. unfold joined_by, has_edge. cbn. destruct d; split.
  - intros (e & I & [[A B]|[D _]]); [eauto|discriminate].
  - intros (e & I & A & B). eauto.
  - intros (e & I & [[A B]|(_ & A & B)]); [left|right]; exists e; auto.
  - intros [(e & I & A & B)|(e & I & A & B)]; exists e; auto.
Qed.
Lemma cell_net g d i j : (cell (net_of g d) i j = 1%Z <-> if d then has_edge g (i, j) else joined_by g i j) /\ (cell (net_of g d) i j = 0%Z <-> ~ if d then has_edge g (i, j) else joined_by g i j).
Proof.
  unfold cell. rewrite <- !has_net. change (nx_dir (net_of g d)) with d. destruct (has d (nx_edges (net_of g d)) i j); split; split; intros; try reflexivity; try discriminate; try congruence. 
Qed.
Lemma adjacency_spec g d : exists m, adjacency g d false = Ret m /\ List.length m = List.length (g_nodes g) /\ Forall (fun r => List.length r = List.length (g_nodes g)) m /\
  forall i j, on_graph g i -> on_graph g j -> (at_ m i j = 1%Z <-> if d then has_edge g (i, j) else joined_by g i j) /\ (at_ m i j = 0%Z <-> ~ if d then has_edge g (i, j) else joined_by g i j).
Proof.
  eexists. split; [unfold adjacency; rewrite as_graph_net; reflexivity|]. unfold indices. change (nx_n (net_of g d)) with (List.length (g_nodes g)). split; [rewrite map_length, seq_length; reflexivity|]. split.
  - apply Forall_forall. intros r I. apply in_map_iff in I. destruct I as (i & <- & _). rewrite map_length, seq_length. reflexivity.
  - intros i j I J. unfold at_. rewrite nth_seq_map by exact I. rewrite nth_seq_map by exact J. apply cell_net.
Qed.
Lemma cell_sym g i j : cell (net_of g false) i j = cell (net_of g false) j i.
Proof. unfold cell. change (nx_dir (net_of g false)) with false. rewrite has_sym. reflexivity. Qed.

(** ** the Laplacian *)
Definition lap (g : graph) (i j : nat) : Z := ((if Nat.eqb i j then zsum (map (cell (net_of g false) i) (seq 0 (List.length (g_nodes g)))) else 0) - cell (net_of g false) i j)%Z.
Lemma laplacian_at g : exists m, laplacian g false = Ret m /\ List.length m = List.length (g_nodes g) /\ Forall (fun r => List.length r = List.length (g_nodes g)) m /\
  forall i j, on_graph g i -> on_graph g j -> at_ m i j = lap g i j.
Proof.
  eexists. split; [unfold laplacian; rewrite as_graph_net; reflexivity|]. unfold indices. change (nx_n (net_of g false)) with (List.length (g_nodes g)). split; [rewrite map_length, seq_length; reflexivity|]. split.
  - apply Forall_forall. intros r I. apply in_map_iff in I. destruct I as (i & <- & _). rewrite map_length, seq_length. reflexivity.
  - intros i j I J. unfold at_. rewrite nth_seq_map by exact I. rewrite nth_seq_map by exact J. reflexivity.
Qed.
Lemma lap_sym g i j : lap g i j = lap g j i.
Proof. unfold lap. rewrite (cell_sym g i j), (Nat.eqb_sym i j). destruct (Nat.eqb_spec j i) as [->|]; reflexivity. Qed.
Lemma lap_off g i j : i <> j -> (lap g i j = -1)%Z /\ joined_by g i j \/ (lap g i j = 0)%Z /\ ~ joined_by g i j.
Proof.
  intros D. unfold lap. rewrite (proj2 (Nat.eqb_neq i j) D). destruct (cell_net g false i j) as [A B]. destruct (joined_dec g i j) as [H|H]; [left; apply A in H|right; apply B in H]; rewrite H; split; try reflexivity; [apply A|apply B]; exact H.
Qed.
Definition adj (g : graph) (i j : nat) : R := IZR (cell (net_of g false) i j).
Lemma adj_sym g i j : adj g i j = adj g j i. Proof. unfold adj. rewrite cell_sym. reflexivity. Qed.
Lemma adj_nonneg g i j : 0 <= adj g i j.
Proof. unfold adj, cell. destruct (has _ _ i j); cbn; lra. Qed.
Lemma adj_joined g i j : joined_by g i j -> adj g i j = 1.
Proof. intros H. unfold adj. rewrite (proj2 (proj1 (cell_net g false i j)) H). reflexivity. Qed.
Lemma adj_zero g i j : ~ joined_by g i j -> adj g i j = 0.
Proof. intros H. unfold adj. rewrite (proj2 (proj2 (cell_net g false i j)) H). reflexivity. Qed.
Lemma lap_IZR g i j : IZR (lap g i j) = (if Nat.eqb i j then 1 else 0) * rsumn (List.length (g_nodes g)) (adj g i) - adj g i j.
Proof. unfold lap. rewrite minus_IZR. unfold adj. destruct (Nat.eqb i j); [rewrite zsum_seq|]; lra. Qed.
Lemma lap_row g (x : nat -> R) i : on_graph g i -> rsumn (List.length (g_nodes g)) (fun j => IZR (lap g i j) * x j) = rsumn (List.length (g_nodes g)) (fun j => adj g i j * (x i - x j)).
Proof.
  intros I. set (n := List.length (g_nodes g)). set (d := rsumn n (adj g i)).
  rewrite (rsumn_ext n _ (fun j => (if Nat.eqb i j then 1 else 0) * (d * x j) + (-1) * (adj g i j * x j))) by (intros j _; rewrite lap_IZR; fold n d; ring).
  rewrite rsumn_plus, rsumn_delta, rsumn_scal by exact I. rewrite (rsumn_ext n (fun j => adj g i j * (x i - x j)) (fun j => x i * adj g i j + (-1) * (adj g i j * x j))) by (intros; ring). rewrite rsumn_plus, !rsumn_scal. fold d. ring.
Qed.
Lemma lap_rows_zero g i : on_graph g i -> zsumn (List.length (g_nodes g)) (fun j => lap g i j) = 0%Z.
Proof.
  intros I. apply eq_IZR. rewrite zsumn_IZR. rewrite (rsumn_ext _ _ (fun j => IZR (lap g i j) * 1)) by (intros; ring). rewrite (lap_row g (fun _ => 1) i I). rewrite (rsumn_ext _ _ (fun j => 0 * adj g i j)) by (intros; ring). rewrite rsumn_scal. ring.
Qed.
Lemma lap_quadratic g (x : nat -> R) : let n := List.length (g_nodes g) in
  2 * rsumn n (fun i => x i * rsumn n (fun j => IZR (lap g i j) * x j)) = rsumn n (fun i => rsumn n (fun j => adj g i j * ((x i - x j) * (x i - x j)))).
Proof.
  intros n. set (Q := rsumn n (fun i => x i * rsumn n (fun j => IZR (lap g i j) * x j))).
  assert (Q1 : Q = rsumn n (fun i => rsumn n (fun j => adj g i j * (x i * (x i - x j))))). { unfold Q. apply rsumn_ext. intros i I. assert (R := lap_row g x i I). fold n in R. rewrite R. rewrite <- rsumn_scal. apply rsumn_ext. intros; ring. }
  assert (Q2 : Q = rsumn n (fun i => rsumn n (fun j => adj g i j * (x j * (x j - x i))))). { rewrite Q1, rsumn_swap. apply rsumn_ext. intros j _. apply rsumn_ext. intros i _. rewrite (adj_sym g i j). reflexivity. }
  replace (2 * Q) with (Q + Q) by ring. rewrite Q1 at 1. rewrite Q2. rewrite <- rsumn_plus. apply rsumn_ext. intros i _. rewrite <- rsumn_plus. apply rsumn_ext. intros j _. ring.
Qed.
Lemma lap_kernel g (x : nat -> R) : let n := List.length (g_nodes g) in
  (forall i, on_graph g i -> rsumn n (fun j => IZR (lap g i j) * x j) = 0) <-> forall i j, on_graph g i -> on_graph g j -> joined_by g i j -> x i = x j.
Proof.
  intros n. split.
  - intros H i j I J E. assert (Q := lap_quadratic g x). cbn zeta in Q. fold n in Q. rewrite (rsumn_ext n (fun i => x i * _) (fun _ => 0 * 0)) in Q by (intros k K; rewrite H by exact K; ring). rewrite rsumn_scal in Q.
    assert (P : forall a b, 0 <= adj g a b * ((x a - x b) * (x a - x b))) by (intros a b; apply Rmult_le_pos; [apply adj_nonneg|apply Rle_0_sqr]).
    assert (Z : rsumn n (fun i => rsumn n (fun j => adj g i j * ((x i - x j) * (x i - x j)))) = 0) by lra.
    assert (Zi := rsumn_zero n _ (fun a _ => rsumn_nonneg n _ (fun b _ => P a b)) Z i I). cbn beta in Zi. assert (Zj := rsumn_zero n _ (fun b _ => P i b) Zi j J). cbn beta in Zj. rewrite (adj_joined g i j E), Rmult_1_l in Zj. apply Rmult_integral in Zj. destruct Zj; lra.
  - intros H i I. assert (R := lap_row g x i I). fold n in R. rewrite R. rewrite (rsumn_ext n _ (fun _ => 0 * 0)); [rewrite rsumn_scal; lra|]. intros j J. destruct (joined_dec g i j) as [E|E]; [rewrite (H i j I J E)|rewrite (adj_zero g i j E)]; ring.
Qed.
