(** Proofs about arbitrage graphs as networks: degrees, connectivity. *)
From Coq Require Import Reals ZArith List Bool String Arith Lia Lra Permutation.
From Verif Require Import CurveModel GraphModel GraphSpec NetModel NetSpec NetProofs NetProofs4.
Import ListNotations.

(** ** degrees *)
Lemma same_elements {A} (l m : list A) : NoDup l -> NoDup m -> (forall a, In a l <-> In a m) -> List.length l = List.length m.
Proof. intros N M H. apply Permutation_length, NoDup_Permutation; assumption. Qed.
Lemma filter_nodup {A} (f : A -> bool) l : NoDup l -> NoDup (filter f l).
Proof. induction 1 as [|a l I N IH]; cbn; [constructor|]. destruct (f a); [|exact IH]. constructor; [|exact IH]. intros J. apply filter_In in J. tauto. Qed.
Lemma map_nodup_on {A B} (f : A -> B) l : NoDup l -> (forall a b, In a l -> In b l -> f a = f b -> a = b) -> NoDup (map f l).
Proof.
  induction 1 as [|a l I N IH]; intros H; cbn; [constructor|]. constructor; [|apply IH; intros; apply H; try (right; assumption); assumption]. intros J. apply in_map_iff in J. destruct J as (b & E & J). apply I. rewrite (H a b); [exact J|left; reflexivity|right; exact J|auto].
Qed.
Lemma in_degree_spec g i l : NoDup l -> (forall a, In a l <-> has_edge g (a, i)) -> nx_in (net_of g true) i = List.length l.
Proof.
  intros N H. unfold nx_in, net_of. cbn [nx_edges]. rewrite <- (map_length fst). apply same_elements; [|exact N|].
  - apply map_nodup_on; [apply filter_nodup, collected_nodup|]. intros [a b] [a' b'] I J E. apply filter_In in I, J. cbn in *. destruct I as [_ I], J as [_ J]. apply Nat.eqb_eq in I, J. congruence.
  - intros a. rewrite H, <- directed_edge, in_map_iff. split.
    + intros ([x y] & E & I). apply filter_In in I. cbn in *. destruct I as [I J]. apply Nat.eqb_eq in J. subst. exact I.
    + intros I. exists (a, i). split; [reflexivity|]. apply filter_In. split; [exact I|]. cbn. apply Nat.eqb_refl.
Qed.
Lemma out_degree_spec g i l : NoDup l -> (forall a, In a l <-> has_edge g (i, a)) -> nx_out (net_of g true) i = List.length l.
Proof.
  intros N H. unfold nx_out, net_of. cbn [nx_edges]. rewrite <- (map_length snd). apply same_elements; [|exact N|].
  - apply map_nodup_on; [apply filter_nodup, collected_nodup|]. intros [a b] [a' b'] I J E. apply filter_In in I, J. cbn in *. destruct I as [_ I], J as [_ J]. apply Nat.eqb_eq in I, J. congruence.
  - intros a. rewrite H, <- directed_edge, in_map_iff. split.
    + intros ([x y] & E & I). apply filter_In in I. cbn in *. destruct I as [I J]. apply Nat.eqb_eq in J. subst. exact I.
    + intros I. exists (i, a). split; [reflexivity|]. apply filter_In. split; [exact I|]. cbn. apply Nat.eqb_refl.
Qed.
Lemma joined_on g i j : linked g -> joined_by g i j -> on_graph g i /\ on_graph g j.
Proof.
  intros L H. unfold linked in L. rewrite Forall_forall in L. destruct H as [(e & I & A & B)|(e & I & A & B)]; specialize (L e I); cbn in A, B; subst; unfold on_graph; tauto.
Qed.
Lemma degree_spec g i l : linked g -> NoDup l -> (forall a, In a l <-> joined_by g i a) -> nx_degree (net_of g false) i = (List.length l + if has false (nx_edges (net_of g false)) i i then 1 else 0)%nat.
Proof.
  intros L N H. unfold nx_degree. f_equal. apply same_elements; [apply filter_nodup, seq_NoDup|exact N|]. intros a. rewrite H, filter_In. unfold indices. rewrite in_seq. rewrite (has_net g false i a). cbn [nx_n net_of]. split; [tauto|]. intros J. split; [|exact J]. destruct (joined_on g i a L J) as [_ X]. unfold on_graph in X. lia.
Qed.
Lemma nsumn_ext n f h : (forall i, (i < n)%nat -> f i = h i) -> nsumn n f = nsumn n h.
Proof. induction n as [|n IH]; intros H; [reflexivity|]. cbn. rewrite IH by (intros; apply H; lia). rewrite H by lia. reflexivity. Qed.
Lemma nsumn_plus n f h : nsumn n (fun i => f i + h i)%nat = (nsumn n f + nsumn n h)%nat.
Proof. induction n as [|n IH]; cbn; [lia|]. rewrite IH. lia. Qed.
Lemma nsumn_zero n : nsumn n (fun _ => 0%nat) = 0%nat.
Proof. induction n as [|n IH]; cbn; [reflexivity|]. rewrite IH. reflexivity. Qed.
Lemma nsumn_single n k : (k < n)%nat -> nsumn n (fun i => if Nat.eqb k i then 1%nat else 0%nat) = 1%nat.
Proof.
  induction n as [|n IH]; intros K; [lia|]. cbn. destruct (Nat.eqb_spec k n) as [->|D].
  - rewrite (nsumn_ext n _ (fun _ => 0%nat)); [rewrite nsumn_zero; reflexivity|]. intros i I. destruct (Nat.eqb_spec n i); [lia|reflexivity].
  - rewrite IH by lia. lia.
Qed.
Lemma count_by {A} (f : A -> nat) n l : Forall (fun a => (f a < n)%nat) l -> nsumn n (fun i => List.length (filter (fun a => Nat.eqb (f a) i) l)) = List.length l.
Proof.
  induction 1 as [|a l H F IH]; [apply nsumn_zero|]. rewrite (nsumn_ext n _ (fun i => (if Nat.eqb (f a) i then 1 else 0) + List.length (filter (fun a => Nat.eqb (f a) i) l))%nat).
  - rewrite nsumn_plus, nsumn_single, IH by exact H. reflexivity.
  - intros i _. cbn. destruct (Nat.eqb (f a) i); reflexivity.
Qed.
Lemma in_sum g : linked g -> nsumn (List.length (g_nodes g)) (nx_in (net_of g true)) = List.length (collected true (g_edges g)).
Proof. intros L. apply (count_by snd). generalize (collected_range true g L). apply Forall_impl. tauto. Qed.
Lemma out_sum g : linked g -> nsumn (List.length (g_nodes g)) (nx_out (net_of g true)) = List.length (collected true (g_edges g)).
Proof. intros L. apply (count_by fst). generalize (collected_range true g L). apply Forall_impl. tauto. Qed.
(** edges of an undirected graph touch a node with one or with both ends *)
Lemma filter_or (f h : nat -> bool) l b : NoDup l -> In b l -> f b = false -> (forall j, h j = f j || Nat.eqb j b) -> List.length (filter h l) = S (List.length (filter f l)).
Proof.
  intros N I F H. induction N as [|a l J N IH]; [destruct I|]. cbn [filter]. rewrite H. destruct (Nat.eqb_spec a b) as [->|D].
  - rewrite orb_true_r, F. cbn. f_equal. f_equal. apply filter_ext_in. intros j K. rewrite H. destruct (Nat.eqb_spec j b) as [->|]; [contradiction|]. apply orb_false_r.
  - rewrite orb_false_r. destruct I as [->|I]; [congruence|]. destruct (f a); cbn; rewrite IH by exact I; reflexivity.
Qed.
Lemma has_snoc l a b i j : has false (l ++ [(a, b)]) i j = has false l i j || (Nat.eqb a i && Nat.eqb b j) || (Nat.eqb a j && Nat.eqb b i).
Proof. unfold has. rewrite existsb_app. cbn. unfold same_pair. cbn. rewrite orb_false_r. apply orb_assoc. Qed.
Definition simple_degree (n : nat) (l : list (nat * nat)) (i : nat) : nat := (List.length (filter (fun j => has false l i j) (seq 0 n)) + if has false l i i then 1 else 0)%nat.
Lemma degree_ends n es i : Forall (fun e => (e_in e < n)%nat /\ (e_out e < n)%nat) es -> let l := collected false es in
  simple_degree n l i = (List.length (filter (fun p => Nat.eqb (fst p) i) l) + List.length (filter (fun p => Nat.eqb (snd p) i) l))%nat.
Proof.
  intros F l. subst l. induction es as [|e es IH] using rev_ind.
  - unfold simple_degree. cbn. rewrite Nat.add_0_r. clear. induction (seq 0 n) as [|a l IH]; [reflexivity|exact IH].
  - apply Forall_app in F. destruct F as [F1 F2]. inversion F2 as [|? ? [Ha Hb] _]; subst. specialize (IH F1). rewrite collected_snoc. unfold nx_add. destruct (has false (collected false es) (e_in e) (e_out e)) eqn:H; [exact IH|].
    revert Ha Hb IH H. generalize (collected false es) (e_in e) (e_out e). clear. intros l a b Ha Hb IH H. rewrite !filter_app, !app_length. cbn [filter fst snd].
    assert (In_a : In a (seq 0 n)) by (apply in_seq; lia). assert (In_b : In b (seq 0 n)) by (apply in_seq; lia).
    unfold simple_degree in *. rewrite has_snoc. destruct (Nat.eqb_spec a i) as [->|Ai], (Nat.eqb_spec b i) as [->|Bi].
    + rewrite (filter_or (fun j => has false l i j) _ _ i (seq_NoDup n 0) In_a H). 2:{ intros j. rewrite has_snoc, Nat.eqb_refl, (Nat.eqb_sym i j). cbn. rewrite andb_true_r. destruct (has false l i j), (Nat.eqb j i); reflexivity. }
      rewrite H in *. cbn [orb andb List.length]. lia.
    + rewrite (filter_or (fun j => has false l i j) _ _ b (seq_NoDup n 0) In_b H). 2:{ intros j. rewrite has_snoc, Nat.eqb_refl, (proj2 (Nat.eqb_neq b i) Bi), andb_false_r, orb_false_r. cbn. rewrite (Nat.eqb_sym b j). reflexivity. }
      cbn [orb andb List.length]. rewrite !orb_false_r. lia.
    + rewrite (filter_or (fun j => has false l i j) _ _ a (seq_NoDup n 0) In_a). 2:{ rewrite has_sym. exact H. } 2:{ intros j. rewrite has_snoc, Nat.eqb_refl, (proj2 (Nat.eqb_neq a i) Ai), andb_true_r. cbn. rewrite orb_false_r, (Nat.eqb_sym a j). reflexivity. }
      cbn [orb andb List.length]. rewrite !orb_false_r. lia.
    + assert (E : filter (fun j => has false (l ++ [(a, b)]) i j) (seq 0 n) = filter (fun j => has false l i j) (seq 0 n)). { apply filter_ext. intros j. rewrite has_snoc, (proj2 (Nat.eqb_neq a i) Ai), (proj2 (Nat.eqb_neq b i) Bi), andb_false_r. cbn. rewrite !orb_false_r. reflexivity. }
      rewrite E. cbn [orb andb List.length]. rewrite !orb_false_r. lia.
Qed.
Lemma degree_sum g : linked g -> nsumn (List.length (g_nodes g)) (nx_degree (net_of g false)) = (2 * List.length (collected false (g_edges g)))%nat.
Proof.
  intros L. set (n := List.length (g_nodes g)). assert (F : Forall (fun e => (e_in e < n)%nat /\ (e_out e < n)%nat) (g_edges g)) by (generalize L; unfold linked; apply Forall_impl; intros e H; split; apply H).
  rewrite (nsumn_ext n _ (fun i => List.length (filter (fun p => Nat.eqb (fst p) i) (collected false (g_edges g))) + List.length (filter (fun p => Nat.eqb (snd p) i) (collected false (g_edges g))))%nat).
  - rewrite nsumn_plus. assert (R := collected_range false g L). fold n in R. rewrite (count_by fst), (count_by snd); [lia| |]; revert R; apply Forall_impl; tauto.
  - intros i _. exact (degree_ends n (g_edges g) i F).
Qed.
(** counting the edges without reference to the order of insertion *)
Lemma directed_count g l : NoDup l -> (forall p, In p l <-> has_edge g p) -> List.length (collected true (g_edges g)) = List.length l.
Proof. intros N H. apply same_elements; [apply collected_nodup|exact N|]. intros [i j]. rewrite H. apply directed_edge. Qed.
Definition up (p : nat * nat) : nat * nat := (Nat.min (fst p) (snd p), Nat.max (fst p) (snd p)).
Lemma up_eq p q : up p = up q -> p = q \/ p = (snd q, fst q).
Proof. destruct p as [a b], q as [c d]. unfold up. cbn. intros [= A B]. destruct (Nat.le_gt_cases a b), (Nat.le_gt_cases c d); [left|right|right|left]; f_equal; lia. Qed.
Lemma collected_once es : forall p q, In p (collected false es) -> In q (collected false es) -> up p = up q -> p = q.
Proof.
  induction es as [|e es IH] using rev_ind; intros p q I J E; [destruct I|]. rewrite collected_snoc in I, J. unfold nx_add in I, J. destruct (has false (collected false es) (e_in e) (e_out e)) eqn:H; [apply IH; assumption|].
  assert (X : forall p, In p (collected false es) -> up p <> up (e_in e, e_out e)). { intros p' K E'. assert (Y : has false (collected false es) (e_in e) (e_out e) = true); [|congruence]. apply has_undir. destruct (up_eq _ _ E') as [->| ->]; [left|right]; exact K. }
  apply in_app_or in I, J. destruct I as [I|[<-|[]]], J as [J|[<-|[]]]; [apply IH; assumption|destruct (X p I E)|symmetry in E; destruct (X q J E)|reflexivity].
Qed.
Lemma undirected_count g l : NoDup l -> (forall i j, In (i, j) l <-> (i <= j)%nat /\ joined_by g i j) -> List.length (collected false (g_edges g)) = List.length l.
Proof.
  intros N H. rewrite <- (map_length up). apply same_elements; [apply map_nodup_on; [apply collected_nodup|apply collected_once]|exact N|]. intros [i j]. rewrite H, in_map_iff.
  assert (X := has_net g false). cbn [nx_edges net_of] in X. split.
  - intros ([a b] & E & I). unfold up in E. cbn in E. injection E as <- <-. split; [lia|]. apply X, has_undir. destruct (Nat.le_gt_cases a b); [left; rewrite Nat.min_l, Nat.max_r by lia|right; rewrite Nat.min_r, Nat.max_l by lia]; exact I.
  - intros [O J]. apply X, has_undir in J. destruct J as [J|J]; eexists; (split; [|exact J]); unfold up; cbn; f_equal; lia.
Qed.

(** ** connectivity *)
Lemma spread_in G s j : In j (spread G s) <-> (j < nx_n G)%nat /\ exists i, In i s /\ (i = j \/ touch G i j = true).
Proof.
  unfold spread, indices. rewrite filter_In, in_seq, existsb_exists. split.
  - intros [[_ A] (i & I & E)]. split; [lia|]. exists i. split; [exact I|]. apply orb_true_iff in E. rewrite Nat.eqb_eq in E. exact E.
  - intros [A (i & I & E)]. split; [lia|]. exists i. split; [exact I|]. apply orb_true_iff. rewrite Nat.eqb_eq. exact E.
Qed.
Lemma spread_nodup G s : NoDup (spread G s). Proof. apply filter_nodup, seq_NoDup. Qed.
Lemma spread_n_snoc G : forall k s, spread_n G (S k) s = spread G (spread_n G k s).
Proof. induction k as [|k IH]; intros s; [reflexivity|]. change (spread_n G (S (S k)) s) with (spread_n G (S k) (spread G s)). rewrite IH. reflexivity. Qed.
Lemma spread_incl G s : (forall j, In j s -> (j < nx_n G)%nat) -> incl s (spread G s).
Proof. intros B j I. apply spread_in. split; [apply B; exact I|]. exists j. auto. Qed.
Definition closed (G : nxgraph) (s : list nat) : Prop := forall i j, In i s -> touch G i j = true -> (j < nx_n G)%nat -> In j s.
Lemma spread_grows G : forall k s, NoDup s -> (forall j, In j s -> (j < nx_n G)%nat) -> s <> [] ->
  let t := spread_n G k s in NoDup t /\ (forall j, In j t -> (j < nx_n G)%nat) /\ incl s t /\ (closed G t \/ (List.length s + k <= List.length t)%nat).
Proof.
  induction k as [|k IH]; intros s N B NE; cbn zeta.
  - cbn. split; [exact N|]. split; [exact B|]. split; [apply incl_refl|]. right. lia.
  - rewrite spread_n_snoc. destruct (IH s N B NE) as (N' & B' & I' & C). set (t := spread_n G k s) in *. assert (X := spread_incl G t B'). split; [apply spread_nodup|]. split; [intros j J; apply spread_in in J; apply J|]. split; [intros j J; apply X, I', J|].
    destruct C as [C|C].
    + left. intros i j I T L. apply spread_in. split; [exact L|]. apply spread_in in I. destruct I as [Li (a & A & E)]. assert (In i t) by (destruct E as [<-|E]; [exact A|exact (C a i A E Li)]). exists i. auto.
    + destruct (Nat.eq_dec (List.length (spread G t)) (List.length t)) as [E|D].
      * left. assert (Y : incl (spread G t) t) by (apply NoDup_length_incl; [exact N'|lia|exact X]). intros i j I T L. apply X, Y, spread_in. split; [exact L|]. exists i. split; [apply Y; exact I|auto].
      * right. assert (Z := NoDup_incl_length N' X). lia.
Qed.
Lemma reached_closed G : (0 < nx_n G)%nat -> let t := spread_n G (nx_n G) [0%nat] in NoDup t /\ (forall j, In j t -> (j < nx_n G)%nat) /\ In 0%nat t /\ closed G t.
Proof.
  intros P. destruct (spread_grows G (nx_n G) [0%nat]) as (N & B & I & C); [repeat constructor; intros []|intros j [<-|[]]; exact P|discriminate|]. cbn zeta. split; [exact N|]. split; [exact B|]. split; [apply I; left; reflexivity|].
  destruct C as [C|C]; [exact C|]. exfalso. assert (Y := nodup_bound (nx_n G) _ N (proj2 (Forall_forall _ _) B)). cbn [List.length] in C. lia.
Qed.
Lemma touch_joined g i j : touch (net_of g true) i j = true <-> joined_by g i j.
Proof. unfold touch. rewrite has_undir. unfold net_of. cbn [nx_edges]. rewrite !directed_edge. reflexivity. Qed.
Lemma reached_spec g : (0 < List.length (g_nodes g))%nat -> linked g -> forall j, In j (spread_n (net_of g true) (List.length (g_nodes g)) [0%nat]) <-> linked_to g 0 j.
Proof.
  intros P L. destruct (reached_closed (net_of g true) P) as (N & B & Z & C). change (nx_n (net_of g true)) with (List.length (g_nodes g)) in *. intros j. split.
  - assert (X : forall k i, In i (spread_n (net_of g true) k [0%nat]) -> linked_to g 0 i). { induction k as [|k IH]; intros i I; [destruct I as [<-|[]]; constructor|]. rewrite spread_n_snoc in I. apply spread_in in I. destruct I as [_ (a & A & E)]. specialize (IH a A). destruct E as [<-|E]; [exact IH|]. econstructor; [exact IH|]. apply touch_joined, E. }
    apply X.
  - induction 1 as [a|a b c H IH J]. { apply Z || exact Z. } apply (C b c); [apply IH; assumption|apply touch_joined; exact J|]. destruct (joined_on g b c L J) as [_ Y]. exact Y.
Qed.
Lemma linked_trans g a b c : linked_to g a b -> linked_to g b c -> linked_to g a c.
Proof. intros A B. induction B as [b|b d e H IH J]; [exact A|]. econstructor; [apply IH; exact A|exact J]. Qed.
Lemma linked_sym g a b : linked_to g a b -> linked_to g b a.
Proof. induction 1 as [a|a b c H IH J]; [constructor|]. apply (linked_trans g c b a); [|exact IH]. econstructor; [constructor|]. destruct J as [J|J]; [right|left]; exact J. Qed.
Lemma linked_on g a b : linked g -> on_graph g a -> linked_to g a b -> on_graph g b.
Proof. intros L A H. destruct H as [a|a b c H J]; [exact A|]. apply (joined_on g b c L J). Qed.
Lemma connected_spec g : linked g -> g_nodes g <> [] -> exists b, is_weakly_connected g = Ret b /\ (b = true <-> forall i j, on_graph g i -> on_graph g j -> linked_to g i j).
Proof.
  intros L NE. assert (P : (0 < List.length (g_nodes g))%nat) by (destruct (g_nodes g); [congruence|cbn; lia]). assert (S := reached_spec g P L). destruct (reached_closed (net_of g true) P) as (N & B & Z & C). change (nx_n (net_of g true)) with (List.length (g_nodes g)) in *.
  eexists. split. { unfold is_weakly_connected. rewrite as_graph_net. cbn [rbind]. change (nx_n (net_of g true)) with (List.length (g_nodes g)). rewrite (proj2 (Nat.eqb_neq _ 0)) by lia. reflexivity. }
  set (t := spread_n _ _ _) in *. set (n := List.length (g_nodes g)) in *. rewrite Nat.eqb_eq. split.
  - intros E i j I J. assert (X : incl (seq 0 n) t) by (apply NoDup_length_incl; [exact N|rewrite seq_length; lia|intros k K; apply in_seq; specialize (B k K); lia]).
    apply (linked_trans g i 0 j); [apply linked_sym|]; apply S, X, in_seq; unfold on_graph in *; fold n in I, J; lia.
  - intros H. assert (X : incl (seq 0 n) t). { intros k K. apply in_seq in K. apply S, H; unfold on_graph; fold n; lia. }
    assert (Y := NoDup_incl_length (seq_NoDup n 0) X). rewrite seq_length in Y. assert (W := nodup_bound n t N (proj2 (Forall_forall _ _) B)). lia.
Qed.
Lemma connected_empty g : g_nodes g = [] -> is_weakly_connected g = Raise RuntimeError.
Proof. intros E. unfold is_weakly_connected. rewrite as_graph_net. cbn [rbind]. unfold net_of. rewrite E. reflexivity. Qed.
Lemma linked_constant g (x : nat -> R) : linked g -> (forall i j, on_graph g i -> on_graph g j -> joined_by g i j -> x i = x j) -> forall a b, on_graph g a -> linked_to g a b -> x a = x b.
Proof. intros L H a b A T. induction T as [a|a b c T IH J]; [reflexivity|]. rewrite (IH A). destruct (joined_on g b c L J). apply H; assumption. Qed.
Local Open Scope R_scope.
Lemma connected_kernel g : linked g -> g_nodes g <> [] -> let n := List.length (g_nodes g) in
  is_weakly_connected g = Ret true <-> forall x : nat -> R, (forall i, on_graph g i -> rsumn n (fun j => IZR (lap g i j) * x j) = 0) -> forall i j, on_graph g i -> on_graph g j -> x i = x j.
Proof.
  intros L NE n. assert (P : (0 < n)%nat) by (unfold n; destruct (g_nodes g); [congruence|cbn; lia]). destruct (connected_spec g L NE) as (b & E & H). split.
  - intros T x K i j I J. rewrite E in T. injection T as ->. apply (linked_constant g x L (proj1 (lap_kernel g x) K) i j I). apply H; auto.
  - intros K. rewrite E. f_equal. apply H. assert (S := reached_spec g P L). fold n in S. set (t := spread_n (net_of g true) n [0%nat]) in *.
    set (x := fun i => if existsb (Nat.eqb i) t then 1 else 0). assert (X1 : forall i, x i = 1 <-> linked_to g 0 i).
    { intros i. rewrite <- S. unfold x. destruct (existsb (Nat.eqb i) t) eqn:D.
      - apply existsb_exists in D. destruct D as (k & I & D). apply Nat.eqb_eq in D. subst k. tauto.
      - split; [lra|]. intros I. exfalso. assert (existsb (Nat.eqb i) t = true); [|congruence]. apply existsb_exists. exists i. split; [exact I|apply Nat.eqb_refl]. }
    assert (X0 : forall i, x i = 1 \/ x i = 0) by (intros i; unfold x; destruct (existsb _ t); auto).
    assert (D : forall i j, on_graph g i -> on_graph g j -> joined_by g i j -> x i = x j).
    { intros i j _ _ J. destruct (X0 i) as [A|A], (X0 j) as [B|B]; rewrite A, B; try reflexivity; exfalso.
      - apply X1 in A. assert (x j = 1) by (apply X1; econstructor; [exact A|exact J]). lra.
      - apply X1 in B. assert (x i = 1) by (apply X1; econstructor; [exact B|]; destruct J as [J|J]; [right|left]; exact J). lra. }
    assert (Q : forall i, on_graph g i -> linked_to g 0 i) by (intros i I; apply X1; rewrite (K x (proj2 (lap_kernel g x) D) i 0%nat I P); apply X1; constructor).
    intros i j I J. apply (linked_trans g i 0 j); [apply linked_sym|]; apply Q; assumption.
Qed.
Lemma zsum_cells (f : nat -> bool) l : zsum (map (fun i => if f i then 1%Z else 0%Z) l) = Z.of_nat (List.length (filter f l)).
Proof. induction l as [|a l IH]; [reflexivity|]. cbn [map filter]. change (zsum ((if f a then 1%Z else 0%Z) :: map (fun i => if f i then 1%Z else 0%Z) l)) with ((if f a then 1 else 0) + zsum (map (fun i => if f i then 1%Z else 0%Z) l))%Z. rewrite IH. destruct (f a); cbn [List.length]; lia. Qed.
(** the diagonal: how many other nodes are joined to the node *)
Lemma lap_diag g i l : linked g -> on_graph g i -> NoDup l -> (forall a, In a l <-> a <> i /\ joined_by g i a) -> lap g i i = Z.of_nat (List.length l).
Proof.
  intros L I N H. unfold lap. rewrite Nat.eqb_refl. assert (Z1 : zsum (map (cell (net_of g false) i) (seq 0 (List.length (g_nodes g)))) = Z.of_nat (List.length (filter (fun j => has false (nx_edges (net_of g false)) i j) (seq 0 (List.length (g_nodes g)))))) by apply zsum_cells. rewrite Z1. unfold cell. change (nx_dir (net_of g false)) with false.
  set (f := fun j => has false (nx_edges (net_of g false)) i j). change (has false (nx_edges (net_of g false)) i i) with (f i).
  assert (F : forall a, In a (filter f (seq 0 (List.length (g_nodes g)))) <-> joined_by g i a). { intros a. rewrite filter_In, in_seq. unfold f. rewrite (has_net g false i a). split; [tauto|]. intros J. split; [|exact J]. destruct (joined_on g i a L J) as [_ X]. unfold on_graph in X. lia. }
  destruct (f i) eqn:D.
  - rewrite (same_elements _ (i :: l)); [cbn [List.length]; lia|apply filter_nodup, seq_NoDup|constructor; [rewrite H; tauto|exact N]|]. intros a. rewrite F. cbn. rewrite H. split.
    + intros J. destruct (Nat.eq_dec i a); [left|right]; auto.
    + intros [<-|[_ J]]; [|exact J]. apply (has_net g false i i). exact D.
  - rewrite (same_elements _ l); [lia|apply filter_nodup, seq_NoDup|exact N|]. intros a. rewrite F, H. split; [|tauto]. intros J. split; [|exact J]. intros ->. apply (has_net g false i i) in J. unfold f in D. congruence.
Qed.
Lemma degree_ok g : degree g Sym false = Ret (map (nx_degree (net_of g false)) (seq 0 (List.length (g_nodes g)))) /\ degree g Indeg false = Ret (map (nx_in (net_of g true)) (seq 0 (List.length (g_nodes g)))) /\ degree g Outdeg false = Ret (map (nx_out (net_of g true)) (seq 0 (List.length (g_nodes g)))).
Proof. repeat split; reflexivity. Qed.
