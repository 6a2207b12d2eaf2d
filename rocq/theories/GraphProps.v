(** Theorems about arbitrage graphs: arbitrage cycles (C52), transports (C53), cycles (C54),
    construction (C75), edge arithmetic and duplicates (C76), pro rata transports (C77),
    prices along paths (C78), amounts, states and statistics (C79). *)
From Coq Require Import Reals Lra Bool String List ZArith Arith Lia.
From Verif Require Import CurveModel CurveProofs GraphModel GraphSpec GraphProofs GraphProofs2 GraphProofs3 GraphProofs4 GraphProofs5 GraphProofs6 GraphProofs7 GraphProofs8 GraphProofs9.
From Verif Require CpcModel CpcSpec.
Import ListNotations.
Local Open Scope R_scope.

(** a graph with a profitable cycle A -> B -> C -> A; A holds 30 *)
Definition ex_edge (i : nat) (a : R) (o : nat) (b : R) : edge := mkEdge i a o b false None (Some a).
Definition ex_graph : graph :=
  mkGraph [mkNode "A" (mkTracked 30 [0; 30]); new_node "B"; new_node "C"] [("A"%string, 0%nat); ("B"%string, 1%nat); ("C"%string, 2%nat)]
    [ex_edge 0 10 1 20; ex_edge 1 5 2 10; ex_edge 2 40 0 30] false.
Example ex_positive : positive ex_graph. Proof. repeat constructor; cbn; lra. Qed.
Example ex_linked : linked ex_graph.
Proof. repeat constructor; cbn; try lia; try congruence; intros; unfold is_amount; cbn; rewrite rlt_false by lra; reflexivity. Qed.

(** ** C52 *)
(** on a graph with positive amounts, when every step of the cycle has an edge: the result is
    the largest input that fits through all steps and what arrives of it, to and from the
    same token *)
Theorem C52_result : forall g cycle token any l, positive g -> arb_pairs g cycle token any = Ret l -> Forall (has_edge g) l ->
  exists a, run_arbitrage_cycle g cycle token any = Ret a /\ 0 < arb_in a /\ fits g (arb_in a) l /\ arb_out a = arrives g (arb_in a) l /\ arb_profit a = arb_out a - arb_in a /\
  (forall b, fits g b l -> b <= arb_in a) /\ (exists p r, l = p :: r /\ arb_token a = fst p).
Proof. exact arb_ok. Qed.
(** the output is the input times the product of the exchange rates *)
Theorem C52_product : forall g cycle token any l a, positive g -> arb_pairs g cycle token any = Ret l -> Forall (has_edge g) l -> run_arbitrage_cycle g cycle token any = Ret a ->
  arb_out a = arb_in a * product (map (exchange g) l) /\ exists r, arb_r a = Ret r /\ r = product (map (exchange g) l) - 1.
Proof.
  intros g cycle token any l a P A H R0. destruct (arb_ok g cycle token any l P A H) as (a' & R1 & I1 & _ & I3 & I4 & _). rewrite R0 in R1. injection R1 as <-.
  assert (X : forall l b, arrives g b l = b * product (map (exchange g) l)).
  { clear. induction l as [|p l IH]; intros b; cbn; [ring|]. rewrite IH. unfold product. ring. }
  rewrite X in I3. split; [exact I3|]. destruct (arb_ratio a) as (r & E & Er); [lra|exact I4|]. exists r. split; [exact E|]. rewrite Er, I4, I3. field. lra.
Qed.
(** return and profit per step *)
Theorem C52_per_step : forall g cycle token any l a, positive g -> arb_pairs g cycle token any = Ret l -> Forall (has_edge g) l -> run_arbitrage_cycle g cycle token any = Ret a ->
  (forall n, n <> O -> exists r q, arb_rpcs a n = Ret r /\ arb_ppcs a n = Ret q /\ r * INR n = product (map (exchange g) l) - 1 /\ q * INR n = arb_out a - arb_in a) /\
  arb_rpcs a 0 = Raise ZeroDivision /\ arb_ppcs a 0 = Raise ZeroDivision.
Proof.
  intros g cycle token any l a P A H R0. destruct (C52_product g cycle token any l a P A H R0) as (_ & r & Er & Ep). destruct (arb_ok g cycle token any l P A H) as (a' & R1 & _ & _ & _ & I4 & _). rewrite R0 in R1. injection R1 as <-.
  unfold arb_rpcs, arb_ppcs. rewrite Er. cbn [rbind]. split.
  - intros n Hn. assert (Hi : INR n <> 0) by (apply not_0_INR; exact Hn). rewrite !rdiv_ok by exact Hi. eexists _, _. split; [reflexivity|]. split; [reflexivity|]. split; [rewrite Ep; field; exact Hi|rewrite I4; field; exact Hi].
  - unfold rdiv. rewrite (req_true (INR 0) 0) by reflexivity. split; reflexivity.
Qed.
Print Assumptions C52_per_step.
(** a cycle without repeated nodes takes from no edge more than its capacity *)
Theorem C52_capacity : forall g cycle token any l e a, positive g -> NoDup cycle -> arb_pairs g cycle token any = Ret l -> Forall (has_edge g) l -> In e (g_edges g) ->
  run_arbitrage_cycle g cycle token any = Ret a -> 0 <= through g e (arb_in a) l <= e_ain e.
Proof. exact arb_edge. Qed.
(** the steps are those of the cycle from the token, or from its first node; each node is
    entered from the one before it *)
Theorem C52_steps : forall g cycle token any l, arb_pairs g cycle token any = Ret l ->
  exists n, (n < List.length cycle)%nat /\ cycle_pairs Nat.eqb cycle (Some (Z.of_nat n)) None = Ret l /\
  (token = None -> n = 0%nat) /\ (forall t m, token = Some t -> node_by_tkn g t = Ret m -> In m cycle -> nth_error cycle n = Some m).
Proof.
  intros g cycle token any l H. unfold arb_pairs in H.
  assert (Z : cycle_pairs Nat.eqb cycle None None = Ret l -> (0 < List.length cycle)%nat /\ cycle_pairs Nat.eqb cycle (Some (Z.of_nat 0)) None = Ret l).
  { intros X. split; [|exact X]. destruct cycle; [discriminate|cbn; lia]. }
  destruct token as [t|]; [|exists 0%nat; destruct (Z H); split; [assumption|]; split; [assumption|]; split; [reflexivity|discriminate]].
  destruct (node_by_tkn g t) as [m|x] eqn:E; cbn [rbind] in H.
  - destruct (cycle_pairs_val Nat.eqb Nat.eqb_eq cycle m) as [V1 V2]. destruct (in_dec Nat.eq_dec m cycle) as [I|I].
    + destruct (V1 I) as (n & Hn & N & X). exists n. split; [exact Hn|]. assert (R0 : cycle_pairs Nat.eqb cycle (Some (Z.of_nat n)) None = Ret l).
      { rewrite <- X. destruct (cycle_pairs Nat.eqb cycle None (Some m)) as [l'|x]; [congruence|]. exfalso.
        destruct (cycle_pairs_spec Nat.eqb cycle (Z.of_nat n)) as (l0 & E0 & _); [intros ->; destruct I|]. congruence. }
      split; [exact R0|]. split; [discriminate|]. intros t' m' [= <-] E' _. rewrite E in E'. injection E' as <-. exact N.
    + rewrite (V2 I) in H. destruct any; [|discriminate]. destruct (Z H). exists 0%nat. split; [assumption|]. split; [assumption|]. split; [discriminate|].
      intros t' m' [= <-] E' I'. rewrite E in E'. injection E' as <-. contradiction.
  - destruct any; [|discriminate]. destruct (Z H). exists 0%nat. split; [assumption|]. split; [assumption|]. split; [discriminate|]. intros t' m' [= <-] E'. congruence.
Qed.
(** with a step that has no edge the calculation never returns; the empty cycle divides by
    zero; a token outside the cycle is an error unless any token is allowed *)
Theorem C52_failures : forall g,
  (forall cycle token any l, positive g -> arb_pairs g cycle token any = Ret l -> Exists (fun p => ~ has_edge g p) l -> exists e, run_arbitrage_cycle g cycle token any = Raise e) /\
  (forall token, run_arbitrage_cycle g [] token true = Raise ZeroDivision) /\
  (forall cycle t, (forall n, node_by_tkn g t = Ret n -> ~ In n cycle) -> run_arbitrage_cycle g cycle (Some t) false = Raise ValueError /\
     run_arbitrage_cycle g cycle (Some t) true = run_arbitrage_cycle g cycle None true).
Proof.
  intros g. split; [exact (arb_missing g)|]. split; [|exact (arb_token_absent g)]. intros token. unfold run_arbitrage_cycle. rewrite arb_empty. reflexivity.
Qed.
(** the claim about capacities fails for cycles that visit a node twice *)
Theorem C52_capacity_refuted : exists g cycle l e a, positive g /\ arb_pairs g cycle None true = Ret l /\ Forall (has_edge g) l /\ In e (g_edges g) /\
  run_arbitrage_cycle g cycle None true = Ret a /\ e_ain e < through g e (arb_in a) l.
Proof.
  set (e1 := ex_edge 0 10 1 10). set (e2 := ex_edge 1 10 0 10). set (g := mkGraph [new_node "A"; new_node "B"] [("A"%string, 0%nat); ("B"%string, 1%nat)] [e1; e2] false).
  set (l := [(0, 1); (1, 0); (0, 1); (1, 0)]%nat). assert (P : positive g) by (repeat constructor; cbn; lra). assert (A : arb_pairs g [0; 1; 0; 1]%nat None true = Ret l) by reflexivity.
  assert (E1 : has_edge g (0, 1)%nat) by (exists e1; cbn; auto). assert (E2 : has_edge g (1, 0)%nat) by (exists e2; cbn; auto).
  assert (H : Forall (has_edge g) l) by (repeat (constructor; [assumption|]); constructor). destruct (arb_ok g _ _ _ l P A H) as (a & R0 & I1 & I2 & _ & _ & I3 & _).
  exists g, [0; 1; 0; 1]%nat, l, e1, a. split; [exact P|]. split; [exact A|]. split; [exact H|]. split; [left; reflexivity|]. split; [exact R0|].
  assert (C : forall p, In p l -> capacity g p = 10 /\ exchange g p = 1). { intros p [<-|[<-|[<-|[<-|[]]]]]; unfold exchange, capacity, total; cbn; split; lra. }
  destruct (C (0, 1)%nat ltac:(cbn; tauto)) as [C1 X1]. destruct (C (1, 0)%nat ltac:(cbn; tauto)) as [C2 X2].
  assert (F : fits g 10 l). { unfold l. cbn [fits]. rewrite C1, C2, X1, X2. lra. } specialize (I3 10 F).
  unfold l. cbn [through fst snd]. rewrite C1, C2, X1, X2. cbn. lra.
Qed.
Example C52_case : exists a, run_arbitrage_cycle ex_graph [0; 1; 2]%nat (Some "A"%string) false = Ret a /\ arb_in a = 5 / 2 /\ arb_out a = 15 / 2.
Proof.
  set (l := [(0, 1); (1, 2); (2, 0)]%nat). assert (A : arb_pairs ex_graph [0; 1; 2]%nat (Some "A"%string) false = Ret l) by reflexivity.
  assert (H : Forall (has_edge ex_graph) l). { repeat constructor; [exists (ex_edge 0 10 1 20)|exists (ex_edge 1 5 2 10)|exists (ex_edge 2 40 0 30)]; cbn; auto. }
  destruct (arb_ok ex_graph _ _ _ l ex_positive A H) as (a & R0 & I1 & I2 & I3 & _ & I4 & _). exists a. split; [exact R0|].
  assert (C1 : capacity ex_graph (0, 1)%nat = 10 /\ exchange ex_graph (0, 1)%nat = 2) by (unfold exchange, capacity, total; cbn; split; lra).
  assert (C2 : capacity ex_graph (1, 2)%nat = 5 /\ exchange ex_graph (1, 2)%nat = 2) by (unfold exchange, capacity, total; cbn; split; lra).
  assert (C3 : capacity ex_graph (2, 0)%nat = 40 /\ exchange ex_graph (2, 0)%nat = 3 / 4) by (unfold exchange, capacity, total; cbn; split; lra).
  destruct C1 as [C1 X1], C2 as [C2 X2], C3 as [C3 X3].
  assert (F : fits ex_graph (5 / 2) l). { unfold l. cbn [fits]. rewrite C1, C2, C3, X1, X2. lra. }
  specialize (I4 _ F). unfold l in I2, I3. cbn [fits arrives] in I2, I3. rewrite C1, C2, C3, X1, X2 in I2. rewrite X1, X2, X3 in I3. assert (arb_in a = 5 / 2) by lra. split; lra.
Qed.

(** ** C53 *)
(** a recorded transport that returns: the edge's capacity and the two nodes change by
    exactly what was sent and what it pays, nothing else does, and the limits were met *)
Theorem C53_success : forall g i v re g' a, linked g -> edge_transport g i (Some (Num v)) true re = (g', Ret a) ->
  exists e, nth_error (g_edges g) i = Some e /\ 0 < e_ain e /\ a_val a = v * (e_aout e / e_ain e) /\ a_node a = e_out e /\ same_graph g g' /\ linked g' /\
  (forall j, remaining g' j = if Nat.eqb j i then remaining g i - v else remaining g j) /\ (forall n, node_amount g' n = node_amount g n + effect e v n) /\
  - EPS <= v <= e_ain e + EPS /\ (re = true -> - EPS <= remaining g' i /\ - EPS <= node_amount g' (e_in e)).
Proof.
  intros g i v re g' a L H. destruct (transport_ret g i v re g' a L H) as (e & E & A & P & V & Lim & -> & ->). exists e. split; [exact E|]. split; [exact P|].
  split; [cbn; unfold Rdiv; ring|]. split; [reflexivity|]. split; [apply sent_same|]. split; [apply sent_linked; assumption|].
  split; [intros j; apply sent_remaining; exact E|]. split; [intros n; apply sent_amount; assumption|]. split; [exact V|].
  intros Hr. rewrite sent_remaining by exact E. rewrite Nat.eqb_refl. apply Lim. exact Hr.
Qed.
(** a recorded transport that fails: either nothing has changed, or the capacity has already
    been used, or everything has already been booked *)
Theorem C53_failure : forall g i e v g' x, linked g -> nth_error (g_edges g) i = Some e -> is_amount e = true -> edge_transport g i (Some (Num v)) true true = (g', Raise x) ->
  (g' = g /\ ((e_ain e + EPS < v \/ v < - EPS) /\ x = AssertionError \/ e_ain e = 0 /\ x = ZeroDivision)) \/
  (x = ValueError /\ remaining g i - v < - EPS /\ (forall j, remaining g' j = if Nat.eqb j i then remaining g i - v else remaining g j) /\ (forall n, node_amount g' n = node_amount g n)) \/
  (x = ValueError /\ - EPS <= remaining g i - v /\ (forall j, remaining g' j = if Nat.eqb j i then remaining g i - v else remaining g j) /\
     (forall n, node_amount g' n = node_amount g n + effect e v n) /\ node_amount g' (e_in e) < - EPS).
Proof.
  intros g i e v g' x L E A. rewrite (transport_cases g i e v true L E A).
  unfold rle. destruct (Rle_dec v (e_ain e + EPS)) as [H1|H1]; cbn [negb]; [|intros [= <- <-]; left; split; [reflexivity|]; left; split; [lra|reflexivity]].
  destruct (Rle_dec (- EPS) v) as [H2|H2]; cbn [negb]; [|intros [= <- <-]; left; split; [reflexivity|]; left; split; [lra|reflexivity]].
  unfold req. destruct (Req_EM_T (e_ain e) 0) as [H3|H3]; [intros [= <- <-]; left; split; [reflexivity|]; right; auto|].
  unfold rlt. destruct (Rlt_dec (remaining g i - v) (- EPS)) as [H4|H4]; cbn [andb].
  - intros [= <- <-]. right. left. split; [reflexivity|]. split; [exact H4|]. split; [intros j; apply (set_rem_remaining _ _ _ _ e E)|reflexivity].
  - destruct (Rlt_dec (node_amount (sent g i e v) (e_in e)) (- EPS)) as [H5|H5]; cbn [andb]; [|discriminate]. intros [= <- <-]. right. right. split; [reflexivity|]. split; [lra|].
    split; [intros j; apply sent_remaining; exact E|]. split; [intros n; apply sent_amount; assumption|exact H5].
Qed.
(** without recording nothing changes; by default the whole capacity is sent; an amount at
    another node is refused *)
Theorem C53_forms : forall g i e re, nth_error (g_edges g) i = Some e ->
  (forall o g' r, edge_transport g i o false re = (g', r) -> g' = g) /\
  (forall rc, is_amount e = true -> edge_transport g i None rc re = edge_transport g i (Some (Num (e_ain e))) rc re) /\
  (forall rc a, a_node a = e_in e -> edge_transport g i (Some (Am a)) rc re = edge_transport g i (Some (Num (a_val a))) rc re) /\
  (forall rc a, a_node a <> e_in e -> is_amount e = true -> edge_transport g i (Some (Am a)) rc re = (g, Raise AssertionError)) /\
  (is_amount e = false -> forall o, edge_transport g i o true re = (g, Raise ValueError)).
Proof.
  intros g i e re E. split; [intros o g' r; apply unrecorded|]. unfold edge_transport. rewrite E. split; [|split; [|split]].
  - intros rc A. cbn [transport_in]. rewrite A. reflexivity.
  - intros rc a A. cbn [transport_in]. rewrite A, Nat.eqb_refl. reflexivity.
  - intros rc a A B. cbn [transport_in]. rewrite B, (proj2 (Nat.eqb_neq _ _) A), andb_false_r. reflexivity.
  - intros A o. rewrite A. reflexivity.
Qed.
(** over any sequence of successful transports, each node's balance has changed by exactly
    what the used capacities of the edges say *)
Theorem C53_ledger : forall l g g', linked g -> run g l = Some g' -> same_graph g g' /\ linked g' /\ forall n, node_amount g' n = node_amount g n + booked g g' n.
Proof.
  intros l g g' L H. destruct (ledger l g g g' L (same_refl g) H) as (A & B & C). split; [exact A|]. split; [exact B|]. intros n. specialize (C n). rewrite booked_self in C. lra.
Qed.
(** a failing transport is not atomic *)
Theorem C53_atomic_refuted : exists g v g', linked g /\ edge_transport g 0 (Some (Num v)) true true = (g', Raise ValueError) /\
  node_amount g 0 = 0 /\ node_amount g' 0 = -10 /\ node_amount g' 1 = 20 /\ remaining g 0 = 10 /\ remaining g' 0 = 0.
Proof.
  set (g := mkGraph [new_node "A"; new_node "B"] [("A"%string, 0%nat); ("B"%string, 1%nat)] [ex_edge 0 10 1 20] false).
  assert (L : linked g). { repeat constructor; cbn; try lia; try congruence; intros; unfold is_amount; cbn; rewrite rlt_false by lra; reflexivity. }
  assert (A : is_amount (ex_edge 0 10 1 20) = true) by (unfold is_amount; cbn; rewrite rlt_false by lra; reflexivity).
  assert (HE : 0 < EPS) by apply EPS_pos. assert (HE2 : EPS < 1). { unfold EPS. rewrite <- Rinv_1. apply Rinv_lt_contravar; lra. }
  exists g, 10, (sent g 0 (ex_edge 0 10 1 20) 10). split; [exact L|].
  assert (N0 : forall n, node_amount (sent g 0 (ex_edge 0 10 1 20) 10) n = node_amount g n + effect (ex_edge 0 10 1 20) 10 n) by (intros n; apply sent_amount; [exact L|reflexivity]).
  assert (Z0 : node_amount g 0 = 0) by reflexivity. assert (Z1 : node_amount g 1 = 0) by reflexivity.
  assert (R0 : remaining g 0 = 10) by reflexivity. split; [|split; [exact Z0|split; [|split; [|split; [exact R0|]]]]].
  - rewrite (transport_cases g 0 (ex_edge 0 10 1 20) 10 true L eq_refl A). rewrite rle_true by (cbn; lra). rewrite rle_true by lra. cbn [negb]. rewrite req_false by (cbn; lra).
    rewrite R0, rlt_false by lra. cbn [andb]. rewrite rlt_true; [reflexivity|]. cbn [e_in ex_edge]. rewrite N0, Z0. unfold effect. cbn. lra.
  - rewrite N0, Z0. unfold effect. cbn. lra.
  - rewrite N0, Z1. unfold effect. cbn. lra.
  - rewrite (sent_remaining g 0 (ex_edge 0 10 1 20) 10 0 eq_refl). cbn [Nat.eqb]. rewrite R0. lra.
Qed.
Example C53_case : exists g', run ex_graph [(0%nat, 4); (0%nat, 5)] = Some g' /\ node_amount g' 0 = 21 /\ node_amount g' 1 = 18 /\ remaining g' 0 = 1.
Proof.
  assert (HE : 0 < EPS) by apply EPS_pos. set (e := ex_edge 0 10 1 20). assert (A : is_amount e = true) by (unfold is_amount; cbn; rewrite rlt_false by lra; reflexivity).
  cbn [run]. rewrite (transport_cases ex_graph 0 e 4 true ex_linked eq_refl A). rewrite rle_true by (cbn; lra). rewrite rle_true by lra. cbn [negb]. rewrite req_false by (cbn; lra).
  assert (R0 : remaining ex_graph 0 = 10) by reflexivity. rewrite R0, rlt_false by lra. cbn [andb].
  set (g1 := sent ex_graph 0 e 4). assert (N1 : forall n, node_amount g1 n = node_amount ex_graph n + effect e 4 n) by (intros n; apply sent_amount; [exact ex_linked|reflexivity]).
  assert (Z0 : node_amount ex_graph 0 = 30) by reflexivity. assert (Z1 : node_amount ex_graph 1 = 0) by reflexivity.
  rewrite rlt_false; [|cbn [e_in e ex_edge]; rewrite N1, Z0; unfold effect; cbn; lra]. cbn [andb].
  assert (L1 : linked g1) by (apply sent_linked; [exact ex_linked|reflexivity|exact A]). set (e' := mkEdge 0 10 1 20 false None (Some (10 - 4))).
  assert (E1 : nth_error (g_edges g1) 0 = Some e') by reflexivity. assert (A' : is_amount e' = true) by exact A.
  rewrite (transport_cases g1 0 e' 5 true L1 E1 A'). rewrite rle_true by (cbn; lra). rewrite rle_true by lra. cbn [negb]. rewrite req_false by (cbn; lra).
  assert (R1 : remaining g1 0 = 10 - 4) by reflexivity. rewrite R1, rlt_false by lra. cbn [andb].
  set (g2 := sent g1 0 e' 5). assert (N2 : forall n, node_amount g2 n = node_amount g1 n + effect e' 5 n) by (intros n; apply sent_amount; [exact L1|exact E1]).
  rewrite rlt_false; [|cbn [e_in e']; rewrite N2, N1, Z0; unfold effect; cbn; lra]. cbn [andb]. exists g2. split; [reflexivity|]. rewrite !N2, !N1, Z0, Z1.
  unfold g2. rewrite (sent_remaining g1 0 e' 5 0 E1). cbn [Nat.eqb]. rewrite R1. unfold effect. cbn. lra.
Qed.

(** ** C54 *)
(** iterating a cycle of n nodes from any start gives n+1 items: the nodes in order, and the
    start again *)
Theorem C54_items : forall (A : Type) (eqb : A -> A -> bool) d s, d <> [] ->
  exists it l, cycle_items eqb d (Some s) None = Ret it /\ iter_all it = Ret l /\ List.length l = S (List.length d) /\
  forall j, (j <= List.length d)%nat -> nth_error l j = nth_error d (Z.to_nat ((s + Z.of_nat j) mod Z.of_nat (List.length d))).
Proof. intros A eqb d s H. destruct (iter_all_spec d s H) as (l & E). exists (iter_new d s), l. split; [reflexivity|exact E]. Qed.
(** started at a value: from its first occurrence; every node appears once and then the start *)
Theorem C54_start_value : forall (A : Type) (eqb : A -> A -> bool), (forall a b, eqb a b = true <-> a = b) -> forall d v,
  (In v d -> exists it n, cycle_items eqb d None (Some v) = Ret it /\ nth_error d n = Some v /\ (forall m, (m < n)%nat -> nth_error d m <> Some v) /\ iter_all it = Ret (rotate n d ++ [v])) /\
  (~ In v d -> cycle_items eqb d None (Some v) = Raise ValueError) /\ (forall s, cycle_items eqb d (Some s) (Some v) = Raise ValueError) /\ cycle_items eqb d None None = cycle_items eqb d (Some 0%Z) None.
Proof.
  intros A eqb Heq d v. cbn [cycle_items]. destruct (index_of_spec eqb Heq v d) as [(n & -> & N & M)|[-> N]]; cbn [rbind].
  - split; [intros _|split; [intros H; exfalso; apply H; apply nth_error_In in N; exact N|auto]]. exists (iter_new d (Z.of_nat n)), n. repeat (split; [assumption || reflexivity|]). apply (items_rotate d n v N).
  - split; [contradiction|auto].
Qed.
(** the pairs are the n adjacent pairs, each once *)
Theorem C54_pairs : forall (A : Type) (eqb : A -> A -> bool) d s, d <> [] ->
  exists l, cycle_pairs eqb d (Some s) None = Ret l /\ List.length l = List.length d /\
  forall j, (j < List.length d)%nat -> exists a b, nth_error l j = Some (a, b) /\
    nth_error d (Z.to_nat ((s + Z.of_nat j) mod Z.of_nat (List.length d))) = Some a /\ nth_error d (Z.to_nat ((s + Z.of_nat (S j)) mod Z.of_nat (List.length d))) = Some b.
Proof. intros A eqb d s H. exact (cycle_pairs_spec eqb d s H). Qed.
Theorem C54_pairs_once : forall (A : Type) (eqb : A -> A -> bool) d n l, (n < List.length d)%nat -> NoDup d -> cycle_pairs eqb d (Some (Z.of_nat n)) None = Ret l -> NoDup (map fst l).
Proof. intros A eqb d n l. exact (cycle_pairs_nodup eqb d n l). Qed.
Theorem C54_empty : forall (A : Type) (eqb : A -> A -> bool), cycle_pairs eqb (@nil A) None None = Raise ZeroDivision /\ forall l, is_subcycle eqb (@nil A) l = Ret false.
Proof. intros A eqb. split; [reflexivity|]. intros l. unfold is_subcycle. cbn. reflexivity. Qed.
(** what the sub-cycle test decides *)
Theorem C54_subcycle : forall (A : Type) (eqb : A -> A -> bool), (forall a b, eqb a b = true <-> a = b) ->
  (forall self other, exists b, is_subcycle eqb self other = Ret b) /\
  (forall v s other, is_subcycle eqb (v :: s) other = Ret true <->
     exists n, nth_error other n = Some v /\ (forall m, (m < n)%nat -> nth_error other m <> Some v) /\ subseq (v :: s) (rotate n other)) /\
  (forall self other, self <> [] -> NoDup other -> (is_subcycle eqb self other = Ret true <-> exists n, (n <= List.length other)%nat /\ subseq self (rotate n other))).
Proof. intros A eqb Heq. split; [exact (subcycle_total eqb Heq)|]. split; [exact (subcycle_first eqb Heq)|exact (subcycle_rotation eqb Heq)]. Qed.
(** every cycle is a sub-cycle of itself, of its rotations when no node is repeated; the
    relation is transitive and, up to rotation, antisymmetric *)
Theorem C54_order : forall (A : Type) (eqb : A -> A -> bool), (forall a b, eqb a b = true <-> a = b) ->
  (forall c, c <> [] -> is_subcycle eqb c c = Ret true) /\
  (forall c n, c <> [] -> NoDup c -> (n <= List.length c)%nat -> is_subcycle eqb c (rotate n c) = Ret true /\ is_subcycle eqb (rotate n c) c = Ret true) /\
  (forall c1 c2 c3, c1 <> [] -> NoDup c2 -> NoDup c3 -> is_subcycle eqb c1 c2 = Ret true -> is_subcycle eqb c2 c3 = Ret true -> is_subcycle eqb c1 c3 = Ret true) /\
  (forall c1 c2, c1 <> [] -> NoDup c1 -> NoDup c2 -> is_subcycle eqb c1 c2 = Ret true -> is_subcycle eqb c2 c1 = Ret true -> exists n, (n <= List.length c2)%nat /\ c1 = rotate n c2).
Proof.
  intros A eqb Heq. assert (S0 : forall l : list A, subseq l l) by (induction l; constructor; assumption). split; [|split; [|split; [exact (subcycle_trans eqb Heq)|exact (subcycle_antisym eqb Heq)]]].
  - intros c Hc. destruct c as [|v s]; [congruence|]. apply (subcycle_first eqb Heq). exists 0%nat. split; [reflexivity|]. split; [lia|]. rewrite rotate_0. apply S0.
  - intros c n Hc ND Hn. assert (Hr : rotate n c <> []) by (intros X; apply (f_equal (@List.length A)) in X; rewrite rotate_length in X; destruct c; [congruence|discriminate]). split.
    + apply (subcycle_rotation eqb Heq); [exact Hc|apply NoDup_rotate; exact ND|]. exists (List.length c - n)%nat. rewrite rotate_length. split; [lia|].
      assert (E : rotate (List.length c - n) (rotate n c) = c). { unfold rotate at 2. replace (List.length c - n)%nat with (List.length (skipn n c)) by (apply skipn_length). rewrite rotate_app. apply firstn_skipn. }
      rewrite E. apply S0.
    + apply (subcycle_rotation eqb Heq); [exact Hr|exact ND|]. exists n. split; [exact Hn|apply S0].
Qed.
(** despite its description, filter_subcycles keeps the sub-cycles, in their order, and drops the rest *)
Theorem C54_filter : forall (A : Type) (eqb : A -> A -> bool), (forall a b, eqb a b = true <-> a = b) -> forall self l,
  exists r, filter_subcycles eqb self l = Ret r /\ subseq r l /\ (forall c, In c r <-> In c l /\ is_subcycle eqb c self = Ret true) /\
  (self <> [] -> NoDup self -> forall c, c <> [] -> In c r <-> In c l /\ exists n, (n <= List.length self)%nat /\ subseq c (rotate n self)) /\
  (length r = length (filter (fun c => match is_subcycle eqb c self with Ret b => b | Raise _ => false end) l)).
Proof.
  intros A eqb Heq self l. assert (K : exists r, filter_subcycles eqb self l = Ret r /\ subseq r l /\ (forall c, In c r <-> In c l /\ is_subcycle eqb c self = Ret true) /\
    (length r = length (filter (fun c => match is_subcycle eqb c self with Ret b => b | Raise _ => false end) l))).
  { induction l as [|c l (r & E & S & I & L)]; [exists []; split; [reflexivity|]; split; [apply sub_nil|]; split; [intros c; split; [intros []|intros [[] _]]|reflexivity]|]. destruct (subcycle_total eqb Heq c self) as (b & B). cbn [filter_subcycles filter]. rewrite B, E. cbn [rbind].
    destruct b; eexists; (split; [reflexivity|]); (split; [constructor; exact S|]); (split; [|cbn [length]; rewrite ?L; reflexivity]); intros c'; cbn [In]; rewrite I; split.
    - intros [<-|[]]; auto.
    - intros [[<-|]]; auto.
    - intros []; auto.
    - intros [[<-|]]; [congruence|auto]. }
  destruct K as (r & E & S & I & L). exists r. repeat (split; [assumption|]). split; [|exact L]. intros Hs ND c Hc. rewrite I, (subcycle_rotation eqb Heq c self Hc ND). reflexivity.
Qed.
(** with a repeated node a rotation may not be recognised *)
Theorem C54_rotation_refuted : exists c n, (n <= List.length c)%nat /\ is_subcycle Nat.eqb (rotate n c) c = Ret false.
Proof. exists [1; 2; 1; 3]%nat, 2%nat. split; [cbn; lia|reflexivity]. Qed.
Example C54_case : is_subcycle Nat.eqb [3; 1]%nat [1; 2; 3]%nat = Ret true /\ is_subcycle Nat.eqb [3; 2; 1]%nat [1; 2; 3]%nat = Ret false /\
  cycle_pairs Nat.eqb [1; 2; 3]%nat None (Some 2%nat) = Ret [(2, 3); (3, 1); (1, 2)]%nat.
Proof. repeat split. Qed.

(** ** C75 *)
(** whatever was added, in whatever order and with whatever failures: names lead to the last
    node with that name, edges join existing nodes, nodes start empty, amount edges start with
    their full capacity, and the graph is either all amounts or all connections *)
Theorem C75_invariant : forall l,
  (forall t n, node_by_tkn (build l) t = Ret n <-> last_named (build l) t n) /\
  (forall t, (forall n, name (build l) n <> Some t) -> node_by_tkn (build l) t = Raise KeyError) /\
  linked (build l) /\ (forall n, node_amount (build l) n = 0) /\
  (positive (build l) \/ Forall (fun e => e_ain e < 0) (g_edges (build l))) /\
  (positive (build l) -> forall e, In e (g_edges (build l)) -> e_rem e = Some (e_ain e)).
Proof.
  intros l. split; [exact (build_index l)|]. split; [exact (build_unknown l)|]. split; [exact (build_linked l)|]. split; [exact (build_fresh l)|]. split; [exact (build_kind l)|].
  intros P e. apply build_capacity. exact P.
Qed.
(** every call only appends *)
Theorem C75_appends : forall l c, (exists ns, g_nodes (do_call (build l) c) = g_nodes (build l) ++ ns) /\ (exists es, g_edges (do_call (build l) c) = g_edges (build l) ++ es).
Proof. exact build_keeps. Qed.
(** names are unique as long as nodes come from edges only; adding nodes can repeat a name *)
Theorem C75_unique : forall l, Forall no_add_node l -> NoDup (map n_tkn (g_nodes (build l))).
Proof. intros l. apply build_inv. Qed.
Theorem C75_unique_refuted : exists l, ~ NoDup (map n_tkn (g_nodes (build l))).
Proof. exists [CNode "A"; CNode "A"]. cbn. intros H. inversion H as [|? ? N _]. apply N. left. reflexivity. Qed.
(** adding an edge to an amount graph appends exactly that edge between the named nodes *)
Theorem C75_add_edge : forall l ti ai to ao inv uid, positive (build l) -> 0 < ai -> 0 < ao ->
  exists g' e, add_edge (build l) ti ai to ao inv uid = (g', None) /\ g_edges g' = g_edges (build l) ++ [e] /\ leads g' e ti to /\
    fixed_part e = (e_in e, ai, e_out e, ao, inv, uid) /\ e_rem e = Some ai /\ positive g'.
Proof.
  intros l ti ai to ao inv uid P A B. destruct (add_edge_exact (build l) ti ai to ao inv uid (proj1 (build_inv l)) A B P) as (g' & e & H1 & H2 & H3 & H4 & H5 & _ & H6). exists g', e. auto 8.
Qed.
(** amounts must be positive; an amount edge in a connection graph is refused, but only after
    its nodes have been added *)
Theorem C75_add_edge_refused : forall l ti ai to ao inv uid,
  (ai <= 0 \/ ao <= 0 -> add_edge (build l) ti ai to ao inv uid = (build l, Some AssertionError)) /\
  (0 < ai -> 0 < ao -> (exists f, In f (g_edges (build l)) /\ e_ain f < 0) ->
    exists g', add_edge (build l) ti ai to ao inv uid = (g', Some ValueError) /\ g_edges g' = g_edges (build l) /\ (exists i, node_by_tkn g' ti = Ret i) /\ (exists o, node_by_tkn g' to = Ret o)).
Proof. intros l ti ai to ao inv uid. split; [apply add_edge_bad|apply add_edge_mixed; apply build_inv]. Qed.
(** a trade is an edge from the token received to the token paid; trades that move both tokens
    in one direction are errors, but vanish when the product is small *)
Theorem C75_trade : forall g tx dx ty dy inv uid,
  (0 < dx -> dy < 0 -> add_edge_dxdy g tx dx ty dy inv uid = add_edge g tx dx ty (- dy) inv uid) /\
  (dx < 0 -> 0 < dy -> add_edge_dxdy g tx dx ty dy inv uid = add_edge g ty dy tx (- dx) inv uid) /\
  (0 <= dx * dy -> / 10 ^ 8 < dx * dy -> add_edge_dxdy g tx dx ty dy inv uid = (g, Some ValueError)) /\
  (0 <= dx * dy <= / 10 ^ 8 -> add_edge_dxdy g tx dx ty dy inv uid = (g, None)).
Proof.
  intros g tx dx ty dy inv uid. split; [apply dxdy_in|]. split; [apply dxdy_out|]. split.
  - intros A B. rewrite dxdy_same by exact A. unfold EPSDXDY. rewrite rlt_true by exact B. reflexivity.
  - intros A. rewrite dxdy_same by apply A. unfold EPSDXDY. rewrite rlt_false by apply A. reflexivity.
Qed.
(** a list of trades: the edges take from each token what the trades say *)
Theorem C75_trades : forall l, Forall (fun x => let '(_, dx, _, dy, _) := x in dx * dy < 0 \/ dx = 0 /\ dy = 0) l ->
  exists g, from_ccdxdy empty_graph l true = (g, None) /\ positive g /\ forall t, net g t = asked l t.
Proof.
  intros l F. destruct (ccdxdy_net l empty_graph empty_inv ltac:(constructor) F) as (g & A & B & C). exists g. split; [exact A|]. split; [exact B|]. intros t. rewrite C. unfold net. cbn. ring.
Qed.
(** a symmetric connection adds an edge and its counterpart at the reciprocal price *)
Theorem C75_connection : forall l ti to p w uid, 0 < w -> 0 < p -> Forall (fun e => e_ain e < 0) (g_edges (build l)) ->
  exists g' e1 e2, add_edge_connection (build l) ti to None false (Some p) (Some w) true uid = (g', None) /\ g_edges g' = g_edges (build l) ++ [e1; e2] /\
    leads g' e1 ti to /\ leads g' e2 to ti /\ e_price_outperin e1 = Ret p /\ e_price_outperin e2 = Ret (1 / p) /\ e_price e1 None = Ret p /\ e_price e2 None = Ret p /\ e_ain e1 = - w /\ e_ain e2 = - w /\
    e_uid e1 = Some (match uid with Some u => u | None => "None" end)%string /\ e_uid e2 = Some (match uid with Some u => u | None => "None" end ++ "-r")%string.
Proof.
  intros l ti to p w uid Hw Hp P. destruct (connection_exact (build l) ti to p w uid (proj1 (build_inv l)) Hw Hp P) as (g' & e1 & e2 & A & B & C & D & E & F & G & H & I & J & _ & _ & U1 & U2). exists g', e1, e2. auto 14.
Qed.
(** a list of pools: two edges each, at the pool's price and its reciprocal *)
Theorem C75_pools : forall l pools uid, Forall (fun x => CpcSpec.pool_ok (fst x)) pools -> Forall (fun e => e_ain e < 0) (g_edges (build l)) ->
  exists g' es, add_edges_cpc (build l) pools uid = (g', None) /\ g_edges g' = g_edges (build l) ++ es /\ List.length es = (2 * List.length pools)%nat /\
    forall c cid, In (c, cid) pools -> exists e1 e2, In e1 es /\ In e2 es /\ name g' (e_in e1) = Some (CpcModel.tknx c) /\ name g' (e_out e1) = Some (CpcModel.tkny c) /\
      e_in e2 = e_out e1 /\ e_out e2 = e_in e1 /\ e_price_outperin e1 = Ret (CpcModel.p c) /\ e_price_outperin e2 = Ret (1 / CpcModel.p c) /\
      e_uid e1 = Some (match uid with Some u => u | None => cid end) /\ e_uid e2 = Some (match uid with Some u => u | None => cid end ++ "-r")%string.
Proof.
  intros l pools uid P Q. destruct (cpc_exact uid pools (build l) (proj1 (build_inv l)) P Q) as (g' & es & A & B & C & _ & D). exists g', es. auto.
Qed.
Definition ex_calls : list call := [CEdge "A" 10 "B" 20 false None; CEdge "B" 5 "C" 10 false None; CEdge "C" (-1) "A" 1 false None; CDxdy "C" 40 "A" (-30) false None].
Example C75_case : g_edges (build ex_calls) = [edge_make 0 10 1 20 false None; edge_make 1 5 2 10 false None; edge_make 2 40 0 (- -30) false None] /\ Forall no_add_node ex_calls.
Proof.
  split; [|repeat constructor]. unfold build, ex_calls. cbn [fold_left]. set (is := [("A"%string, 0%nat); ("B"%string, 1%nat); ("C"%string, 2%nat)]).
  set (e1 := edge_make 0 10 1 20 false None). set (e2 := edge_make 1 5 2 10 false None). set (e3 := edge_make 2 40 0 (- -30) false None).
  assert (A1 : is_amount e1 = true) by (unfold is_amount; cbn; rewrite rlt_false by lra; reflexivity). assert (A2 : is_amount e2 = true) by (unfold is_amount; cbn; rewrite rlt_false by lra; reflexivity).
  assert (A3 : is_amount e3 = true) by (unfold is_amount; cbn; rewrite rlt_false by lra; reflexivity).
  assert (E1 : do_call empty_graph (CEdge "A" 10 "B" 20 false None) = mkGraph [new_node "A"; new_node "B"] [("A"%string, 0%nat); ("B"%string, 1%nat)] [e1] false).
  { unfold do_call, add_edge. rewrite !(rlt_true 0) by lra. reflexivity. }
  rewrite E1. assert (E2 : do_call (mkGraph [new_node "A"; new_node "B"] [("A"%string, 0%nat); ("B"%string, 1%nat)] [e1] false) (CEdge "B" 5 "C" 10 false None) = mkGraph [new_node "A"; new_node "B"; new_node "C"] is [e1; e2] false).
  { unfold do_call, add_edge. rewrite !(rlt_true 0) by lra. cbn -[is_amount e1 edge_make]. unfold add_edge_obj, g_is_amount. cbn -[is_amount e1 edge_make]. fold e2. rewrite A1, A2. reflexivity. }
  rewrite E2. assert (E3 : do_call (mkGraph [new_node "A"; new_node "B"; new_node "C"] is [e1; e2] false) (CEdge "C" (-1) "A" 1 false None) = mkGraph [new_node "A"; new_node "B"; new_node "C"] is [e1; e2] false).
  { unfold do_call, add_edge. rewrite rlt_false by lra. reflexivity. }
  rewrite E3. unfold do_call, add_edge_dxdy. rewrite rlt_true by lra. cbn [negb]. rewrite rlt_true by lra. unfold add_edge. rewrite !(rlt_true 0) by lra.
  cbn -[is_amount e1 e2 edge_make]. unfold add_edge_obj, g_is_amount. cbn -[is_amount e1 e2 edge_make]. fold e3. rewrite A1, A3. reflexivity.
Qed.

(** ** C76 *)
(** edges add up when they join the same nodes in the same direction and are of one kind *)
Theorem C76_add : forall e f,
  ((e_in e = e_in f /\ e_out e = e_out f /\ is_amount e = is_amount f) -> exists s, e_add e f = Ret s /\ e_ain s = e_ain e + e_ain f /\ e_aout s = e_aout e + e_aout f /\
     e_in s = e_in e /\ e_out s = e_out e /\ e_inv s = e_inv e /\ e_uid s = None) /\
  (forall s, e_add e f = Ret s -> e_in e = e_in f /\ e_out e = e_out f /\ is_amount e = is_amount f).
Proof.
  intros e f. split; [|apply e_add_only]. intros (A & B & C). eexists. split; [apply e_add_spec; assumption|]. repeat split.
Qed.
(** the sum of any number of amount edges; its price lies between the smallest and the largest *)
Theorem C76_sum : forall i o e l m M, Forall (fun f => 0 < e_ain f /\ 0 < e_aout f /\ e_in f = i /\ e_out f = o /\ m <= e_aout f / e_ain f <= M) (e :: l) ->
  exists s p, e_sum (e :: l) = Ret (Some s) /\ e_in s = i /\ e_out s = o /\ e_ain s = summed (map e_ain (e :: l)) /\ e_aout s = summed (map e_aout (e :: l)) /\
  e_rem s = Some (e_ain s) /\ e_price_outperin s = Ret p /\ m <= p <= M.
Proof.
  intros i o e l m M F. destruct (e_sum_spec true i o e l) as (s & E & K & A & B & S1 & S2 & _ & _ & R0); [eapply Forall_impl; [|exact F]; cbn; tauto|].
  cbn in K. exists s, (e_aout s / e_ain s). repeat (split; [assumption|]). split; [unfold e_price_outperin, e_price; rewrite rdiv_ok by lra; reflexivity|].
  rewrite S1, S2. apply mediant; [eapply Forall_impl; [|exact F]; cbn; tauto|discriminate].
Qed.
(** scaling keeps the price; reversing inverts it; reversing twice is a fresh copy *)
Theorem C76_scale : forall e r, (0 < r -> exists f, e_mul e r = Ret f /\ e_ain f = e_ain e * r /\ e_aout f = e_aout e * r /\ e_in f = e_in e /\ e_out f = e_out e /\
    e_price_outperin f = e_price_outperin e /\ is_amount f = is_amount e) /\ (r <= 0 -> e_mul e r = Raise AssertionError).
Proof. intros e r. split; [apply e_mul_spec|apply e_mul_bad]. Qed.
Theorem C76_reverse : forall e, e_ain e <> 0 -> e_aout e <> 0 ->
  (exists p, e_price_outperin e = Ret p /\ e_price_outperin (e_reverse e) = Ret (1 / p) /\ e_price (e_reverse e) None = e_price e None) /\
  e_reverse (e_reverse e) = edge_make (e_in e) (e_ain e) (e_out e) (e_aout e) (e_inv e) None /\ e_convention (e_reverse e) None = e_convention e None.
Proof.
  intros e A B. split; [apply reverse_price; assumption|]. split; [apply reverse_twice|]. unfold e_convention, e_reverse. cbn. destruct (e_inv e); reflexivity.
Qed.
(** a consolidated duplicate has one edge per pair of different nodes with the same totals,
    no loops, the same names, and empty nodes *)
Theorem C76_consolidated : forall l, Forall no_add_node l -> exists g', duplicate (build l) true = Ret g' /\
  map n_tkn (g_nodes g') = map n_tkn (g_nodes (build l)) /\ (forall t, node_by_tkn g' t = node_by_tkn (build l) t) /\ (forall n, node_amount g' n = 0) /\
  (forall i o, i <> o -> total e_ain g' i o = total e_ain (build l) i o /\ total e_aout g' i o = total e_aout (build l) i o /\ (count g' i o <= 1)%nat) /\
  (forall e, In e (g_edges g') -> e_in e <> e_out e /\ has_edge (build l) (e_in e, e_out e)) /\
  (positive (build l) -> positive g' /\ Forall (fun e => e_rem e = Some (e_ain e)) (g_edges g')).
Proof.
  intros l H. destruct (build_inv l) as [W U]. destruct (dup_consolidated (build l) W (U H)) as (g' & A & B & C & D & E & F & G & _). exists g'. auto 8.
Qed.
(** a plain duplicate keeps all edges but loses the inverse flag *)
Theorem C76_plain : forall l, Forall no_add_node l -> exists g', duplicate (build l) false = Ret g' /\ map n_tkn (g_nodes g') = map n_tkn (g_nodes (build l)) /\
  (forall t, node_by_tkn g' t = node_by_tkn (build l) t) /\ (forall n, node_amount g' n = 0) /\
  map fixed_part (g_edges g') = map (fun e => (e_in e, e_ain e, e_out e, e_aout e, false, e_uid e)) (g_edges (build l)) /\
  (positive (build l) -> Forall (fun e => e_rem e = Some (e_ain e)) (g_edges g')).
Proof.
  intros l H. destruct (build_inv l) as [W U]. destruct (dup_plain (build l) W (U H)) as (g' & A & B & C & D & E & F & _). exists g'. auto 8.
Qed.
(** nothing can be added to a duplicate *)
Theorem C76_duplicate_closed : forall l c g', Forall no_add_node l -> positive (build l) -> duplicate (build l) c = Ret g' ->
  (forall t, add_node g' t = (g', Some AttributeError)) /\
  (forall ti ai to ao inv uid, 0 < ai -> 0 < ao -> add_edge g' ti ai to ao inv uid = (g', Some AttributeError)).
Proof.
  intros l c g' H P D. destruct (build_inv l) as [W U]. assert (X : g_fixed g' = true /\ positive g').
  { destruct c.
    - destruct (dup_consolidated (build l) W (U H)) as (g1 & A & _ & _ & _ & _ & _ & G & F). rewrite D in A. injection A as ->. split; [exact F|apply G; exact P].
    - destruct (dup_plain (build l) W (U H)) as (g1 & A & _ & _ & _ & G & _ & F). rewrite D in A. injection A as ->. split; [exact F|].
      unfold positive in *. rewrite Forall_forall in *. intros e He. apply (in_map fixed_part) in He. rewrite G in He. apply in_map_iff in He as (f & Ef & Hf). specialize (P f Hf). unfold fixed_part in Ef. injection Ef as _ E1 _ E2 _ _. lra. }
  destruct X as [X1 X2]. split; [intros t; apply fixed_node; exact X1|intros; apply fixed_edge; assumption].
Qed.
Example C76_case : exists s, e_sum [ex_edge 0 10 1 20; ex_edge 0 30 1 30] = Ret (Some s) /\ e_ain s = 40 /\ e_aout s = 50.
Proof.
  destruct (e_sum_spec true 0 1 (ex_edge 0 10 1 20) [ex_edge 0 30 1 30]) as (s & E & _ & _ & _ & S1 & S2 & _); [repeat constructor; cbn; lra|]. exists s. split; [exact E|]. rewrite S1, S2. unfold summed. cbn. lra.
Qed.

(** ** C77 *)
(** a recorded transport between two nodes that the remaining capacities and the balance
    allow: every edge gives the same fraction of what it has left, and the nodes change by
    the amount and by its value at the average price of the remaining capacities *)
Theorem C77_pro_rata : forall g ti to i o v re, linked g -> node_by_tkn g ti = Ret i -> node_by_tkn g to = Ret o -> i <> o ->
  (forall e, In e (g_edges g) -> e_in e = i -> e_out e = o -> 0 < e_ain e /\ 0 <= GraphSpec.rem e <= e_ain e) ->
  0 < total GraphSpec.rem g i o -> 0 <= v <= total GraphSpec.rem g i o -> v <= node_amount g i ->
  exists g' r, graph_transport g (Num v) ti to true re = (g', Ret r) /\
    fst (fst r) = v * (total (fun e => GraphSpec.rem e * (e_aout e / e_ain e)) g i o / total GraphSpec.rem g i o) /\
    summed (snd (fst r)) = v /\ summed (snd r) = fst (fst r) /\ same_graph g g' /\ linked g' /\
    (forall p, remaining g' p = if match nth_error (g_edges g) p with Some e => Nat.eqb (e_in e) i && Nat.eqb (e_out e) o | None => false end
                                then remaining g p * (1 - v / total GraphSpec.rem g i o) else remaining g p) /\
    node_amount g' i = node_amount g i - v /\ node_amount g' o = node_amount g o + fst (fst r) /\ (forall n, n <> i -> n <> o -> node_amount g' n = node_amount g n).
Proof. exact transport_graph. Qed.
(** it cannot succeed beyond the balance, nor when nothing is left *)
Theorem C77_limits : forall g ti to i o v g' r, linked g -> node_by_tkn g ti = Ret i -> node_by_tkn g to = Ret o -> i <> o ->
  graph_transport g (Num v) ti to true true = (g', Ret r) -> v <= node_amount g i + EPS /\ total GraphSpec.rem g i o <> 0.
Proof. exact transport_graph_ret. Qed.
(** without recording nothing changes; amounts as arguments are not supported; without an edge
    there is an error *)
Theorem C77_forms : forall g ti to re,
  (forall o g' r, graph_transport g o ti to false re = (g', r) -> g' = g) /\
  (forall i o a rc, node_by_tkn g ti = Ret i -> node_by_tkn g to = Ret o -> graph_transport g (Am a) ti to rc re = (g, Raise AttributeError)) /\
  (forall i o v rc, node_by_tkn g ti = Ret i -> node_by_tkn g to = Ret o -> ~ has_edge g (i, o) -> graph_transport g (Num v) ti to rc re = (g, Raise ValueError)).
Proof.
  intros g ti to re. split; [intros o g' r; apply transport_graph_un|]. split; intros i o; intros x rc Hi Ho; unfold graph_transport; rewrite Hi, Ho; [reflexivity|].
  intros N. destruct (edges_between g (Some i) (Some o)) eqn:E; [reflexivity|]. exfalso. apply N. apply edges_between_ne. cbn [fst snd]. rewrite E. discriminate.
Qed.
Example C77_case : exists g' r, graph_transport ex_graph (Num 4) "A" "B" true true = (g', Ret r) /\ fst (fst r) = 8 /\ remaining g' 0 = 6 /\ node_amount g' 0 = 26.
Proof.
  assert (T : total GraphSpec.rem ex_graph 0 1 = 10) by (unfold total; cbn; lra).
  destruct (transport_graph ex_graph "A" "B" 0 1 4 true ex_linked eq_refl eq_refl) as (g' & r & E & F & _ & _ & _ & _ & G & H & _); try (rewrite T); try lra; try lia.
  - intros e [<-|[<-|[<-|[]]]] A B; cbn in *; try discriminate; lra.
  - cbn. lra.
  - exists g', r. split; [exact E|]. split; [rewrite F, T; unfold total; cbn; lra|]. rewrite G, H, T. cbn. lra.
Qed.

(** ** C78 *)
(** the price along a chain of nodes is the product of the average edge prices *)
Theorem C78_product : forall g l, Forall (fun e => e_ain e <> 0) (g_edges g) -> Forall (has_edge g) l ->
  ptransport g l = Ret (Some (product (map (avg_price g) l)), map (fun p => Some (avg_price g p)) l, map (fun p => count g (fst p) (snd p)) l).
Proof. intros g l Z H. unfold ptransport. rewrite pt_some by assumption. rewrite Rmult_1_l. reflexivity. Qed.
(** a missing step makes the result undefined, silently *)
Theorem C78_missing : forall g l, Forall (fun e => e_ain e <> 0) (g_edges g) -> Exists (fun p => ~ has_edge g p) l ->
  exists pl nl, ptransport g l = Ret (None, pl, nl) /\ List.length pl = List.length l /\ nl = map (fun p => count g (fst p) (snd p)) l.
Proof. intros g l Z H. apply pt_none; auto. Qed.
(** when the edges are fairly priced, the price between two nodes does not depend on the path,
    and every cycle returns what was put in *)
Theorem C78_no_arbitrage : forall g V, fair g V ->
  (forall a l, Forall (has_edge g) (pair_up (a :: l)) -> exists pl nl, (let* prs := path_pairs (a :: l) in ptransport g prs) = Ret (Some (V a / V (last l a)), pl, nl)) /\
  (forall d n l, (n < List.length d)%nat -> cycle_pairs Nat.eqb d (Some (Z.of_nat n)) None = Ret l -> Forall (has_edge g) l -> exists pl nl, ptransport g l = Ret (Some 1, pl, nl)).
Proof. intros g V H. split; [intros a l; apply pt_fair; exact H|intros d n l; apply (pt_cycle g V); exact H]. Qed.
(** so the price reported by the graph is the same whichever path the search finds *)
(** no path: the first step of an empty path cannot be taken *)
Theorem C78_no_path : forall g path b q, path b q = [] -> b <> q -> g_is_amount g <> Some true -> graph_price g path b q = Raise RuntimeError.
Proof. intros g path b q E N A. unfold graph_price. rewrite E, (proj2 (Nat.eqb_neq b q) N). destruct (g_is_amount g) as [[|]|]; [congruence|reflexivity|reflexivity]. Qed.
Print Assumptions C78_no_path.
Theorem C78_price : forall g V path b q l, fair g V -> g_is_amount g <> Some true -> b <> q -> path b q = b :: l -> last l b = q -> Forall (has_edge g) (pair_up (b :: l)) ->
  graph_price g path b q = Ret (Some (V b / V q)).
Proof.
  intros g V path b q l HV G D P L H. unfold graph_price. destruct (g_is_amount g) as [[|]|]; [congruence| |]; rewrite (proj2 (Nat.eqb_neq b q) D), P;
  destruct (pt_fair g V b l HV H) as (pl & nl & E); cbn [path_pairs rbind] in *; rewrite E, L; reflexivity.
Qed.
Definition ex_fair : graph := mkGraph [new_node "A"; new_node "B"; new_node "C"] [] [mkEdge 0 (-1) 1 (-2) false None None; mkEdge 1 (-1) 2 (-3) false None None; mkEdge 2 (-1) 0 (- (1 / 6)) false None None] false.
Example C78_case : fair ex_fair (fun n => match n with 0%nat => 6 | 1%nat => 3 | _ => 1 end) /\ Forall (has_edge ex_fair) [(0, 1); (1, 2); (2, 0)]%nat /\
  cycle_pairs Nat.eqb [0; 1; 2]%nat (Some 0%Z) None = Ret [(0, 1); (1, 2); (2, 0)]%nat.
Proof.
  split; [|split; [|reflexivity]].
  - split; [intros [|[|n]]; lra|]. repeat constructor; cbn; lra.
  - repeat constructor; [exists (mkEdge 0 (-1) 1 (-2) false None None)|exists (mkEdge 1 (-1) 2 (-3) false None None)|exists (mkEdge 2 (-1) 0 (- (1 / 6)) false None None)]; cbn; auto.
Qed.

(** ** C79 *)
(** amounts at different nodes never mix *)
Theorem C79_amounts : forall a b,
  (a_node a = a_node b /\ am_add a (Am b) = Ret (mkAmount (a_val a + a_val b) (a_node a)) /\ am_sub a (Am b) = Ret (mkAmount (a_val a - a_val b) (a_node a)) /\
     am_lt a (Am b) = Ret (rlt (a_val a) (a_val b)) /\ am_ge a (Am b) = Ret (rle (a_val b) (a_val a)) /\ (a_val b <> 0 -> am_div a (Am b) = Ret (Num (a_val a / a_val b)))) \/
  (a_node a <> a_node b /\ am_add a (Am b) = Raise ValueError /\ am_sub a (Am b) = Raise ValueError /\ am_lt a (Am b) = Raise ValueError /\ am_le a (Am b) = Raise ValueError /\
     am_gt a (Am b) = Raise ValueError /\ am_ge a (Am b) = Raise ValueError /\ am_div a (Am b) = Raise ValueError).
Proof. exact am_guard. Qed.
(** numbers scale amounts but are never added to them, on either side; so sum() always fails *)
Theorem C79_numbers : forall a r, am_add a (Num r) = Raise ValueError /\ am_sub a (Num r) = Raise ValueError /\ am_radd a (Num r) = Raise ValueError /\ am_rsub a (Num r) = Raise ValueError /\
  am_mul a (Num r) = Ret (mkAmount (a_val a * r) (a_node a)) /\ (r <> 0 -> am_div a (Num r) = Ret (Am (mkAmount (a_val a / r) (a_node a)))) /\ forall b, am_mul a (Am b) = Raise ValueError.
Proof. exact am_number. Qed.
(** with the amount on the right of the operator: the other operand comes first *)
Theorem C79_reflected : forall a b,
  (a_node a = a_node b -> am_radd a (Am b) = Ret (mkAmount (a_val b + a_val a) (a_node b)) /\ am_rsub a (Am b) = Ret (mkAmount (a_val b - a_val a) (a_node b))) /\
  (a_node a <> a_node b -> am_radd a (Am b) = Raise ValueError /\ am_rsub a (Am b) = Raise ValueError) /\
  am_rmul a (Am b) = Raise ValueError /\ forall r, am_rmul a (Num r) = Ret (mkAmount (r * a_val a) (a_node a)).
Proof.
  intros a b. unfold am_radd, am_rsub, am_rmul, am_add, am_mul, am_neg. cbn [a_node a_val]. split; [|split; [|split; [reflexivity|]]].
  - intros E. rewrite E, Nat.eqb_refl. split; do 2 f_equal; ring.
  - intros N. apply Nat.eqb_neq in N. rewrite N. auto.
  - intros r. do 2 f_equal. ring.
Qed.
Theorem C79_sum : forall a l, am_sum (a :: l) = Raise ValueError.
Proof. exact am_sum_bad. Qed.
(** comparisons at one node agree with each other *)
Theorem C79_order : forall a b, (exists x, am_lt a (Am b) = Ret x /\ am_ge a (Am b) = Ret (negb x) /\ am_gt b (Am a) = Ret x /\ am_le b (Am a) = Ret (negb x)) \/ a_node a <> a_node b.
Proof. exact am_order. Qed.
(** negative and absolute amounts stay at their node *)
Theorem C79_sign : forall a, a_node (am_neg a) = a_node a /\ a_node (am_abs a) = a_node a /\ a_val (am_neg a) + a_val a = 0 /\
  0 <= a_val (am_abs a) /\ (a_val (am_abs a) = a_val a \/ a_val (am_abs a) = a_val (am_neg a)).
Proof.
  intros [v n]. cbn. split; [reflexivity|]. split; [reflexivity|]. split; [ring|]. split; [apply Rabs_pos|]. unfold Rabs. destruct (Rcase_abs v); auto.
Qed.
(** a tracked value remembers everything it was set to *)
Theorem C79_history : forall v l, let t := fold_left (fun t x => t_set t (Some x)) l (t_new (Some v)) in t_hist t = v :: l /\ t_value t = last l v.
Proof. exact tracked_history. Qed.
(** resetting restores the state of a new graph; the starting amount given to a node is ignored *)
Theorem C79_reset : forall g, same_graph g (reset_state g) /\ (forall n, node_amount (reset_state g) n = 0) /\
  (forall n, (n < List.length (g_nodes g))%nat -> history (reset_state g) n = [0]) /\ (forall e, In e (g_edges (reset_state g)) -> e_rem e = if rlt (e_ain e) 0 then None else Some (e_ain e)) /\
  (forall n a, t_value (n_amount (n_reset n a)) = 0).
Proof. intros g. destruct (reset_spec g) as (A & B & C & D). repeat (split; [assumption|]). reflexivity. Qed.
(** capacity is reported exactly when some edge has more than the tolerance left *)
Theorem C79_capacity : forall g ti to i o, linked g -> positive g -> node_by_tkn g ti = Ret i -> node_by_tkn g to = Ret o ->
  exists b, has_capacity g (Some ti) (Some to) = Ret b /\ (b = true <-> exists e, In e (g_edges g) /\ e_in e = i /\ e_out e = o /\ EPS < GraphSpec.rem e).
Proof. exact has_capacity_spec. Qed.
(** the statistics are the totals, their ratio, and the used part of the capacity *)
Theorem C79_statistics : forall g i o, linked g -> positive g -> has_edge g (i, o) ->
  exists st, edge_statistics g (Some i) (Some o) = Ret (Some st) /\ s_len st = count g i o /\ s_in st = total e_ain g i o /\ s_rem st = total GraphSpec.rem g i o /\ s_out st = total e_aout g i o /\
   s_price st = exchange g (i, o) /\ s_util st = Some (1 - total GraphSpec.rem g i o / total e_ain g i o) /\
   s_prices st = map (fun e => e_aout e / e_ain e) (edges_between g (Some i) (Some o)) /\ s_utils st = map (fun e => 1 - GraphSpec.rem e / e_ain e) (edges_between g (Some i) (Some o)).
Proof. exact stats_spec. Qed.
(** for one node: what its incoming edges pay out, what its outgoing edges take in, and what is left of the latter *)
Theorem C79_node : forall g t n, linked g -> positive g -> node_by_tkn g t = Ret n ->
  node_statistics g t = Ret (total_of (fun e => Nat.eqb (e_out e) n) e_aout g, total_of (fun e => Nat.eqb (e_in e) n) e_ain g, total_of (fun e => Nat.eqb (e_in e) n) GraphSpec.rem g).
Proof. exact node_stats. Qed.
Example C79_node_case : node_by_tkn ex_graph "B" = Ret 1%nat /\ total_of (fun e => Nat.eqb (e_out e) 1) e_aout ex_graph = 20 /\ total_of (fun e => Nat.eqb (e_in e) 1) e_ain ex_graph = 5.
Proof. unfold total_of. cbn. repeat split; lra. Qed.
Example C79_case : has_edge ex_graph (0, 1)%nat /\ linked ex_graph /\ positive ex_graph /\ exchange ex_graph (0, 1)%nat = 2.
Proof. split; [exists (ex_edge 0 10 1 20); cbn; auto|]. split; [exact ex_linked|]. split; [exact ex_positive|]. unfold exchange, capacity, total. cbn. lra. Qed.

Print Assumptions C52_result.
Print Assumptions C52_product.
Print Assumptions C52_capacity.
Print Assumptions C52_steps.
Print Assumptions C52_failures.
Print Assumptions C52_capacity_refuted.
Print Assumptions C53_success.
Print Assumptions C53_failure.
Print Assumptions C53_forms.
Print Assumptions C53_ledger.
Print Assumptions C53_atomic_refuted.
Print Assumptions C54_items.
Print Assumptions C54_start_value.
Print Assumptions C54_pairs.
Print Assumptions C54_pairs_once.
Print Assumptions C54_empty.
Print Assumptions C54_subcycle.
Print Assumptions C54_filter.
Print Assumptions C54_order.
Print Assumptions C54_rotation_refuted.
Print Assumptions C75_invariant.
Print Assumptions C75_appends.
Print Assumptions C75_unique.
Print Assumptions C75_unique_refuted.
Print Assumptions C75_add_edge.
Print Assumptions C75_add_edge_refused.
Print Assumptions C75_trade.
Print Assumptions C75_trades.
Print Assumptions C75_connection.
Print Assumptions C75_pools.
Print Assumptions C76_add.
Print Assumptions C76_sum.
Print Assumptions C76_scale.
Print Assumptions C76_reverse.
Print Assumptions C76_consolidated.
Print Assumptions C76_plain.
Print Assumptions C76_duplicate_closed.
Print Assumptions C77_pro_rata.
Print Assumptions C77_limits.
Print Assumptions C77_forms.
Print Assumptions C78_product.
Print Assumptions C78_missing.
Print Assumptions C78_no_arbitrage.
Print Assumptions C78_price.
Print Assumptions C79_amounts.
Print Assumptions C79_numbers.
Print Assumptions C79_reflected.
Print Assumptions C79_sum.
Print Assumptions C79_order.
Print Assumptions C79_sign.
Print Assumptions C79_history.
Print Assumptions C79_reset.
Print Assumptions C79_capacity.
Print Assumptions C79_statistics.
Print Assumptions C79_node.
