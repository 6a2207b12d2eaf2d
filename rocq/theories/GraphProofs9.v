(** Prices along paths, states, statistics, amounts; the arbitrage calculation as a whole. *)
From Coq Require Import Reals Lra Bool String List ZArith Arith Lia.
From Verif Require Import CurveModel CurveProofs GraphModel GraphSpec GraphProofs GraphProofs2 GraphProofs3 GraphProofs4 GraphProofs5 GraphProofs7.
Import ListNotations.
Local Open Scope R_scope.

(** ** prices along paths *)
Lemma prices_ok es : Forall (fun e => e_ain e <> 0) es -> prices es = Ret (map (fun e => e_aout e / e_ain e) es).
Proof. induction 1 as [|e es H _ IH]; [reflexivity|]. cbn [prices map]. unfold e_price_outperin, e_price. cbn match. rewrite rdiv_ok by exact H. cbn [rbind]. rewrite IH. reflexivity. Qed.
Lemma between_len g i o : INR (List.length (edges_between g (Some i) (Some o))) = total (fun _ => 1) g i o.
Proof.
  rewrite <- edges_total. induction (edges_between g _ _) as [|e l IH]; [reflexivity|]. cbn [map]. rewrite rsum_summed in *. unfold summed in *. cbn [fold_right]. rewrite <- IH. cbn [List.length].
  rewrite S_INR. ring.
Qed.
Lemma between_count g i o : List.length (edges_between g (Some i) (Some o)) = count g i o. Proof. reflexivity. Qed.
Lemma pt_some g : Forall (fun e => e_ain e <> 0) (g_edges g) -> forall l m, Forall (has_edge g) l ->
  ptransport_n g (Some m) l = Ret (Some (m * product (map (avg_price g) l)), map (fun p => Some (avg_price g p)) l, map (fun p => count g (fst p) (snd p)) l).
Proof.
  intros Z. induction l as [|[i o] l IH]; intros m H; [cbn; rewrite Rmult_1_r; reflexivity|]. inversion H as [|? ? H1 H2]; subst. cbn [ptransport_n].
  assert (F : Forall (fun e => e_ain e <> 0) (edges_between g (Some i) (Some o))). { apply Forall_forall. intros e He. apply edges_between_in in He as [He _]. rewrite Forall_forall in Z. auto. }
  rewrite prices_ok by exact F. cbn [rbind].
  assert (M : mean (map (fun e => e_aout e / e_ain e) (edges_between g (Some i) (Some o))) = Some (avg_price g (i, o))).
  { unfold avg_price. cbn [fst snd]. rewrite <- between_len, <- edges_total. apply edges_between_ne in H1. cbn [fst snd] in H1. unfold mean. rewrite map_length. destruct (edges_between g (Some i) (Some o)); [congruence|]. reflexivity. }
  rewrite M, IH by exact H2. cbn [map product fold_right fst snd]. rewrite between_count, <- Rmult_assoc. reflexivity.
Qed.
Lemma pt_none g : Forall (fun e => e_ain e <> 0) (g_edges g) -> forall l m, m = None \/ Exists (fun p => ~ has_edge g p) l ->
  exists pl nl, ptransport_n g m l = Ret (None, pl, nl) /\ List.length pl = List.length l /\ nl = map (fun p => count g (fst p) (snd p)) l.
Proof.
  intros Z. induction l as [|[i o] l IH]; intros m H.
  - exists [], []. destruct H as [->|H]; [auto|inversion H].
  - cbn [ptransport_n].
    assert (F : Forall (fun e => e_ain e <> 0) (edges_between g (Some i) (Some o))). { apply Forall_forall. intros e He. apply edges_between_in in He as [He _]. rewrite Forall_forall in Z. auto. }
    rewrite prices_ok by exact F. cbn [rbind]. set (mm := mean _). set (m' := match m with Some a => _ | None => None end).
    assert (H' : m' = None \/ Exists (fun p => ~ has_edge g p) l).
    { unfold m'. destruct H as [->|H]; [auto|]. inversion H as [? ? N|? ? N]; subst; [|auto]. left. assert (E : edges_between g (Some i) (Some o) = []).
      { destruct (edges_between g (Some i) (Some o)) eqn:E; [reflexivity|]. exfalso. apply N. apply edges_between_ne. cbn [fst snd]. rewrite E. discriminate. }
      unfold mm. rewrite E. cbn. destruct m; reflexivity. }
    destruct (IH m' H') as (pl & nl & E & L1 & L2). rewrite E. do 2 eexists. split; [reflexivity|]. split; [cbn; rewrite L1; reflexivity|]. cbn [map]. rewrite L2. reflexivity.
Qed.
Lemma avg_fair g V p : fair g V -> has_edge g p -> avg_price g p = V (fst p) / V (snd p).
Proof.
  intros [HV F] H. unfold avg_price. assert (X : total (fun e => e_aout e / e_ain e) g (fst p) (snd p) = V (fst p) / V (snd p) * total (fun _ => 1) g (fst p) (snd p)).
  { clear H. unfold total. induction F as [|e l (A & B) _ IH]; [cbn; ring|]. cbn [fold_right]. destruct (Nat.eqb_spec (e_in e) (fst p)) as [E1|]; [|exact IH]. destruct (Nat.eqb_spec (e_out e) (snd p)) as [E2|]; [|exact IH].
    cbn [andb]. rewrite IH, B, E1, E2. ring. }
  rewrite X. assert (0 < total (fun _ => 1) g (fst p) (snd p)). { apply total_pos; [apply Forall_forall; intros; lra|destruct p; exact H]. }
  field. split; [|lra]. specialize (HV (snd p)). lra.
Qed.
(** consecutive steps *)
Fixpoint chain (a : nat) (l : list (nat * nat)) (z : nat) : Prop := match l with [] => a = z | p :: r => fst p = a /\ chain (snd p) r z end.
Lemma chain_pairs a l : chain a (pair_up (a :: l)) (last l a).
Proof.
  unfold pair_up. cbn [tl]. revert a. induction l as [|b l IH]; intros a; [reflexivity|]. cbn [combine chain fst snd]. split; [reflexivity|]. specialize (IH b). 
  replace (last (b :: l) a) with (last l b); [exact IH|]. clear. revert b. induction l as [|c l IH]; intros b; [reflexivity|]. cbn [last] in *. destruct l; [reflexivity|]. apply IH.
Qed.
Lemma product_chain g V l : fair g V -> Forall (has_edge g) l -> forall a z, chain a l z -> product (map (avg_price g) l) = V a / V z.
Proof.
  intros HV. induction 1 as [|p l H _ IH]; intros a z C; cbn [chain] in C.
  - subst. cbn. pose proof (proj1 HV z). field. lra.
  - destruct C as [C1 C2]. cbn [map product fold_right]. fold (product (map (avg_price g) l)). rewrite (IH _ _ C2), (avg_fair g V p HV H), C1.
    pose proof (proj1 HV (snd p)). pose proof (proj1 HV z). field. lra.
Qed.
Lemma fair_nz g V : fair g V -> Forall (fun e => e_ain e <> 0) (g_edges g).
Proof. intros [_ F]. eapply Forall_impl; [|exact F]. cbn. tauto. Qed.
Lemma pt_fair g V a l : fair g V -> Forall (has_edge g) (pair_up (a :: l)) ->
  exists pl nl, (let* prs := path_pairs (a :: l) in ptransport g prs) = Ret (Some (V a / V (last l a)), pl, nl).
Proof.
  intros HV H. cbn [path_pairs rbind]. unfold ptransport. rewrite pt_some by (try apply (fair_nz g V HV); exact H). rewrite Rmult_1_l.
  rewrite (product_chain g V _ HV H a (last l a) (chain_pairs a l)). eauto.
Qed.
Lemma chain_app a l z l' y : chain a l z -> chain z l' y -> chain a (l ++ l') y.
Proof. revert a. induction l as [|p l IH]; intros a C D; cbn in *; [subst; exact D|]. destruct C as [C1 C2]. split; [exact C1|]. apply IH; assumption. Qed.
Lemma last_snoc {A} (l : list A) a d : last (l ++ [a]) d = a.
Proof. induction l as [|b l IH]; [reflexivity|]. cbn. destruct (l ++ [a]) eqn:E; [destruct l; discriminate|exact IH]. Qed.
Lemma pairs_closed d n l : (n < List.length d)%nat -> cycle_pairs Nat.eqb d (Some (Z.of_nat n)) None = Ret l ->
  exists a, nth_error d n = Some a /\ chain a l a /\ l <> [].
Proof.
  intros Hn. destruct (nth_error d n) as [a|] eqn:Ea; [|apply nth_error_None in Ea; lia]. destruct (items_rotate d n a Ea) as [E Hh].
  assert (Hd : d <> []) by (destruct d; [cbn in Hn; lia|discriminate]). destruct (iter_next_ok d (Z.of_nat n) Hd) as [r Er].
  unfold cycle_pairs. cbn [cycle_items rbind]. rewrite Er. cbn [rbind]. rewrite E. cbn [rbind]. intros [= <-]. exists a. split; [reflexivity|].
  destruct (rotate n d) as [|b t] eqn:R; [discriminate|]. cbn in Hh. injection Hh as ->. cbn [app].
  pose proof (chain_pairs a (t ++ [a])) as C. rewrite last_snoc in C. split; [exact C|]. unfold pair_up. cbn. destruct t; discriminate.
Qed.
Lemma pt_cycle g V d n l : fair g V -> (n < List.length d)%nat -> cycle_pairs Nat.eqb d (Some (Z.of_nat n)) None = Ret l -> Forall (has_edge g) l ->
  exists pl nl, ptransport g l = Ret (Some 1, pl, nl).
Proof.
  intros HV Hn C H. destruct (pairs_closed d n l Hn C) as (a & _ & Ch & _). unfold ptransport. rewrite pt_some by (try apply (fair_nz g V HV); exact H).
  rewrite (product_chain g V l HV H a a Ch). pose proof (proj1 HV a). replace (1 * (V a / V a)) with 1 by (field; lra). eauto.
Qed.

(** ** the arbitrage calculation *)
Lemma arb_pairs_ok g cycle token any l : arb_pairs g cycle token any = Ret l -> cycle <> [] /\ exists n, (n < List.length cycle)%nat /\ cycle_pairs Nat.eqb cycle (Some (Z.of_nat n)) None = Ret l.
Proof.
  intros H. assert (D : cycle_pairs Nat.eqb cycle None None = Ret l -> cycle <> [] /\ exists n, (n < List.length cycle)%nat /\ cycle_pairs Nat.eqb cycle (Some (Z.of_nat n)) None = Ret l).
  { intros X. assert (cycle <> []) by (intros ->; discriminate). split; [assumption|]. exists 0%nat. split; [destruct cycle; [congruence|cbn; lia]|exact X]. }
  unfold arb_pairs in H. destruct token as [t|]; [|auto]. destruct (node_by_tkn g t) as [m|x]; cbn [rbind] in H.
  - destruct (cycle_pairs Nat.eqb cycle None (Some m)) as [l'|x] eqn:E.
    + destruct (cycle_pairs_val Nat.eqb Nat.eqb_eq cycle m) as [V1 V2]. destruct (in_dec Nat.eq_dec m cycle) as [I|I]; [|rewrite (V2 I) in E; discriminate].
      destruct (V1 I) as (n & Hn & _ & X). rewrite E in X. split; [intros ->; destruct I|]. exists n. split; [exact Hn|congruence].
    + destruct any; [auto|discriminate].
  - destruct any; [auto|discriminate].
Qed.
Lemma chain_last a l z : chain a l z -> l <> [] -> exists p l', l = l' ++ [p] /\ snd p = z.
Proof.
  revert a. induction l as [|p l IH]; intros a C N; [congruence|]. cbn in C. destruct C as [_ C]. destruct l as [|q l]; [exists p, []; cbn in C; auto|].
  destruct (IH _ C) as (r & l' & E & Hr); [discriminate|]. exists r, (p :: l'). rewrite E. auto.
Qed.
Lemma arb_ok g cycle token any l : positive g -> arb_pairs g cycle token any = Ret l -> Forall (has_edge g) l ->
  exists a, run_arbitrage_cycle g cycle token any = Ret a /\ 0 < arb_in a /\ fits g (arb_in a) l /\ arb_out a = arrives g (arb_in a) l /\ arb_profit a = arb_out a - arb_in a /\
  (forall b, fits g b l -> b <= arb_in a) /\ (exists p r, l = p :: r /\ arb_token a = fst p).
Proof.
  intros P A H. destruct (arb_pairs_ok g cycle token any l A) as (Hc & n & Hn & C). destruct (pairs_closed cycle n l Hn C) as (v & _ & Ch & NE).
  destruct (run_all g l P NE H) as (s & E & I1 & I2 & I3 & I4 & (p & r & Ep & Tp) & (q & r' & Eq & Tq)). unfold run_arbitrage_cycle. rewrite A. cbn [rbind]. rewrite E. cbn [rbind].
  assert (T : r_tkn_in s = r_tkn_out s).
  { destruct (chain_last v l v Ch NE) as (q' & r'' & Eq' & Hq). rewrite Eq in Eq'. apply app_inj_tail in Eq' as [_ ->]. rewrite Ep in Ch. cbn in Ch. destruct Ch as [Ch _]. congruence. }
  rewrite T, Nat.eqb_refl. cbn [negb]. eexists. split; [reflexivity|]. cbn. split; [exact I1|]. split; [exact I2|]. split; [exact I3|]. split; [reflexivity|]. split; [exact I4|].
  exists p, r. split; [exact Ep|]. congruence.
Qed.
Lemma arb_edge g cycle token any l e a : positive g -> NoDup cycle -> arb_pairs g cycle token any = Ret l -> Forall (has_edge g) l -> In e (g_edges g) -> run_arbitrage_cycle g cycle token any = Ret a ->
  0 <= through g e (arb_in a) l <= e_ain e.
Proof.
  intros P ND A H He R0. destruct (arb_pairs_ok g cycle token any l A) as (Hc & n & Hn & C). destruct (arb_ok g cycle token any l P A H) as (a' & R1 & I1 & I2 & _). rewrite R0 in R1. injection R1 as <-.
  apply through_le; [|apply (cycle_pairs_nodup Nat.eqb cycle n l Hn ND C)| |exact I1|exact I2].
  - eapply Forall_impl; [|exact H]. intros p Hp. apply good_of; assumption.
  - unfold positive in P. rewrite Forall_forall in P. apply P. exact He.
Qed.
Lemma arb_missing g cycle token any l : positive g -> arb_pairs g cycle token any = Ret l -> Exists (fun p => ~ has_edge g p) l -> exists e, run_arbitrage_cycle g cycle token any = Raise e.
Proof.
  intros P A H. unfold run_arbitrage_cycle. rewrite A. cbn [rbind]. destruct (run_pairs g None l) as [s|e] eqn:E; [|cbn; eauto]. exfalso. apply (run_missing g l P H). eauto.
Qed.
Lemma arb_empty g token : arb_pairs g [] token true = Raise ZeroDivision.
Proof. unfold arb_pairs. destruct token as [t|]; [|reflexivity]. destruct (node_by_tkn g t); reflexivity. Qed.
Lemma arb_token_absent g cycle t : (forall n, node_by_tkn g t = Ret n -> ~ In n cycle) -> run_arbitrage_cycle g cycle (Some t) false = Raise ValueError /\
  run_arbitrage_cycle g cycle (Some t) true = run_arbitrage_cycle g cycle None true.
Proof.
  intros H. unfold run_arbitrage_cycle, arb_pairs. destruct (node_by_tkn g t) as [n|x]; cbn [rbind]; [|auto].
  rewrite (proj2 (cycle_pairs_val Nat.eqb Nat.eqb_eq cycle n) (H n eq_refl)). auto.
Qed.
(** profit per unit *)
Lemma arb_ratio a : arb_in a <> 0 -> arb_profit a = arb_out a - arb_in a -> exists r, arb_r a = Ret r /\ r = arb_profit a / arb_in a.
Proof. intros H E. unfold arb_r. rewrite rdiv_ok by exact H. cbn [rbind]. eexists. split; [reflexivity|]. rewrite E. field. exact H. Qed.

(** ** states *)
Lemma reset_spec g : same_graph g (reset_state g) /\ (forall n, node_amount (reset_state g) n = 0) /\
  (forall n, (n < List.length (g_nodes g))%nat -> history (reset_state g) n = [0]) /\ (forall e, In e (g_edges (reset_state g)) -> e_rem e = if rlt (e_ain e) 0 then None else Some (e_ain e)).
Proof.
  unfold reset_state. split; [|split; [|split]].
  - repeat split; cbn; try reflexivity; rewrite map_map; reflexivity.
  - intros n. unfold node_amount. cbn [g_nodes]. rewrite nth_error_map. destruct (nth_error (g_nodes g) n); reflexivity.
  - intros n Hn. unfold history. cbn [g_nodes]. rewrite nth_error_map. destruct (nth_error (g_nodes g) n) eqn:E; [reflexivity|]. apply nth_error_None in E. lia.
  - cbn. intros e He. apply in_map_iff in He as (f & <- & _). reflexivity.
Qed.
Lemma any_spec l : Forall (fun e => e_rem e <> None) l -> exists b, any_capacity l = Ret b /\ (b = true <-> exists e, In e l /\ EPS < GraphSpec.rem e).
Proof.
  induction 1 as [|e l H _ IH]; [exists false; split; [reflexivity|]; split; [discriminate|intros (e & [] & _)]|]. cbn [any_capacity]. unfold e_has_capacity, e_state.
  destruct (e_rem e) as [r|] eqn:E; [|congruence]. cbn [rbind]. assert (Re : GraphSpec.rem e = r) by (unfold GraphSpec.rem; rewrite E; reflexivity). destruct (Rlt_dec EPS r) as [L|L].
  - rewrite rlt_true by exact L. exists true. split; [reflexivity|]. split; [intros _; exists e; split; [left; reflexivity|lra]|reflexivity].
  - rewrite rlt_false by lra. destruct IH as (b & -> & Hb). exists b. split; [reflexivity|]. rewrite Hb. split.
    + intros (f & F1 & F2). exists f. split; [right; exact F1|exact F2].
    + intros (f & [->|F1] & F2); [lra|]. eauto.
Qed.
Lemma has_capacity_spec g ti to i o : linked g -> positive g -> node_by_tkn g ti = Ret i -> node_by_tkn g to = Ret o ->
  exists b, has_capacity g (Some ti) (Some to) = Ret b /\ (b = true <-> exists e, In e (g_edges g) /\ e_in e = i /\ e_out e = o /\ EPS < GraphSpec.rem e).
Proof.
  intros L P Hi Ho. unfold has_capacity. rewrite Hi, Ho. cbn [rbind]. destruct (any_spec (edges_between g (Some i) (Some o))) as (b & E & Hb).
  - apply Forall_forall. intros e He. apply edges_between_in in He as [He _]. unfold linked, positive in *. rewrite Forall_forall in L, P. apply (L e He). unfold is_amount. specialize (P e He). rewrite rlt_false by lra. reflexivity.
  - exists b. split; [exact E|]. rewrite Hb. split.
    + intros (e & He & R0). apply edges_between_in in He. exists e. tauto.
    + intros (e & A & B & C & D). exists e. split; [apply edges_between_in; auto|exact D].
Qed.
Lemma filter_total (sel : edge -> bool) f l : rsum (map f (filter sel l)) = fold_right (fun e s => if sel e then f e + s else s) 0 l.
Proof. induction l as [|e l IH]; [reflexivity|]. cbn [filter fold_right]. destruct (sel e); [cbn [map]; rewrite rsum_cons, IH; reflexivity|exact IH]. Qed.
Lemma node_stats g t n : linked g -> positive g -> node_by_tkn g t = Ret n ->
  node_statistics g t = Ret (total_of (fun e => Nat.eqb (e_out e) n) e_aout g, total_of (fun e => Nat.eqb (e_in e) n) e_ain g, total_of (fun e => Nat.eqb (e_in e) n) GraphSpec.rem g).
Proof.
  intros L P H. unfold node_statistics. rewrite H. cbn [rbind]. rewrite states_ok.
  - cbn [rbind]. unfold edges_between, total_of. rewrite !filter_total.
    assert (A : forall (sel sel' : edge -> bool) (f : edge -> R) l, (forall e, sel e = sel' e) -> fold_right (fun e s => if sel e then f e + s else s) 0 l = fold_right (fun e s => if sel' e then f e + s else s) 0 l).
    { intros sel sel' f l Q. induction l as [|e l IH]; [reflexivity|]. cbn [fold_right]. rewrite Q, IH. reflexivity. }
    do 2 f_equal; [f_equal|]; apply A; intros e; rewrite ?andb_true_l, ?andb_true_r; reflexivity.
  - apply Forall_forall. intros e He. unfold edges_between in He. apply filter_In in He as [He _]. unfold linked, positive in *. rewrite Forall_forall in L, P. specialize (P e He). apply (L e He). unfold is_amount. rewrite rlt_false by lra. reflexivity.
Qed.
Lemma rdivs_ok l : Forall (fun q => snd q <> 0) l -> rdivs l = Ret (map (fun q => fst q / snd q) l).
Proof. induction 1 as [|[a b] l H _ IH]; [reflexivity|]. cbn [rdivs map fst snd]. rewrite rdiv_ok by exact H. cbn [rbind]. rewrite IH. reflexivity. Qed.
Lemma stats_spec g i o : linked g -> positive g -> has_edge g (i, o) ->
  exists st, edge_statistics g (Some i) (Some o) = Ret (Some st) /\ s_len st = count g i o /\ s_in st = total e_ain g i o /\ s_rem st = total GraphSpec.rem g i o /\ s_out st = total e_aout g i o /\
   s_price st = exchange g (i, o) /\ s_util st = Some (1 - total GraphSpec.rem g i o / total e_ain g i o) /\
   s_prices st = map (fun e => e_aout e / e_ain e) (edges_between g (Some i) (Some o)) /\ s_utils st = map (fun e => 1 - GraphSpec.rem e / e_ain e) (edges_between g (Some i) (Some o)).
Proof.
  intros L P H. assert (NE := proj1 (edges_between_ne g (i, o)) H). cbn [fst snd] in NE. assert (G : g_is_amount g = Some true).
  { unfold g_is_amount. destruct (g_edges g) as [|e es] eqn:E; [destruct H as (e & He & _); rewrite E in He; destruct He|]. unfold positive in P. rewrite E in P. inversion P; subst. unfold is_amount. rewrite rlt_false by lra. reflexivity. }
  unfold edge_statistics. rewrite G. set (es := edges_between g (Some i) (Some o)) in *.
  assert (F : Forall (fun e => e_rem e <> None /\ 0 < e_ain e) es).
  { apply Forall_forall. intros e He. apply edges_between_in in He as [He _]. unfold linked, positive in *. rewrite Forall_forall in L, P. specialize (P e He). split; [|lra]. apply (L e He). unfold is_amount. rewrite rlt_false by lra. reflexivity. }
  assert (T : 0 < total e_ain g i o). { apply total_pos; [eapply Forall_impl; [|exact P]; cbn; tauto|exact H]. }
  unfold stats. rewrite states_ok by (eapply Forall_impl; [|exact F]; cbn; tauto). destruct es as [|e0 es0] eqn:Es; [congruence|]. rewrite <- Es in *. unfold es in Es. cbn [rbind].
  rewrite (combine_map2 GraphSpec.rem e_ain), rdivs_ok; [|apply Forall_forall; intros q Hq; apply in_map_iff in Hq as (e & <- & He); cbn; rewrite Forall_forall in F; specialize (F e He); lra].
  cbn [rbind]. rewrite (combine_map2 e_aout e_ain), rdivs_ok; [|apply Forall_forall; intros q Hq; apply in_map_iff in Hq as (e & <- & He); cbn; rewrite Forall_forall in F; specialize (F e He); lra].
  cbn [rbind]. unfold es. rewrite !edges_total. rewrite rdiv_ok by lra. cbn [rbind]. rewrite rlt_true by exact T. eexists. split; [reflexivity|]. cbn [s_len s_in s_rem s_out s_price s_util s_prices s_utils].
  rewrite !map_map. repeat split; reflexivity.
Qed.

(** ** amounts *)
Lemma am_guard a b : (a_node a = a_node b /\ am_add a (Am b) = Ret (mkAmount (a_val a + a_val b) (a_node a)) /\ am_sub a (Am b) = Ret (mkAmount (a_val a - a_val b) (a_node a)) /\
     am_lt a (Am b) = Ret (rlt (a_val a) (a_val b)) /\ am_ge a (Am b) = Ret (rle (a_val b) (a_val a)) /\ (a_val b <> 0 -> am_div a (Am b) = Ret (Num (a_val a / a_val b)))) \/
  (a_node a <> a_node b /\ am_add a (Am b) = Raise ValueError /\ am_sub a (Am b) = Raise ValueError /\ am_lt a (Am b) = Raise ValueError /\ am_le a (Am b) = Raise ValueError /\ am_gt a (Am b) = Raise ValueError /\ am_ge a (Am b) = Raise ValueError /\ am_div a (Am b) = Raise ValueError).
Proof.
  unfold am_add, am_sub, am_lt, am_le, am_gt, am_ge, am_cmp, am_div. destruct (Nat.eqb_spec (a_node a) (a_node b)) as [E|E]; [left|right; repeat split; assumption || reflexivity].
  split; [exact E|]. do 4 (split; [reflexivity|]). intros H. rewrite rdiv_ok by exact H. reflexivity.
Qed.
Lemma am_number a r : am_add a (Num r) = Raise ValueError /\ am_sub a (Num r) = Raise ValueError /\ am_radd a (Num r) = Raise ValueError /\ am_rsub a (Num r) = Raise ValueError /\
  am_mul a (Num r) = Ret (mkAmount (a_val a * r) (a_node a)) /\ (r <> 0 -> am_div a (Num r) = Ret (Am (mkAmount (a_val a / r) (a_node a)))) /\ forall b, am_mul a (Am b) = Raise ValueError.
Proof. repeat split; try reflexivity. intros H. unfold am_div. rewrite rdiv_ok by exact H. reflexivity. Qed.
Lemma am_sum_bad a l : am_sum (a :: l) = Raise ValueError.
Proof. unfold am_sum. cbn. induction l as [|b l IH]; [reflexivity|exact IH]. Qed.
Lemma am_order a b : (exists x, am_lt a (Am b) = Ret x /\ am_ge a (Am b) = Ret (negb x) /\ am_gt b (Am a) = Ret x /\ am_le b (Am a) = Ret (negb x)) \/ a_node a <> a_node b.
Proof.
  unfold am_lt, am_le, am_gt, am_ge, am_cmp. rewrite (Nat.eqb_sym (a_node b)). destruct (Nat.eqb_spec (a_node a) (a_node b)) as [E|E]; [left|right; exact E].
  exists (rlt (a_val a) (a_val b)). assert (X : rle (a_val b) (a_val a) = negb (rlt (a_val a) (a_val b))).
  { destruct (Rlt_dec (a_val a) (a_val b)); [rewrite (rlt_true (a_val a)) by assumption; unfold rle; destruct (Rle_dec _ _); [lra|reflexivity]|rewrite (rlt_false (a_val a)) by lra; rewrite rle_true by lra; reflexivity]. }
  rewrite X. auto.
Qed.
(** the history of a tracked value *)
Lemma tracked_history v l : let t := fold_left (fun t x => t_set t (Some x)) l (t_new (Some v)) in t_hist t = v :: l /\ t_value t = last l v.
Proof.
  cbn zeta. assert (X : forall l t, t_hist (fold_left (fun t x => t_set t (Some x)) l t) = t_hist t ++ l /\ t_value (fold_left (fun t x => t_set t (Some x)) l t) = last l (t_value t)).
  { clear. induction l as [|x l IH]; intros t; [cbn; rewrite app_nil_r; auto|]. cbn [fold_left]. destruct (IH (t_set t (Some x))) as [A B]. rewrite A, B. cbn. rewrite <- app_assoc. split; [reflexivity|].
    destruct l as [|y l]; [reflexivity|]. clear. revert y. induction l as [|z l IH]; intros y; [reflexivity|]. cbn [last] in *. destruct l; [reflexivity|apply (IH z)]. }
  destruct (X l (t_new (Some v))) as [A B]. split; [exact A|exact B].
Qed.
