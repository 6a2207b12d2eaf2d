(** Pro rata transport through all edges between two nodes. *)
From Coq Require Import Reals Lra Bool String List ZArith Arith Lia.
From Verif Require Import CurveModel CurveProofs GraphModel GraphSpec GraphProofs GraphProofs2 GraphProofs3.
Import ListNotations.
Local Open Scope R_scope.

Lemma same_edge g g' p e : same_graph g g' -> nth_error (g_edges g) p = Some e ->
  exists e', nth_error (g_edges g') p = Some e' /\ e_in e' = e_in e /\ e_out e' = e_out e /\ e_ain e' = e_ain e /\ e_aout e' = e_aout e.
Proof.
  intros (_ & _ & S & _) E. assert (X : nth_error (map fixed_part (g_edges g)) p = Some (fixed_part e)) by (rewrite nth_error_map, E; reflexivity).
  rewrite <- S, nth_error_map in X. destruct (nth_error (g_edges g') p) as [e'|]; [|discriminate]. cbn in X. exists e'. split; [reflexivity|].
  unfold fixed_part in X. repeat split; congruence.
Qed.
Lemma same_price g g' p : same_graph g g' -> price_at g' p = price_at g p.
Proof.
  intros S. unfold price_at. destruct (nth_error (g_edges g) p) as [e|] eqn:E.
  - destruct (same_edge g g' p e S E) as (e' & -> & _ & _ & -> & ->). reflexivity.
  - destruct (nth_error (g_edges g') p) as [e'|] eqn:E'; [|reflexivity]. destruct S as (_ & _ & S & _).
    assert (X : nth_error (map fixed_part (g_edges g')) p = Some (fixed_part e')) by (rewrite nth_error_map, E'; reflexivity). rewrite S, nth_error_map, E in X. discriminate.
Qed.
Definition fine g i o (q : nat * R) : Prop := exists e, nth_error (g_edges g) (fst q) = Some e /\ e_in e = i /\ e_out e = o /\ 0 < e_ain e /\ 0 <= snd q <= e_ain e /\ snd q <= remaining g (fst q).
Lemma given_none l p : ~ In p (map fst l) -> given l p = 0.
Proof.
  unfold given. induction l as [|q l IH]; intros H; [reflexivity|]. cbn [fold_right]. cbn in H. rewrite (proj2 (Nat.eqb_neq (fst q) p)) by tauto. apply IH. tauto.
Qed.
Lemma push_ok l re i o : i <> o -> forall g, linked g -> Forall (fine g i o) l -> NoDup (map fst l) -> summed (map snd l) <= node_amount g i ->
  exists g', push_all g l true re = (g', Ret (map (fun q => snd q * price_at g (fst q)) l)) /\ same_graph g g' /\ linked g' /\
  (forall p, remaining g' p = remaining g p - given l p) /\ node_amount g' i = node_amount g i - summed (map snd l) /\
  node_amount g' o = node_amount g o + summed (map (fun q => snd q * price_at g (fst q)) l) /\ (forall n, n <> i -> n <> o -> node_amount g' n = node_amount g n).
Proof.
  intros Hio. induction l as [|[p v] l IH]; intros g L F ND H.
  - exists g. split; [reflexivity|]. split; [apply same_refl|]. split; [exact L|]. cbn. repeat split; intros; lra.
  - inversion F as [|? ? F1 F2]; subst. destruct F1 as (e & E & E1 & E2 & Ha & Hv & Hr). cbn [fst snd] in *. cbn [map] in ND, H. inversion ND as [|? ? N1 N2]; subst.
    cbn [summed fold_right fst snd] in H. pose proof EPS_pos as EP.
    assert (SP : 0 <= summed (map snd l)).
    { clear - F2. induction F2 as [|q l (e' & _ & _ & _ & _ & [Q _] & _) _ IH]; cbn; [lra|]. unfold summed in IH. lra. }
    assert (A : is_amount e = true) by (unfold is_amount; rewrite rlt_false by lra; reflexivity).
    pose proof (transport_cases g p e v re L E A) as T. unfold summed in *.
    rewrite (rle_true v), (rle_true (- EPS)), (rlt_false (remaining g p - v)) in T by lra. cbn [negb andb] in T.
    unfold req in T. destruct (Req_EM_T (e_ain e) 0) as [|_]; [lra|].
    assert (NA : node_amount (sent g p e v) (e_in e) = node_amount g (e_in e) - v).
    { rewrite (sent_amount g p e v _ L E). unfold effect. rewrite Nat.eqb_refl, (proj2 (Nat.eqb_neq _ _)) by congruence. ring. }
    rewrite (rlt_false (node_amount (sent g p e v) (e_in e))) in T by lra. cbn [andb] in T.
    pose proof (sent_same g p e v) as SS.
    destruct (IH (sent g p e v)) as (g' & P & S' & L' & R' & I' & O' & N'); [apply sent_linked; assumption| |exact N2|lra|].
    { apply Forall_forall. intros [p' v'] Hq. pose proof (proj1 (Forall_forall _ _) F2 _ Hq) as (e' & X1 & X2 & X3 & X4 & X5 & X6). cbn [fst snd] in *.
      destruct (same_edge _ _ _ _ SS X1) as (e'' & Y1 & Y2 & Y3 & Y4 & Y5). exists e''. cbn [fst snd]. rewrite Y2, Y3, Y4. split; [exact Y1|]. repeat (split; [assumption|]).
      rewrite (sent_remaining g p e v p' E). destruct (Nat.eqb_spec p' p) as [->|]; [|exact X6]. exfalso. apply N1. apply in_map_iff. exists (p, v'). split; [reflexivity|exact Hq]. }
    exists g'. cbn [push_all]. rewrite T, P. split.
    { cbn [a_val map fst snd]. f_equal. f_equal. f_equal; [unfold price_at; rewrite E; field; lra|]. apply map_ext. intros q. rewrite (same_price _ _ _ SS). reflexivity. }
    assert (PA : price_at g p = e_aout e / e_ain e) by (unfold price_at; rewrite E; reflexivity).
    split; [exact (same_trans _ _ _ SS S')|]. split; [exact L'|]. split; [|split; [|split]].
    + intros q. rewrite R', (sent_remaining g p e v q E). unfold given at 2. cbn [fold_right fst snd]. fold (given l q). rewrite (Nat.eqb_sym p q).
      destruct (Nat.eqb_spec q p) as [->|]; ring.
    + rewrite I', NA. cbn [map fold_right fst snd]. ring.
    + rewrite O', (sent_amount g p e v _ L E). unfold effect. rewrite Nat.eqb_refl, (proj2 (Nat.eqb_neq _ _)) by congruence. cbn [map fold_right fst snd]. rewrite PA.
      replace (map (fun q : nat * R => snd q * price_at (sent g p e v) (fst q)) l) with (map (fun q : nat * R => snd q * price_at g (fst q)) l); [ring|].
      apply map_ext. intros q. rewrite (same_price _ _ _ SS). reflexivity.
    + intros n H1 H2. rewrite N', (sent_amount g p e v _ L E) by assumption. unfold effect. rewrite !(proj2 (Nat.eqb_neq _ _)) by congruence. ring.
Qed.
(** a successful recorded push has kept within capacity and balance *)
Lemma push_ret l i o : i <> o -> forall g g' outs, linked g -> Forall (fun q => joins g i o (fst q)) l -> NoDup (map fst l) -> push_all g l true true = (g', Ret outs) ->
  Forall (fun q => - EPS <= remaining g (fst q) - snd q) l /\ node_amount g' i = node_amount g i - summed (map snd l) /\ (l <> [] -> - EPS <= node_amount g' i).
Proof.
  intros Hio. induction l as [|[p v] l IH]; intros g g' outs L F ND H.
  - cbn in H. assert (g' = g) by congruence. subst. split; [constructor|]. split; [cbn; ring|]. congruence.
  - cbn [push_all] in H. destruct (edge_transport g p (Some (Num v)) true true) as [g1 [a|x]] eqn:T; [|discriminate].
    destruct (transport_ret g p v true g1 a L T) as (e & E & A & _ & _ & C & -> & _). destruct (C eq_refl) as [C1 C2].
    destruct (push_all (sent g p e v) l true true) as [g2 [xs|x]] eqn:P; [|discriminate]. assert (g2 = g') by congruence. subst g2.
    inversion F as [|? ? F1 F2]; subst. destruct F1 as (e0 & E0 & E1 & E2). cbn [fst] in E0. assert (e0 = e) by congruence. subst e0.
    cbn [map fst] in ND. inversion ND as [|? ? N1 N2]; subst. pose proof (sent_same g p e v) as SS.
    destruct (IH (sent g p e v) g' xs) as (I1 & I2 & I3); [apply sent_linked; assumption| |exact N2|exact P|].
    { apply Forall_forall. intros q Hq. pose proof (proj1 (Forall_forall _ _) F2 _ Hq) as (e' & X1 & X2 & X3).
      destruct (same_edge _ _ _ _ SS X1) as (e'' & Y1 & Y2 & Y3 & _). exists e''. split; [exact Y1|]. split; congruence. }
    split; [constructor; [exact C1|]|split].
    + apply Forall_forall. intros q Hq. pose proof (proj1 (Forall_forall _ _) I1 q Hq) as X. cbn beta in X. rewrite (sent_remaining g p e v (fst q) E) in X.
      destruct (Nat.eqb_spec (fst q) p) as [Y|]; [|exact X]. exfalso. apply N1. rewrite <- Y. apply in_map. exact Hq.
    + rewrite I2, (sent_amount g p e v _ L E). unfold effect. rewrite Nat.eqb_refl, (proj2 (Nat.eqb_neq (e_out e) (e_in e))) by congruence. cbn [map summed fold_right snd]. unfold summed. ring.
    + intros _. destruct l as [|q l]; [|apply I3; discriminate]. cbn in P. assert (sent g p e v = g') by congruence. subst g'. exact C2.
Qed.
Lemma push_unrecorded l re : forall g g' r, push_all g l false re = (g', r) -> g' = g.
Proof.
  induction l as [|[p v] l IH]; intros g g' r H; cbn [push_all] in H; [congruence|].
  destruct (edge_transport g p (Some (Num v)) false re) as [g1 [a|x]] eqn:T; apply unrecorded in T; subst g1; [|congruence].
  destruct (push_all g l false re) as [g2 [xs|x]] eqn:P; apply IH in P; congruence.
Qed.

(** ** positions *)
Definition located (g : graph) (i o : nat) : list (nat * edge) :=
  filter (fun p => Nat.eqb (e_in (snd p)) i && Nat.eqb (e_out (snd p)) o) (combine (seq 0 (List.length (g_edges g))) (g_edges g)).
Lemma combine_seq_in {A} (l : list A) q : forall k, In q (combine (seq k (List.length l)) l) -> nth_error l (fst q - k) = Some (snd q) /\ (k <= fst q)%nat.
Proof.
  induction l as [|a l IH]; intros k H; [destruct H|]. cbn [List.length seq combine] in H. destruct H as [<-|H].
  - cbn [fst snd]. rewrite Nat.sub_diag. split; [reflexivity|lia].
  - apply IH in H as [H1 H2]. split; [|lia]. replace (fst q - k)%nat with (S (fst q - S k)) by lia. exact H1.
Qed.
Lemma located_in g i o q : In q (located g i o) -> nth_error (g_edges g) (fst q) = Some (snd q) /\ e_in (snd q) = i /\ e_out (snd q) = o.
Proof.
  intros H. apply filter_In in H as [H1 H2]. apply combine_seq_in in H1 as [H1 _]. rewrite Nat.sub_0_r in H1. apply andb_true_iff in H2 as [A B].
  apply Nat.eqb_eq in A. apply Nat.eqb_eq in B. auto.
Qed.
Lemma nodup_filter_fst {A} (f : nat * A -> bool) l : NoDup (map fst l) -> NoDup (map fst (filter f l)).
Proof.
  induction l as [|q l IH]; intros H; [constructor|]. cbn [map] in H. inversion H; subst. cbn [filter]. destruct (f q); [|auto]. cbn [map]. constructor; [|auto].
  intros X. apply H2. apply in_map_iff in X as (r & E & Hr). apply filter_In in Hr as [Hr _]. rewrite <- E. apply in_map. exact Hr.
Qed.
Lemma combine_seq_fst {A} (l : list A) : forall k, map fst (combine (seq k (List.length l)) l) = seq k (List.length l).
Proof. induction l as [|a l IH]; intros k; [reflexivity|]. cbn. f_equal. apply IH. Qed.
Lemma located_nodup g i o : NoDup (map fst (located g i o)).
Proof. apply nodup_filter_fst. rewrite combine_seq_fst. apply seq_NoDup. Qed.
Lemma between_located g i o : between g i o = map fst (located g i o). Proof. reflexivity. Qed.
Lemma edges_located g i o : edges_between g (Some i) (Some o) = map snd (located g i o).
Proof.
  unfold edges_between, located. generalize 0%nat. induction (g_edges g) as [|e l IH]; intros k; [reflexivity|]. cbn [List.length seq combine filter snd].
  destruct (Nat.eqb (e_in e) i && Nat.eqb (e_out e) o); cbn [map snd]; [f_equal|]; apply IH.
Qed.
Lemma combine_map2 {A B C} (f : A -> B) (h : A -> C) l : combine (map f l) (map h l) = map (fun a => (f a, h a)) l.
Proof. induction l as [|a l IH]; [reflexivity|]. cbn. f_equal. exact IH. Qed.
Lemma states_ok es : Forall (fun e => e_rem e <> None) es -> states es = Ret (map GraphSpec.rem es).
Proof.
  induction 1 as [|e es H _ IH]; [reflexivity|]. cbn [states map]. unfold e_state, GraphSpec.rem at 1. destruct (e_rem e); [|congruence]. cbn [rbind]. rewrite IH. reflexivity.
Qed.
Lemma states_inv es l : states es = Ret l -> l = map GraphSpec.rem es.
Proof.
  revert l. induction es as [|e es IH]; intros l H; [cbn in *; congruence|]. cbn [states] in H. unfold e_state in H. cbn [map]. unfold GraphSpec.rem at 1.
  destruct (e_rem e) as [r|]; [|discriminate]. cbn [rbind] in H. destruct (states es) as [rs|]; [|discriminate]. cbn [rbind] in H. rewrite <- (IH rs eq_refl). congruence.
Qed.
Lemma summed_rsum l : summed l = rsum l. Proof. symmetry. apply rsum_right. Qed.
Lemma summed_total f g i o : summed (map (fun q => f (snd q)) (located g i o)) = total f g i o.
Proof. rewrite <- edges_total, edges_located, map_map. apply summed_rsum. Qed.
