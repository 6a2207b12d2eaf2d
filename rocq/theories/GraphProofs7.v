(** Pro rata transport, edge arithmetic. *)
From Coq Require Import Reals Lra Bool String List ZArith Arith Lia.
From Verif Require Import CurveModel CurveProofs GraphModel GraphSpec GraphProofs GraphProofs2 GraphProofs3 GraphProofs4.
Import ListNotations.
Local Open Scope R_scope.

Lemma between_loc g i o : between g i o = map fst (located g i o). Proof. reflexivity. Qed.
Lemma rsum_summed l : rsum l = summed l. Proof. unfold rsum. rewrite fold_rsum. unfold summed. lra. Qed.
Lemma summed_scale {A} (f : A -> R) q l : summed (map (fun a => f a * q) l) = summed (map f l) * q.
Proof. unfold summed. induction l as [|a l IH]; cbn; [ring|]. rewrite IH. ring. Qed.
Lemma summed_nonneg l : Forall (fun v => 0 <= v) l -> 0 <= summed l.
Proof. unfold summed. induction 1; cbn; lra. Qed.
Lemma given_at {A} (l : list A) (k : A -> nat) (v : A -> R) a : NoDup (map k l) -> In a l -> given (map (fun x => (k x, v x)) l) (k a) = v a.
Proof.
  intros ND H. induction l as [|b l IH]; [destruct H|]. cbn [map] in *. inversion ND as [|? ? N1 N2]; subst. unfold given in *. cbn [fold_right fst snd].
  destruct H as [->|H].
  - rewrite Nat.eqb_refl. fold (given (map (fun x => (k x, v x)) l) (k a)). rewrite given_none; [ring|]. rewrite map_map. exact N1.
  - rewrite (proj2 (Nat.eqb_neq (k b) (k a))); [apply IH; assumption|]. intros E. apply N1. rewrite E. apply in_map. exact H.
Qed.
Lemma located_all g i o p e : nth_error (g_edges g) p = Some e -> e_in e = i -> e_out e = o -> In (p, e) (located g i o).
Proof.
  intros E A B. unfold located. apply filter_In. split; [|cbn; rewrite A, B, !Nat.eqb_refl; reflexivity].
  assert (X : forall (l : list edge) k q, nth_error l q = Some e -> In ((k + q)%nat, e) (combine (seq k (List.length l)) l)).
  { induction l as [|a l IH]; intros k q H; [destruct q; discriminate|]. destruct q; cbn in *; [left; rewrite Nat.add_0_r; congruence|]. right. rewrite <- Nat.add_succ_comm. apply IH. exact H. }
  apply (X _ 0%nat p E).
Qed.
Lemma given_out {A} (l : list A) (k : A -> nat) (v : A -> R) p : ~ In p (map k l) -> given (map (fun x => (k x, v x)) l) p = 0.
Proof. intros H. apply given_none. rewrite map_map. exact H. Qed.

(** the outcome of a pro rata transport that is within all limits *)
Lemma transport_graph g ti to i o v re : linked g -> node_by_tkn g ti = Ret i -> node_by_tkn g to = Ret o -> i <> o ->
  (forall e, In e (g_edges g) -> e_in e = i -> e_out e = o -> 0 < e_ain e /\ 0 <= GraphSpec.rem e <= e_ain e) ->
  0 < total GraphSpec.rem g i o -> 0 <= v <= total GraphSpec.rem g i o -> v <= node_amount g i ->
  exists g' r, graph_transport g (Num v) ti to true re = (g', Ret r) /\
    fst (fst r) = v * (total (fun e => GraphSpec.rem e * (e_aout e / e_ain e)) g i o / total GraphSpec.rem g i o) /\
    summed (snd (fst r)) = v /\ summed (snd r) = fst (fst r) /\ same_graph g g' /\ linked g' /\
    (forall p, remaining g' p = if match nth_error (g_edges g) p with Some e => Nat.eqb (e_in e) i && Nat.eqb (e_out e) o | None => false end
                                then remaining g p * (1 - v / total GraphSpec.rem g i o) else remaining g p) /\
    node_amount g' i = node_amount g i - v /\ node_amount g' o = node_amount g o + fst (fst r) /\ (forall n, n <> i -> n <> o -> node_amount g' n = node_amount g n).
Proof.
  intros L Hi Ho Hio C T V B. unfold graph_transport. rewrite Hi, Ho, edges_located.
  set (loc := located g i o). set (tot := total GraphSpec.rem g i o) in *.
  assert (NE : map snd loc <> []).
  { intros X. assert (Z : tot = 0). { unfold tot. rewrite <- summed_total. fold loc. rewrite <- (map_map snd GraphSpec.rem), X. reflexivity. } lra. }
  assert (Q : forall q, In q loc -> nth_error (g_edges g) (fst q) = Some (snd q) /\ e_in (snd q) = i /\ e_out (snd q) = o /\ 0 < e_ain (snd q) /\ 0 <= GraphSpec.rem (snd q) <= e_ain (snd q) /\ e_rem (snd q) <> None).
  { intros q Hq. destruct (located_in g i o q Hq) as (E & A1 & A2). pose proof (nth_error_In _ _ E) as I. destruct (C _ I A1 A2) as (C1 & C2). repeat (split; [assumption|]).
    pose proof (proj1 (Forall_forall _ _) L _ I) as (_ & _ & X). apply X. unfold is_amount. rewrite rlt_false by lra. reflexivity. }
  rewrite states_ok by (apply Forall_forall; intros e He; apply in_map_iff in He as (q & <- & Hq); apply Q; exact Hq).
  destruct (map snd loc) as [|e0 es0] eqn:Es; [congruence|]. rewrite <- Es in *. clear Es e0 es0.
  assert (St : rsum (map GraphSpec.rem (map snd loc)) = tot). { rewrite rsum_summed, map_map. apply summed_total. }
  rewrite St, rdiv_ok by lra. set (f := v / tot). rewrite between_loc, map_map. fold loc. rewrite map_map.
  rewrite (combine_map2 fst (fun q => GraphSpec.rem (snd q) * f)).
  assert (F0 : 0 <= f <= 1). { unfold f. split; [apply Rmult_le_pos; [lra|left; apply Rinv_0_lt_compat; lra]|]. apply (Rmult_le_reg_r tot); [lra|]. unfold Rdiv. rewrite Rmult_assoc, Rinv_l by lra. lra. }
  assert (Sv : summed (map (fun q => GraphSpec.rem (snd q) * f) loc) = v). { rewrite (summed_scale (fun q => GraphSpec.rem (snd q))). unfold loc. rewrite summed_total. fold tot. unfold f. field. lra. }
  set (l := map (fun a : nat * edge => (fst a, GraphSpec.rem (snd a) * f)) loc).
  destruct (push_ok l re i o Hio g L) as (g' & P & SG & L' & R1 & N1 & N2 & N3).
  - apply Forall_forall. intros x Hx. apply in_map_iff in Hx as (q & <- & Hq). destruct (Q q Hq) as (E & A1 & A2 & A3 & A4 & A5). exists (snd q). cbn [fst snd].
    repeat (split; [assumption|]). assert (RE : remaining g (fst q) = GraphSpec.rem (snd q)) by (unfold remaining; rewrite E; reflexivity). rewrite RE. split; [split; [apply Rmult_le_pos; lra|]|]; nra.
  - unfold l. rewrite map_map. cbn [fst]. apply located_nodup.
  - unfold l. rewrite map_map. cbn [snd]. rewrite Sv. exact B.
  - unfold l in P. rewrite map_map in P. cbn [fst snd] in P. unfold l. rewrite P. do 2 eexists. split; [reflexivity|]. cbn [fst snd].
    assert (So : rsum (map (fun q => GraphSpec.rem (snd q) * f * price_at g (fst q)) loc) = v * (total (fun e => GraphSpec.rem e * (e_aout e / e_ain e)) g i o / tot)).
    { rewrite rsum_summed. rewrite (map_ext_in _ (fun q => GraphSpec.rem (snd q) * (e_aout (snd q) / e_ain (snd q)) * f)).
      - rewrite (summed_scale (fun q => GraphSpec.rem (snd q) * (e_aout (snd q) / e_ain (snd q)))). unfold loc. rewrite (summed_total (fun e => GraphSpec.rem e * (e_aout e / e_ain e))). unfold f, Rdiv. ring.
      - intros q Hq. destruct (Q q Hq) as (E & _). unfold price_at. rewrite E. ring. }
    split; [exact So|]. split; [exact Sv|]. split; [symmetry; apply rsum_summed|]. split; [exact SG|]. split; [exact L'|]. split; [|split; [|split; [|exact N3]]].
    + intros p. rewrite R1. destruct (nth_error (g_edges g) p) as [e|] eqn:Ep.
      * destruct (Nat.eqb (e_in e) i && Nat.eqb (e_out e) o) eqn:Be.
        -- apply andb_true_iff in Be as [B1 B2]. apply Nat.eqb_eq in B1. apply Nat.eqb_eq in B2. pose proof (located_all g i o p e Ep B1 B2) as I.
           pose proof (given_at loc fst (fun a => GraphSpec.rem (snd a) * f) (p, e) (located_nodup g i o) I) as Gv. cbn [fst snd] in Gv. unfold l. rewrite Gv. unfold remaining. rewrite Ep. fold f. ring.
        -- unfold l. rewrite (given_out loc fst (fun a => GraphSpec.rem (snd a) * f)); [ring|]. intros I. apply in_map_iff in I as (q & <- & Hq). destruct (Q q Hq) as (E & A1 & A2 & _).
           rewrite E in Ep. assert (snd q = e) by congruence. subst e. rewrite A1, A2, !Nat.eqb_refl in Be. discriminate.
      * unfold l. rewrite (given_out loc fst (fun a => GraphSpec.rem (snd a) * f)); [ring|]. intros I. apply in_map_iff in I as (q & <- & Hq). destruct (Q q Hq) as (E & _). congruence.
    + unfold l in N1. rewrite map_map in N1. cbn [snd] in N1. rewrite Sv in N1. exact N1.
    + unfold l in N2. rewrite map_map in N2. cbn [fst snd] in N2. rewrite N2, rsum_summed. reflexivity.
Qed.
(** what a successful recorded transport implies *)
Lemma transport_graph_ret g ti to i o v g' r : linked g -> node_by_tkn g ti = Ret i -> node_by_tkn g to = Ret o -> i <> o ->
  graph_transport g (Num v) ti to true true = (g', Ret r) -> v <= node_amount g i + EPS /\ total GraphSpec.rem g i o <> 0.
Proof.
  intros L Hi Ho Hio. unfold graph_transport. rewrite Hi, Ho, edges_located. set (loc := located g i o).
  destruct (map snd loc) as [|e0 es0] eqn:Es; [discriminate|]. rewrite <- Es. destruct (states (map snd loc)) as [caps|x] eqn:S; [|discriminate]. apply states_inv in S. subst caps.
  assert (St : rsum (map GraphSpec.rem (map snd loc)) = total GraphSpec.rem g i o). { rewrite rsum_summed, map_map. apply summed_total. }
  rewrite St. set (tot := total _ g i o) in *. destruct (Req_dec tot 0) as [Z|Z]; [rewrite Z; unfold rdiv; rewrite req_true by reflexivity; discriminate|].
  rewrite rdiv_ok by exact Z. set (f := v / tot). rewrite between_loc, map_map. fold loc. rewrite map_map. rewrite (combine_map2 fst (fun q => GraphSpec.rem (snd q) * f)).
  destruct (push_all _ _ _ _) as [g1 [outs|x]] eqn:P; [|discriminate]. intros [= <- <-]. split; [|exact Z].
  match type of P with push_all _ ?l _ _ = _ => assert (PR := fun a b => push_ret l i o Hio g g1 outs L a b P) end. destruct PR as (A & B & D).
  - apply Forall_forall. intros x Hx. apply in_map_iff in Hx as (q & <- & Hq). destruct (located_in g i o q Hq) as (E & A1 & A2). exists (snd q). auto.
  - rewrite map_map. cbn [fst]. apply located_nodup.
  - assert (Sv : summed (map (fun q => GraphSpec.rem (snd q) * f) loc) = v). { rewrite (summed_scale (fun q => GraphSpec.rem (snd q))). unfold loc. rewrite summed_total. fold tot. unfold f. field. exact Z. }
    rewrite map_map in B. cbn [snd] in B. rewrite Sv in B. assert (X : map (fun a : nat * edge => (fst a, GraphSpec.rem (snd a) * f)) loc <> []) by (destruct loc; discriminate).
    specialize (D X). lra.
Qed.
Lemma transport_graph_un g o ti to re g' r : graph_transport g o ti to false re = (g', r) -> g' = g.
Proof.
  unfold graph_transport. destruct (node_by_tkn g ti); [|congruence]. destruct (node_by_tkn g to); [|congruence]. destruct o as [am|v]; [congruence|].
  destruct (edges_between g _ _) eqn:E; [congruence|]. destruct (states _); [|congruence]. destruct (rdiv _ _); [|congruence].
  destruct (push_all _ _ _ _) as [g1 [outs|x]] eqn:P; apply push_unrecorded in P; congruence.
Qed.

(** ** edge arithmetic *)
Lemma e_add_spec e f : e_in e = e_in f -> e_out e = e_out f -> is_amount e = is_amount f ->
  e_add e f = Ret (edge_make (e_in e) (e_ain e + e_ain f) (e_out e) (e_aout e + e_aout f) (e_inv e) None).
Proof. intros A B C. unfold e_add. rewrite A, B, C, eqb_reflx, !Nat.eqb_refl. reflexivity. Qed.
Lemma e_add_only e f s : e_add e f = Ret s -> e_in e = e_in f /\ e_out e = e_out f /\ is_amount e = is_amount f.
Proof.
  unfold e_add. destruct (Bool.eqb (is_amount e) (is_amount f)) eqn:A; [|discriminate]. apply eqb_prop in A. cbn [negb].
  destruct (Nat.eqb_spec (e_out e) (e_out f)); [|discriminate]. destruct (Nat.eqb_spec (e_in e) (e_in f)); [|discriminate]. auto.
Qed.
(** edges of one kind, all between the same nodes *)
Definition kind (pos : bool) (e : edge) : Prop := if pos then 0 < e_ain e /\ 0 < e_aout e else e_ain e < 0.
Lemma kind_amount b e : kind b e -> is_amount e = b.
Proof. unfold is_amount. destruct b; cbn; intros H; [rewrite rlt_false by lra|rewrite rlt_true by lra]; reflexivity. Qed.
Lemma e_sum_fold b i o l : Forall (fun e => kind b e /\ e_in e = i /\ e_out e = o) l -> forall s, kind b s -> e_in s = i -> e_out s = o ->
  exists s', fold_left (fun acc f => let* s := acc in e_add s f) l (Ret s) = Ret s' /\ kind b s' /\ e_in s' = i /\ e_out s' = o /\
    e_ain s' = e_ain s + summed (map e_ain l) /\ e_aout s' = e_aout s + summed (map e_aout l) /\ e_inv s' = e_inv s /\
    (l = [] -> s' = s) /\ (l <> [] -> e_uid s' = None /\ e_rem s' = (if b then Some (e_ain s') else None)).
Proof.
  induction 1 as [|e l (K & A & B) _ IH]; intros s Ks As Bs.
  - exists s. unfold summed. cbn. do 8 (split; [first [reflexivity|assumption|lra|intros; reflexivity]|]). congruence.
  - cbn [fold_left rbind]. rewrite e_add_spec; [|congruence|congruence|rewrite (kind_amount b s Ks), (kind_amount b e K); reflexivity].
    set (s1 := edge_make _ _ _ _ _ _). assert (K1 : kind b s1). { unfold kind in *. destruct b; cbn; lra. }
    destruct (IH s1 K1) as (s' & E & K' & A' & B' & S1 & S2 & V & N1 & N2); [exact As|exact Bs|].
    exists s'. split; [exact E|]. split; [exact K'|]. split; [exact A'|]. split; [exact B'|].
    unfold summed in *. cbn [map fold_right]. cbn in S1, S2, V. split; [lra|]. split; [lra|]. split; [exact V|]. split; [discriminate|]. intros _.
    destruct l as [|e' l]; [|apply N2; discriminate]. rewrite (N1 eq_refl). cbn. split; [reflexivity|].
    destruct b; cbn in K1; [rewrite rlt_false by lra|rewrite rlt_true by lra]; reflexivity.
Qed.
Lemma e_sum_spec b i o e l : Forall (fun e => kind b e /\ e_in e = i /\ e_out e = o) (e :: l) ->
  exists s, e_sum (e :: l) = Ret (Some s) /\ kind b s /\ e_in s = i /\ e_out s = o /\ e_ain s = summed (map e_ain (e :: l)) /\ e_aout s = summed (map e_aout (e :: l)) /\
  e_inv s = e_inv e /\ e_uid s = None /\ e_rem s = (if b then Some (e_ain s) else None).
Proof.
  intros F. inversion F as [|? ? (K & A & B) F']; subst. unfold e_sum.
  assert (Kd : kind b (e_dup e)) by (unfold kind in *; destruct b; exact K).
  destruct (e_sum_fold b _ _ l F' (e_dup e) Kd eq_refl eq_refl) as (s & E & Ks & As & Bs & S1 & S2 & V & N1 & N2). rewrite E. cbn [rbind].
  exists s. split; [reflexivity|]. split; [exact Ks|]. split; [exact As|]. split; [exact Bs|]. split; [exact S1|]. split; [exact S2|]. split; [exact V|].
  destruct l as [|e' l]; [|apply N2; discriminate]. rewrite (N1 eq_refl). cbn. split; [reflexivity|].
  destruct b; cbn in K; [rewrite rlt_false by lra|rewrite rlt_true by lra]; reflexivity.
Qed.
(** the price of a sum lies between the prices of the parts *)
Lemma mediant l m M : Forall (fun e => 0 < e_ain e /\ m <= e_aout e / e_ain e <= M) l -> l <> [] -> m <= summed (map e_aout l) / summed (map e_ain l) <= M.
Proof.
  intros F NE. assert (X : (0 < summed (map e_ain l) \/ l = []) /\ m * summed (map e_ain l) <= summed (map e_aout l) <= M * summed (map e_ain l)).
  { clear NE. unfold summed. induction F as [|e l (A & B) _ IH]; cbn; [split; [auto|lra]|].
    assert (Q : e_aout e = e_aout e / e_ain e * e_ain e) by (field; lra). set (q := e_aout e / e_ain e) in *. clearbody q. destruct IH as [I1 I2].
    split; [left; destruct I1 as [I1| ->]; cbn; lra|]. rewrite Q. nra. }
  destruct X as [[P|P] [X1 X2]]; [|congruence]. set (s := summed (map e_ain l)) in *. set (t := summed (map e_aout l)) in *. clearbody s t.
  split; apply (Rmult_le_reg_r s); try lra; unfold Rdiv; rewrite Rmult_assoc, Rinv_l by lra; lra.
Qed.
Lemma e_mul_spec e r : 0 < r -> exists f, e_mul e r = Ret f /\ e_ain f = e_ain e * r /\ e_aout f = e_aout e * r /\ e_in f = e_in e /\ e_out f = e_out e /\
  e_price_outperin f = e_price_outperin e /\ is_amount f = is_amount e.
Proof.
  intros H. unfold e_mul. rewrite rlt_true by exact H. cbn [negb]. eexists. split; [reflexivity|]. cbn. repeat (split; [reflexivity|]). split.
  - unfold e_price_outperin, e_price. cbn. destruct (Req_dec (e_ain e) 0) as [Z|Z].
    + rewrite Z, Rmult_0_l. unfold rdiv. rewrite req_true by reflexivity. reflexivity.
    + rewrite !rdiv_ok by (try apply Rmult_integral_contrapositive; lra). f_equal. field. lra.
  - unfold is_amount. cbn. destruct (Rlt_dec (e_ain e) 0); [rewrite !rlt_true by nra|rewrite !rlt_false by nra]; reflexivity.
Qed.
Lemma e_mul_bad e r : r <= 0 -> e_mul e r = Raise AssertionError.
Proof. intros H. unfold e_mul. rewrite rlt_false by exact H. reflexivity. Qed.
Lemma reverse_price e : e_ain e <> 0 -> e_aout e <> 0 -> exists p, e_price_outperin e = Ret p /\ e_price_outperin (e_reverse e) = Ret (1 / p) /\ e_price (e_reverse e) None = e_price e None.
Proof.
  intros A B. exists (e_aout e / e_ain e). unfold e_price_outperin, e_price. cbn. rewrite !rdiv_ok by assumption. split; [reflexivity|]. split; [f_equal; field; auto|]. destruct (e_inv e); reflexivity.
Qed.
Lemma reverse_twice e : e_reverse (e_reverse e) = e_dup e.
Proof. unfold e_reverse, e_dup. cbn. rewrite negb_involutive. reflexivity. Qed.
