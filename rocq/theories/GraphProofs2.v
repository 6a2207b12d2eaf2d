(** run_arbitrage_cycle. *)
From Coq Require Import Reals Lra Bool String List ZArith Arith Lia.
From Verif Require Import CurveModel CurveProofs GraphModel GraphSpec GraphProofs.
Import ListNotations.
Local Open Scope R_scope.

Lemma fold_rsum l : forall a, fold_left Rplus l a = a + fold_right Rplus 0 l.
Proof. induction l as [|x l IH]; intros a; cbn [fold_left fold_right]; [ring|]. rewrite IH. ring. Qed.
Lemma rsum_right l : rsum l = fold_right Rplus 0 l. Proof. unfold rsum. rewrite fold_rsum. ring. Qed.
Lemma rsum_cons a l : rsum (a :: l) = a + rsum l. Proof. rewrite !rsum_right. reflexivity. Qed.
Lemma rsum_nil : rsum [] = 0. Proof. reflexivity. Qed.
Lemma rsum_app l m : rsum (l ++ m) = rsum l + rsum m.
Proof. induction l as [|a l IH]; [rewrite rsum_nil; cbn [app]; ring|]. cbn [app]. rewrite !rsum_cons, IH. ring. Qed.
Lemma rsum_scale {A} (f : A -> R) q l : rsum (map (fun a => f a * q) l) = rsum (map f l) * q.
Proof. induction l as [|a l IH]; [cbn [map]; rewrite rsum_nil; ring|]. cbn [map]. rewrite !rsum_cons, IH. ring. Qed.

Lemma edges_total f g i o : rsum (map f (edges_between g (Some i) (Some o))) = total f g i o.
Proof.
  unfold edges_between, total. induction (g_edges g) as [|e l IH]; [reflexivity|]. cbn [filter fold_right].
  destruct (Nat.eqb (e_in e) i && Nat.eqb (e_out e) o); [cbn [map]; rewrite rsum_cons, IH; reflexivity|exact IH].
Qed.
Lemma edges_between_in g i o e : In e (edges_between g (Some i) (Some o)) <-> In e (g_edges g) /\ e_in e = i /\ e_out e = o.
Proof.
  unfold edges_between. rewrite filter_In, andb_true_iff, !Nat.eqb_eq. tauto.
Qed.
Lemma edges_between_ne g p : has_edge g p <-> edges_between g (Some (fst p)) (Some (snd p)) <> [].
Proof.
  split.
  - intros (e & H1 & H2 & H3) X. assert (In e (edges_between g (Some (fst p)) (Some (snd p)))) as Y by (apply edges_between_in; auto). rewrite X in Y. destruct Y.
  - intros H. destruct (edges_between g (Some (fst p)) (Some (snd p))) as [|e l] eqn:E; [congruence|]. exists e.
    apply edges_between_in. rewrite E. left. reflexivity.
Qed.
Lemma total_pos f g i o : Forall (fun e => 0 < f e) (g_edges g) -> has_edge g (i, o) -> 0 < total f g i o.
Proof.
  intros P (e & H & E1 & E2). unfold total. cbn [fst snd] in *. induction (g_edges g) as [|a l IH]; [destruct H|]. inversion P; subst.
  assert (Z : 0 <= fold_right (fun e0 s => if Nat.eqb (e_in e0) (e_in e) && Nat.eqb (e_out e0) (e_out e) then f e0 + s else s) 0 l).
  { clear - H3. induction l as [|b l IH]; [cbn; lra|]. inversion H3; subst. cbn [fold_right]. specialize (IH H2). destruct (_ && _); lra. }
  cbn [fold_right]. destruct H as [->|H].
  - rewrite !Nat.eqb_refl. cbn [andb]. lra.
  - specialize (IH H3 H). destruct (_ && _); lra.
Qed.

Lemma transports_ok es (f : R) : Forall (fun e => 0 < e_ain e /\ 0 < e_aout e) es -> 0 <= f <= 1 ->
  exists outs, transports (combine es (map (fun a => a * f) (map e_ain es))) = Ret outs /\ rsum outs = rsum (map e_aout es) * f.
Proof.
  intros P Hf. induction P as [|e es [H1 H2] P IH]; [exists []; split; [reflexivity|cbn [map]; rewrite rsum_nil; ring]|].
  destruct IH as (outs & E & So). cbn [map combine transports]. unfold transport_out.
  assert (EPSpos : 0 < EPS) by (unfold EPS; apply Rinv_0_lt_compat, pow_lt; lra).
  assert (B : 0 <= e_ain e * f <= e_ain e).
  { split; [apply Rmult_le_pos; lra|]. rewrite <- (Rmult_1_r (e_ain e)) at 2. apply Rmult_le_compat_l; lra. }
  rewrite (rle_true (e_ain e * f)) by lra. rewrite (rle_true (- EPS)) by lra. cbn [negb]. rewrite !andb_false_r. rewrite rdiv_ok by lra. cbn [rbind].
  rewrite E. cbn [rbind]. eexists. split; [reflexivity|]. rewrite !rsum_cons, So. field. lra.
Qed.
Lemma transports_full es : Forall (fun e => 0 < e_ain e /\ 0 < e_aout e) es ->
  exists outs, transports (combine es (map e_ain es)) = Ret outs /\ rsum outs = rsum (map e_aout es).
Proof.
  intros P. destruct (transports_ok es 1 P ltac:(lra)) as (outs & E & S). exists outs. rewrite Rmult_1_r in S. split; [|exact S].
  rewrite <- E. do 2 f_equal. rewrite <- (map_id (map e_ain es)) at 1. apply map_ext. intros; ring.
Qed.

Lemma arrives_snoc g p l : forall a, arrives g a (l ++ [p]) = arrives g a l * exchange g p.
Proof. induction l as [|q l IH]; intros a; cbn [app arrives]; [reflexivity|apply IH]. Qed.
Lemma arrives_scale g l : forall a, arrives g a l = a * arrives g 1 l.
Proof. induction l as [|q l IH]; intros a; cbn [arrives]; [ring|]. rewrite IH, (IH (1 * exchange g q)). ring. Qed.
Lemma fits_snoc g p l : forall a, fits g a (l ++ [p]) <-> fits g a l /\ arrives g a l <= capacity g p.
Proof. induction l as [|q l IH]; intros a; cbn [app fits arrives]; [tauto|]. rewrite IH. tauto. Qed.
Definition good g p := 0 < capacity g p /\ 0 < exchange g p.
Lemma fits_le g l : Forall (good g) l -> forall a b, b <= a -> fits g a l -> fits g b l.
Proof.
  induction 1 as [|q l [Hc He] H IH]; intros a b L; cbn [fits]; [tauto|]. intros [F1 F2]. split; [lra|]. apply (IH (a * exchange g q)); [|exact F2].
  apply Rmult_le_compat_r; lra.
Qed.
Lemma arrives_pos g l : Forall (good g) l -> 0 < arrives g 1 l.
Proof. 
  assert (X : Forall (good g) l -> forall a, 0 < a -> 0 < arrives g a l).
  { induction 1 as [|q l [Hc He] H IH]; intros a L; cbn [arrives]; [exact L|]. apply IH. apply Rmult_lt_0_compat; assumption. }
  intros H. apply X; [exact H|lra].
Qed.

Lemma good_of g p : positive g -> has_edge g p -> good g p.
Proof.
  intros P H. unfold good, exchange, capacity. destruct p as [i o]. cbn [fst snd].
  assert (0 < total e_ain g i o) by (apply total_pos; [eapply Forall_impl; [|exact P]; cbn; tauto|exact H]).
  assert (0 < total e_aout g i o) by (apply total_pos; [eapply Forall_impl; [|exact P]; cbn; tauto|exact H]).
  split; [assumption|apply Rdiv_lt_0_compat; assumption].
Qed.
Lemma between_pos g p : positive g -> Forall (fun e => 0 < e_ain e /\ 0 < e_aout e) (edges_between g (Some (fst p)) (Some (snd p))).
Proof. intros P. apply Forall_forall. intros e He. apply edges_between_in in He as [He _]. exact (proj1 (Forall_forall _ _) P e He). Qed.

(** the state after a non-empty prefix *)
Definition inv g (l : list (nat * nat)) (s : runst) : Prop :=
  let A := r_mult s * r_initial s in
  0 < A /\ fits g A l /\ r_out s = arrives g A l /\ (forall a, fits g a l -> a <= A) /\
  (exists p l', l = p :: l' /\ r_tkn_in s = fst p) /\ (exists p l', l = l' ++ [p] /\ r_tkn_out s = snd p).

Lemma first_edge g p e t : edges_between g (Some (fst p)) (Some (snd p)) = e :: t -> e_in e = fst p /\ e_out e = snd p.
Proof. intros E. assert (In e (edges_between g (Some (fst p)) (Some (snd p)))) as H by (rewrite E; left; reflexivity). apply edges_between_in in H. tauto. Qed.

Lemma run_first g p : positive g -> has_edge g p -> exists s, run_pair g None p = Ret (Some s) /\ inv g [p] s.
Proof.
  intros P H. destruct (good_of g p P H) as [G1 G2]. pose proof (between_pos g p P) as B. apply edges_between_ne in H.
  unfold run_pair. destruct (edges_between g (Some (fst p)) (Some (snd p))) as [|e t] eqn:E; [congruence|]. rewrite <- E in *.
  destruct (transports_full _ B) as (outs & T & S). rewrite T. cbn [rbind]. eexists. split; [reflexivity|].
  rewrite edges_total in S. unfold inv. cbn [r_mult r_initial r_out r_tkn_in r_tkn_out]. rewrite edges_total. fold (capacity g p).
  destruct (first_edge g p e t E) as [E1 E2].
  split; [lra|]. split; [cbn [fits]; split; [lra|exact I]|]. split.
  { cbn [arrives]. rewrite S. unfold exchange. set (c := capacity g p) in *. clearbody c. field. lra. }
  split; [intros a [F _]; lra|]. split; [exists p, []; split; [reflexivity|exact E1]|exists p, []; split; [reflexivity|exact E2]].
Qed.
Lemma run_next g l s p : positive g -> Forall (good g) l -> inv g l s -> has_edge g p -> exists s', run_pair g (Some s) p = Ret (Some s') /\ inv g (l ++ [p]) s'.
Proof.
  intros P GL I H. destruct (good_of g p P H) as [G1 G2]. pose proof (between_pos g p P) as B. apply edges_between_ne in H.
  unfold run_pair. destruct (edges_between g (Some (fst p)) (Some (snd p))) as [|e t] eqn:E; [congruence|]. rewrite <- E in *.
  destruct (first_edge g p e t E) as [E1 E2].
  assert (EC : rsum (map e_ain (edges_between g (Some (fst p)) (Some (snd p)))) = capacity g p) by (rewrite edges_total; reflexivity).
  rewrite EC. pose proof (edges_total e_aout g (fst p) (snd p)) as EO.
  destruct I as (HA & F & O & M & (p0 & l0 & Ep & Et) & _). set (A := r_mult s * r_initial s) in *.
  pose proof (arrives_pos g l GL) as AP. assert (OP : 0 < r_out s) by (rewrite O, arrives_scale; apply Rmult_lt_0_compat; assumption).
  assert (EX : total e_aout g (fst p) (snd p) = capacity g p * exchange g p).
  { unfold exchange. set (c := capacity g p) in *. clearbody c. field. lra. }
  assert (TI : exists q l', (l ++ [p]) = q :: l' /\ r_tkn_in s = fst q) by (exists p0, (l0 ++ [p]); rewrite Ep; split; [reflexivity|exact Et]).
  unfold rlt at 1. destruct (Rlt_dec (capacity g p) (r_out s)) as [L|L].
  - rewrite rdiv_ok by lra. cbn [rbind]. destruct (transports_full _ B) as (outs & T & S). rewrite T. cbn [rbind]. eexists. split; [reflexivity|].
    unfold inv. cbn [r_mult r_initial r_out r_tkn_in r_tkn_out].
    assert (EA : r_mult s * (capacity g p / r_out s) * r_initial s = A * (capacity g p / r_out s)) by (unfold A; ring). rewrite EA.
    assert (Q : 0 < capacity g p / r_out s <= 1).
    { split; [apply Rdiv_lt_0_compat; assumption|]. apply Rmult_le_reg_r with (r_out s); [exact OP|]. unfold Rdiv. rewrite Rmult_assoc, Rinv_l by lra. lra. }
    set (q := capacity g p / r_out s) in *. assert (QE : r_out s * q = capacity g p) by (unfold q; field; lra). clearbody q.
    assert (AQ : 0 < A * q) by (apply Rmult_lt_0_compat; lra).
    assert (AL : arrives g (A * q) l = capacity g p).
    { rewrite arrives_scale. rewrite <- QE, O, (arrives_scale g l A). ring. }
    split; [exact AQ|]. split; [apply fits_snoc; split; [apply (fits_le g l GL A); [|exact F]; rewrite <- (Rmult_1_r A) at 2; apply Rmult_le_compat_l; lra|lra]|].
    split; [rewrite arrives_snoc, AL, S, EO; exact EX|]. split.
    { intros a Fa. apply fits_snoc in Fa as [_ Fa]. rewrite <- AL, arrives_scale, (arrives_scale g l (A * q)) in Fa. apply Rmult_le_reg_r with (arrives g 1 l); assumption. }
    split; [exact TI|]. exists p, l. split; [reflexivity|exact E2].
  - rewrite rdiv_ok by lra. cbn [rbind].
    assert (Q : 0 <= r_out s / capacity g p <= 1).
    { split; [left; apply Rdiv_lt_0_compat; assumption|]. apply Rmult_le_reg_r with (capacity g p); [exact G1|]. unfold Rdiv. rewrite Rmult_assoc, Rinv_l by lra. lra. }
    destruct (transports_ok _ _ B Q) as (outs & T & S). rewrite T. cbn [rbind]. eexists. split; [reflexivity|].
    unfold inv. cbn [r_mult r_initial r_out r_tkn_in r_tkn_out]. fold A. split; [exact HA|]. split; [apply fits_snoc; split; [exact F|lra]|].
    split; [rewrite arrives_snoc, <- O, S, EO, EX; field; lra|]. split; [intros a Fa; apply fits_snoc in Fa as [Fa _]; exact (M a Fa)|].
    split; [exact TI|]. exists p, l. split; [reflexivity|exact E2].
Qed.
Lemma run_rest g l : positive g -> forall pre s, Forall (good g) pre -> inv g pre s -> Forall (has_edge g) l -> exists s', run_pairs g (Some s) l = Ret (Some s') /\ inv g (pre ++ l) s'.
Proof.
  intros P. induction l as [|p l IH]; intros pre s G I H; [exists s; rewrite app_nil_r; split; [reflexivity|exact I]|]. inversion H; subst.
  destruct (run_next g pre s p P G I H2) as (s' & E & I'). cbn [run_pairs]. rewrite E. cbn [rbind].
  destruct (IH (pre ++ [p]) s') as (s'' & E' & I''); [apply Forall_app; split; [exact G|constructor; [apply good_of; assumption|constructor]]|exact I'|exact H3|].
  exists s''. split; [exact E'|]. rewrite <- app_assoc in I''. exact I''.
Qed.
Lemma run_all g l : positive g -> l <> [] -> Forall (has_edge g) l -> exists s, run_pairs g None l = Ret (Some s) /\ inv g l s.
Proof.
  intros P Hl H. destruct l as [|p l]; [congruence|]. inversion H; subst. destruct (run_first g p P H2) as (s & E & I). cbn [run_pairs]. rewrite E. cbn [rbind].
  apply (run_rest g l P [p] s); [constructor; [apply good_of; assumption|constructor]|exact I|exact H3].
Qed.
(** a missing edge *)
Lemma run_missing g l : positive g -> Exists (fun p => ~ has_edge g p) l -> (exists s, run_pairs g None l = Ret s) -> False.
Proof.
  intros _. assert (X : forall st, Exists (fun p => ~ has_edge g p) l -> (exists s, run_pairs g st l = Ret s) -> False); [|apply X].
  induction l as [|p l IH]; intros st E; [inversion E|]. cbn [run_pairs]. intros [s Hs]. inversion E; subst.
  - unfold run_pair in Hs. destruct (edges_between g (Some (fst p)) (Some (snd p))) eqn:Eb; [discriminate|]. apply H0, edges_between_ne. congruence.
  - destruct (run_pair g st p) as [s'|x]; [|discriminate]. cbn [rbind] in Hs. apply (IH s' H0). exists s. exact Hs.
Qed.

(** no edge carries more than its capacity in a cycle without repetition *)
Lemma through_none g e l : (forall p, In p l -> e_in e <> fst p) -> forall a, through g e a l = 0.
Proof.
  induction l as [|p l IH]; intros H a; cbn [through]; [reflexivity|]. rewrite (proj2 (Nat.eqb_neq _ _)) by (apply H; left; reflexivity). cbn [andb].
  rewrite IH by (intros q Hq; apply H; right; exact Hq). ring.
Qed.
Lemma through_le g e l : Forall (good g) l -> NoDup (map fst l) -> 0 < e_ain e -> forall a, 0 < a -> fits g a l -> 0 <= through g e a l <= e_ain e.
Proof.
  intros G ND He. induction G as [|p l [G1 G2] G IH]; intros a Ha F; cbn [through]; [lra|]. cbn [fits] in F. destruct F as [F1 F2]. cbn [map] in ND. inversion ND; subst.
  destruct (Nat.eqb_spec (e_in e) (fst p)) as [E|E]; cbn [andb].
  - rewrite through_none. 2:{ intros q Hq Eq. apply H1. rewrite <- E, Eq. apply in_map. exact Hq. }
    assert (B : 0 <= a * e_ain e / capacity g p <= e_ain e).
    { split; [apply Rmult_le_pos; [apply Rmult_le_pos; lra|left; apply Rinv_0_lt_compat; exact G1]|].
      apply Rmult_le_reg_r with (capacity g p); [exact G1|]. unfold Rdiv. rewrite Rmult_assoc, Rinv_l, Rmult_1_r, (Rmult_comm a) by lra. apply Rmult_le_compat_l; lra. }
    destruct (Nat.eqb (e_out e) (snd p)); lra.
  - rewrite Rplus_0_l. apply IH; [assumption|apply Rmult_lt_0_compat; assumption|assumption].
Qed.
