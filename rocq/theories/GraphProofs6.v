(** Building graphs: what each call adds. *)
From Coq Require Import Reals Lra Bool String List ZArith Arith Lia.
From Verif Require Import CurveModel CurveProofs GraphModel GraphSpec GraphProofs GraphProofs2 GraphProofs3 GraphProofs5.
From Verif Require CpcModel CpcSpec CpcProofs CpcProofs2.
Import ListNotations.
Local Open Scope R_scope.

Lemma leads_intro g e ti to : dict_get (g_index g) ti = Some (e_in e) -> dict_get (g_index g) to = Some (e_out e) -> winv g -> leads g e ti to.
Proof.
  intros A B W. pose proof (proj1 (proj1 (proj2 W) _ _) A) as [X _]. pose proof (proj1 (proj1 (proj2 W) _ _) B) as [Y _].
  unfold leads, node_by_tkn. rewrite A, B. auto.
Qed.
Lemma add_edge_exact g ti ai to ao inv uid : winv g -> 0 < ai -> 0 < ao -> positive g ->
  exists g' e, add_edge g ti ai to ao inv uid = (g', None) /\ g_edges g' = g_edges g ++ [e] /\ leads g' e ti to /\
    fixed_part e = (e_in e, ai, e_out e, ao, inv, uid) /\ e_rem e = Some ai /\ step g g' /\ positive g'.
Proof.
  intros W Ha Hb P. destruct (add_edge_ok g ti ai to ao inv uid W Ha Hb) as (g2 & i & o & S & Ed & N1 & N2 & D1 & D2 & K & E & L1 & L2).
  set (e := edge_make i ai o ao inv uid) in *.
  destruct (add_edge_obj_inv g2 e) as (g' & r & A & W' & X & N & I & C); [apply S|exact L1|exact L2|reflexivity|left; cbn; auto|].
  assert (R0 : r = None /\ g_edges g' = g_edges g ++ [e]).
  { destruct C as [[C1 C2]|(C1 & C2 & f & F1 & F2)]; [rewrite Ed in C2; auto|]. exfalso. apply F2. rewrite Ed in F1. unfold positive in P. rewrite Forall_forall in P. specialize (P _ F1).
    unfold is_amount. rewrite !rlt_false by (cbn; lra). reflexivity. }
  destruct R0 as [-> E2]. exists g', e. split; [rewrite E; exact A|]. split; [exact E2|]. split; [apply leads_intro; [rewrite I; exact D1|rewrite I; exact D2|exact W']|].
  split; [reflexivity|]. split; [cbn; rewrite rlt_false by lra; reflexivity|]. split.
  - eapply step_trans; [exact S|]. split; [exact W'|]. split; [exact X|]. unfold uniq. rewrite N. auto.
  - unfold positive. rewrite E2. apply Forall_app. split; [exact P|]. constructor; [cbn; auto|constructor].
Qed.
Lemma add_edge_bad g ti ai to ao inv uid : ai <= 0 \/ ao <= 0 -> add_edge g ti ai to ao inv uid = (g, Some AssertionError).
Proof.
  intros H. unfold add_edge. destruct (Rle_dec ai 0) as [A|A]; [rewrite rlt_false by exact A; reflexivity|]. rewrite rlt_true by lra. rewrite rlt_false by lra. reflexivity.
Qed.
Lemma add_edge_mixed g ti ai to ao inv uid : winv g -> 0 < ai -> 0 < ao -> (exists f, In f (g_edges g) /\ e_ain f < 0) ->
  exists g', add_edge g ti ai to ao inv uid = (g', Some ValueError) /\ g_edges g' = g_edges g /\ (exists i, node_by_tkn g' ti = Ret i) /\ (exists o, node_by_tkn g' to = Ret o).
Proof.
  intros W Ha Hb (f & F1 & F2). destruct (add_edge_ok g ti ai to ao inv uid W Ha Hb) as (g2 & i & o & S & Ed & N1 & N2 & D1 & D2 & K & E & L1 & L2).
  set (e := edge_make i ai o ao inv uid) in *.
  destruct (add_edge_obj_inv g2 e) as (g' & r & A & W' & X & N & I & C); [apply S|exact L1|exact L2|reflexivity|left; cbn; auto|].
  assert (R0 : r = Some ValueError /\ g' = g2).
  { destruct C as [[C1 C2]|(C1 & C2 & _)]; [|auto]. exfalso. destruct W' as (_ & _ & _ & _ & [Q|Q]); rewrite C2, Ed, Forall_forall in Q.
    - specialize (Q f (in_or_app _ _ _ (or_introl F1))). cbn beta in Q. lra.
    - assert (Z : e_ain e < 0) by (apply Q; apply in_or_app; right; left; reflexivity). cbn in Z. lra. }
  destruct R0 as [-> ->]. exists g2. split; [rewrite E; exact A|]. split; [exact Ed|]. unfold node_by_tkn. rewrite D1, D2. eauto.
Qed.
Lemma dxdy_in g tx dx ty dy inv uid : 0 < dx -> dy < 0 -> add_edge_dxdy g tx dx ty dy inv uid = add_edge g tx dx ty (- dy) inv uid.
Proof. intros A B. unfold add_edge_dxdy. rewrite rlt_true by nra. cbn [negb]. rewrite rlt_true by exact A. reflexivity. Qed.
Lemma dxdy_out g tx dx ty dy inv uid : dx < 0 -> 0 < dy -> add_edge_dxdy g tx dx ty dy inv uid = add_edge g ty dy tx (- dx) inv uid.
Proof. intros A B. unfold add_edge_dxdy. rewrite rlt_true by nra. cbn [negb]. rewrite rlt_false by lra. reflexivity. Qed.
Lemma dxdy_same g tx dx ty dy inv uid : 0 <= dx * dy ->
  add_edge_dxdy g tx dx ty dy inv uid = (g, if rlt EPSDXDY (dx * dy) then Some ValueError else None).
Proof. intros A. unfold add_edge_dxdy. rewrite rlt_false by exact A. cbn [negb]. destruct (rlt EPSDXDY _); reflexivity. Qed.

(** connection edges *)
Lemma connection_price i o p inv w uid e : 0 < w -> connection_edge i o (Some p) inv (Some w) uid = Ret e -> e_price_outperin e = Ret (if inv then if req p 0 then p else 1 / p else p).
Proof.
  intros H E. rewrite connection_val in E by exact H. injection E as <-. unfold e_price_outperin, e_price. cbn. rewrite rdiv_ok by lra. f_equal.
  set (q := if inv then _ else _). clearbody q. field. lra.
Qed.
Lemma connection_exact g ti to p w uid : winv g -> 0 < w -> 0 < p -> Forall (fun e => e_ain e < 0) (g_edges g) ->
  exists g' e1 e2, add_edge_connection g ti to None false (Some p) (Some w) true uid = (g', None) /\ g_edges g' = g_edges g ++ [e1; e2] /\
    leads g' e1 ti to /\ leads g' e2 to ti /\ e_price_outperin e1 = Ret p /\ e_price_outperin e2 = Ret (1 / p) /\ e_price e2 None = Ret p /\ e_price e1 None = Ret p /\
    e_ain e1 = - w /\ e_ain e2 = - w /\ step g g' /\ Forall (fun e => e_ain e < 0) (g_edges g') /\
    e_uid e1 = Some (fmt_uid uid) /\ e_uid e2 = Some (fmt_uid uid ++ "-r")%string.
Proof.
  intros W Hw Hp P. unfold add_edge_connection. rewrite rlt_true by exact Hw. cbn [negb].
  destruct (two_nodes g ti to W) as (g1 & i & g2 & o & A & B & S & Ed & D1 & D2 & N1 & N2 & L1 & L2 & K). rewrite A, B.
  rewrite connection_val by exact Hw. cbn match. set (e1 := edge_make i (- w) o (- p * w) false (Some (fmt_uid uid))).
  assert (Q : forall g0 e, g_edges g0 = g_edges g \/ g_edges g0 = g_edges g ++ [e1] -> e_ain e < 0 -> ~ exists f, In f (g_edges g0) /\ is_amount f <> is_amount e).
  { intros g0 e H0 He (f & F1 & F2). apply F2. unfold is_amount. rewrite (rlt_true (e_ain e)) by exact He. rewrite rlt_true; [reflexivity|].
    rewrite Forall_forall in P. destruct H0 as [H0|H0]; rewrite H0 in F1; [apply P; exact F1|]. apply in_app_or in F1 as [F1|[<-|[]]]; [apply P; exact F1|cbn; lra]. }
  destruct (add_edge_obj_inv g2 e1) as (g3 & r & E & W3 & X3 & N3 & I3 & C3); [apply S|exact L1|exact L2|reflexivity|right; cbn; lra|].
  destruct C3 as [[-> C3]|(_ & _ & F)]; [|exfalso; apply (Q g2 e1); [auto|cbn; lra|exact F]]. rewrite E. cbn [negb]. rewrite connection_val by exact Hw.
  set (e2 := edge_make o _ i _ _ _). rewrite Ed in C3.
  destruct (add_edge_obj_inv g3 e2) as (g4 & r & E' & W4 & X4 & N4 & I4 & C4); [exact W3|rewrite N3; exact L2|rewrite N3; exact L1|reflexivity|right; cbn; lra|].
  destruct C4 as [[-> C4]|(_ & _ & F)]; [|exfalso; apply (Q g3 e2); [auto|cbn; lra|exact F]].
  exists g4, e1, e2. split; [exact E'|]. assert (Eg : g_edges g4 = g_edges g ++ [e1; e2]). { rewrite C4, C3, <- app_assoc. reflexivity. }
  split; [exact Eg|]. split; [apply leads_intro; [rewrite I4, I3; exact D1|rewrite I4, I3; exact D2|exact W4]|].
  split; [apply leads_intro; [rewrite I4, I3; exact D2|rewrite I4, I3; exact D1|exact W4]|].
  assert (NZ : req p 0 = false) by (apply req_false; lra).
  split; [unfold e_price_outperin, e_price; cbn; rewrite rdiv_ok by lra; f_equal; field; lra|].
  split; [unfold e_price_outperin, e_price; cbn; rewrite NZ; rewrite rdiv_ok by lra; f_equal; field; lra|].
  assert (Z : - (1 / p) * w <> 0). { assert (0 < 1 / p) by (apply Rdiv_lt_0_compat; lra). nra. }
  split; [unfold e_price; cbn; rewrite NZ; rewrite rdiv_ok by exact Z; f_equal; field; lra|].
  split; [unfold e_price; cbn; rewrite rdiv_ok by lra; f_equal; field; lra|]. split; [reflexivity|]. split; [reflexivity|].
  split; [eapply step_trans; [exact S|]; split; [exact W4|]; split; [eapply ext_trans; eauto|]; unfold uniq; rewrite N4, N3; auto|].
  split; [|split; reflexivity]. rewrite Eg. apply Forall_app. split; [exact P|]. constructor; [cbn; lra|]. constructor; [cbn; lra|constructor].
Qed.
Lemma cpc_exact uid : forall l g, winv g -> Forall (fun x => CpcSpec.pool_ok (fst x)) l -> Forall (fun e => e_ain e < 0) (g_edges g) ->
  exists g' es, add_edges_cpc g l uid = (g', None) /\ g_edges g' = g_edges g ++ es /\ List.length es = (2 * List.length l)%nat /\ ext g g' /\
    forall c cid, In (c, cid) l -> exists e1 e2, In e1 es /\ In e2 es /\ name g' (e_in e1) = Some (CpcModel.tknx c) /\ name g' (e_out e1) = Some (CpcModel.tkny c) /\
      e_in e2 = e_out e1 /\ e_out e2 = e_in e1 /\ e_price_outperin e1 = Ret (CpcModel.p c) /\ e_price_outperin e2 = Ret (1 / CpcModel.p c) /\
      e_uid e1 = Some (match uid with Some u => u | None => cid end) /\ e_uid e2 = Some (match uid with Some u => u | None => cid end ++ "-r")%string.
Proof.
  induction l as [|[c cid] l IH]; intros g W P Q.
  - exists g, []. split; [reflexivity|]. split; [symmetry; apply app_nil_r|]. split; [reflexivity|]. split; [apply ext_refl|]. intros ? ? [].
  - inversion P as [|? ? Pc Pl]; subst. cbn [fst] in Pc. cbn [add_edges_cpc].
    assert (Hp : 0 < CpcModel.p c) by (pose proof (CpcProofs.pool_pos c Pc) as (Y0 & _ & X0 & _); unfold CpcModel.p; apply Rdiv_lt_0_compat; assumption).
    destruct (connection_exact g (CpcModel.tknx c) (CpcModel.tkny c) (CpcModel.p c) 1 (Some (match uid with Some u => u | None => cid end)) W ltac:(lra) Hp Q)
      as (g1 & e1 & e2 & E & Eg & L1 & L2 & P1 & P2 & _ & _ & _ & _ & S & Q1 & U1 & U2).
    assert (E' : add_edge_connection g (CpcModel.tknx c) (CpcModel.tkny c) None false (Some (CpcModel.p c)) None true (Some (match uid with Some u => u | None => cid end)) = (g1, None)) by (rewrite <- E; reflexivity).
    rewrite E'. destruct (IH g1 (proj1 S) Pl Q1) as (g' & es & A & B & C & X & D). exists g', ([e1; e2] ++ es). split; [exact A|]. split; [rewrite B, Eg, <- app_assoc; reflexivity|].
    split; [cbn; rewrite C; lia|]. split; [eapply ext_trans; [apply S|exact X]|]. intros c' cid' [H|H].
    + injection H as <- <-. exists e1, e2. destruct L1 as (N1 & N2 & I1 & I2), L2 as (N3 & N4 & I3 & I4).
      split; [left; reflexivity|]. split; [right; left; reflexivity|]. split; [eapply ext_name; eauto|]. split; [eapply ext_name; eauto|].
      split; [congruence|]. split; [congruence|]. split; [exact P1|]. split; [exact P2|]. split; [exact U1|exact U2].
    + destruct (D _ _ H) as (f1 & f2 & F1 & F2 & F3). exists f1, f2. split; [right; right; exact F1|]. split; [right; right; exact F2|exact F3].
Qed.

(** trade instructions *)
Lemma net_app g g' es t : (forall e, In e (g_edges g) -> name g' (e_in e) = name g (e_in e) /\ name g' (e_out e) = name g (e_out e)) -> g_edges g' = g_edges g ++ es ->
  net g' t = net g t + fold_right (fun e s => (match name g' (e_in e) with Some u => if String.eqb u t then e_ain e else 0 | None => 0 end)
                       - (match name g' (e_out e) with Some u => if String.eqb u t then e_aout e else 0 | None => 0 end) + s) 0 es.
Proof.
  intros H E. unfold net at 1. rewrite E, fold_right_app. set (z := fold_right _ 0 es). clearbody z. unfold net. revert H. clear E. induction (g_edges g) as [|e l IH]; intros H; [cbn; lra|].
  cbn [fold_right]. rewrite IH by (intros f Hf; apply H; right; exact Hf). destruct (H e (or_introl eq_refl)) as [A B]. rewrite A, B. lra.
Qed.
Lemma winv_names g g' : winv g -> ext g g' -> forall e, In e (g_edges g) -> name g' (e_in e) = name g (e_in e) /\ name g' (e_out e) = name g (e_out e).
Proof.
  intros (_ & _ & _ & E & _) X e H. rewrite Forall_forall in E. destruct (E e H) as (A & B & _).
  assert (K : forall n, (n < List.length (g_nodes g))%nat -> name g' n = name g n).
  { intros n L. destruct (nth_error (g_nodes g) n) as [m|] eqn:Y; [|apply nth_error_None in Y; lia]. assert (Z : name g n = Some (n_tkn m)) by (unfold name; rewrite Y; reflexivity).
    rewrite Z. eapply ext_name; eauto. }
  split; apply K; assumption.
Qed.
Lemma dxdy_net g tx dx ty dy uid : winv g -> positive g -> dx * dy < 0 ->
  exists g', add_edge_dxdy g tx dx ty dy false uid = (g', None) /\ winv g' /\ positive g' /\ (exists e, g_edges g' = g_edges g ++ [e]) /\
    forall t, net g' t = net g t + ((if String.eqb tx t then dx else 0) + (if String.eqb ty t then dy else 0)).
Proof.
  intros W P H. destruct (Rlt_dec 0 dx) as [Hx|Hx].
  - assert (Hy : dy < 0) by nra. rewrite dxdy_in by assumption.
    destruct (add_edge_exact g tx dx ty (- dy) false uid W Hx ltac:(lra) P) as (g' & e & A & B & (N1 & N2 & _) & F & _ & S & P'). exists g'. split; [exact A|]. split; [apply S|]. split; [exact P'|]. split; [eauto|].
    intros t. rewrite (net_app g g' [e] t (winv_names g g' W (proj1 (proj2 S))) B). cbn [fold_right]. rewrite N1, N2. unfold fixed_part in F. injection F as F1 F2 _ _. rewrite F1, F2. destruct (String.eqb tx t), (String.eqb ty t); lra.
  - assert (Hx' : dx < 0). { destruct (Req_dec dx 0) as [->|]; lra. } assert (Hy : 0 < dy) by nra. rewrite dxdy_out by assumption.
    destruct (add_edge_exact g ty dy tx (- dx) false uid W Hy ltac:(lra) P) as (g' & e & A & B & (N1 & N2 & _) & F & _ & S & P'). exists g'. split; [exact A|]. split; [apply S|]. split; [exact P'|]. split; [eauto|].
    intros t. rewrite (net_app g g' [e] t (winv_names g g' W (proj1 (proj2 S))) B). cbn [fold_right]. rewrite N1, N2. unfold fixed_part in F. injection F as F1 F2 _ _. rewrite F1, F2. destruct (String.eqb tx t), (String.eqb ty t); lra.
Qed.
Lemma ccdxdy_net : forall l g, winv g -> positive g -> Forall (fun x => let '(_, dx, _, dy, _) := x in dx * dy < 0 \/ dx = 0 /\ dy = 0) l ->
  exists g', from_ccdxdy g l true = (g', None) /\ positive g' /\ forall t, net g' t = net g t + asked l t.
Proof.
  induction l as [|[[[[tx dx] ty] dy] cid] l IH]; intros g W P F.
  - exists g. split; [reflexivity|]. split; [exact P|]. intros t. cbn. lra.
  - inversion F as [|? ? F0 F1]; subst. cbn [from_ccdxdy]. cbn [andb]. destruct F0 as [H|[-> ->]].
    + assert (Z : req dx 0 && req dy 0 = false). { apply andb_false_iff. left. apply req_false. intros ->. lra. }
      rewrite Z. destruct (dxdy_net g tx dx ty dy (Some cid) W P H) as (g1 & A & W1 & P1 & _ & N1). rewrite A.
      destruct (IH g1 W1 P1 F1) as (g' & B & C & D). exists g'. split; [exact B|]. split; [exact C|]. intros t. rewrite D, N1. cbn [asked fold_right]. unfold asked. lra.
    + rewrite !(req_true 0 0) by reflexivity. cbn [andb]. destruct (IH g W P F1) as (g' & B & C & D). exists g'. split; [exact B|]. split; [exact C|].
      intros t. rewrite D. unfold asked. cbn [fold_right]. destruct (String.eqb tx t), (String.eqb ty t); lra.
Qed.
