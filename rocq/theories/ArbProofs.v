(** The graphs of optimizer results. *)
From Coq Require Import Reals Lra Bool String List ZArith Arith Lia.
From Verif Require Import CurveModel CurveProofs CpcModel CpcSpec ContainerModel ContainerProofs OptModel OptSpec OptProofs2 OptProofs3 OptProofs6 OptProofs9 OptProofs10 GraphModel GraphSpec GraphProofs5 GraphProofs6 ArbModel ArbSpec.
Import ListNotations.
Local Open Scope R_scope.

Definition row : Type := string * R * string * R * string.
Definition opposed (x : row) : Prop := let '(_, dx, _, dy, _) := x in dx * dy < 0 \/ dx = 0 /\ dy = 0.
Definition stirs (x : row) : bool := let '(_, dx, _, dy, _) := x in negb (req dx 0 && req dy 0).
Definition drawn (g : graph) (x : row) (e : edge) : Prop :=
  let '(tx, dx, ty, dy, cid) := x in
  e_uid e = Some cid /\ e_inv e = false /\
  ((0 < dx /\ dy < 0 /\ name g (e_in e) = Some tx /\ e_ain e = dx /\ name g (e_out e) = Some ty /\ e_aout e = - dy) \/
   (dx < 0 /\ 0 < dy /\ name g (e_in e) = Some ty /\ e_ain e = dy /\ name g (e_out e) = Some tx /\ e_aout e = - dx)).
Definition names_of (g : graph) : list string := map n_tkn (g_nodes g).

(** zero trades are left out either way *)
Lemma ignorezero_same l : forall g, from_ccdxdy g l false = from_ccdxdy g l true.
Proof.
  induction l as [|[[[[tx dx] ty] dy] cid] l IH]; intros g; [reflexivity|]. cbn [from_ccdxdy andb]. destruct (req dx 0 && req dy 0) eqn:E.
  - apply andb_true_iff in E as [E1 E2]. apply req_iff in E1, E2. subst dx dy. unfold add_edge_dxdy. rewrite (rlt_false (0 * 0) 0) by lra. cbn [negb].
    rewrite rlt_false; [apply IH|]. unfold EPSDXDY. rewrite Rmult_0_l. apply Rlt_le, Rinv_0_lt_compat. apply pow_lt. lra.
  - destruct (add_edge_dxdy _ _ _ _ _ _ _) as [g' [e|]]; [reflexivity|apply IH].
Qed.

Lemma create_names g t g' n : winv g -> node_create g t = (g', Ret n) -> forall u, In u (names_of g') <-> In u (names_of g) \/ u = t.
Proof.
  intros W E u. destruct (node_create_inv g t W) as (g1 & m & A & W1 & X & Ed & D & Nm & L & U & M). rewrite E in A. injection A as <- <-. unfold names_of. rewrite M.
  rewrite in_app_iff. destruct (dict_get (g_index g) t) as [k|] eqn:Dk.
  - split; [intros [H|[]]; left; exact H|]. intros [H| ->]; [left; exact H|]. left. apply (proj1 (proj2 W)) in Dk. destruct Dk as [Dk _]. unfold name in Dk.
    destruct (nth_error (g_nodes g) k) as [w|] eqn:Y; [|discriminate]. cbn in Dk. injection Dk as <-. apply in_map, (nth_error_In _ _ Y).
  - cbn. intuition.
Qed.
Lemma edge_obj_nodes g e g' r : add_edge_obj g e = (g', r) -> g_nodes g' = g_nodes g.
Proof. unfold add_edge_obj. destruct (match g_is_amount g with None => false | Some b => _ end); [intros H; injection H as <- _; reflexivity|]. destruct (g_fixed g); intros H; injection H as <- _; reflexivity. Qed.
Lemma add_edge_names g ti ai to ao inv uid g' : winv g -> add_edge g ti ai to ao inv uid = (g', None) -> forall u, In u (names_of g') <-> In u (names_of g) \/ u = ti \/ u = to.
Proof.
  intros W. unfold add_edge. destruct (negb (rlt 0 ai)); [discriminate|]. destruct (negb (rlt 0 ao)); [discriminate|]. destruct (two_nodes g ti to W) as (g1 & i & g2 & o & A & B & _).
  rewrite A, B. intros H u. apply edge_obj_nodes in H. unfold names_of at 1. rewrite H.
  assert (W1 : winv g1). { destruct (node_create_inv g ti W) as (gx & n & Ax & Wx & _). rewrite A in Ax. injection Ax as <- <-. exact Wx. }
  change (In u (names_of g2) <-> In u (names_of g) \/ u = ti \/ u = to). rewrite (create_names g1 to g2 o W1 B), (create_names g ti g1 i W A). tauto.
Qed.
Lemma drawn_ext g g' x e : ext g g' -> drawn g x e -> drawn g' x e.
Proof.
  destruct x as [[[[tx dx] ty] dy] cid]. intros X (U & I & H). split; [exact U|]. split; [exact I|].
  destruct H as [(A & B & C & D & E & F)|(A & B & C & D & E & F)]; [left|right]; (split; [exact A|]; split; [exact B|]; split; [eapply ext_name; eauto|]; split; [exact D|]; split; [eapply ext_name; eauto|exact F]).
Qed.
Lemma dxdy_step g tx dx ty dy cid : winv g -> positive g -> dx * dy < 0 ->
  exists g' e, add_edge_dxdy g tx dx ty dy false (Some cid) = (g', None) /\ step g g' /\ positive g' /\ g_edges g' = g_edges g ++ [e] /\ drawn g' (tx, dx, ty, dy, cid) e /\
    (forall u, In u (names_of g') <-> In u (names_of g) \/ u = tx \/ u = ty).
Proof.
  intros W P H. destruct (Rlt_dec 0 dx) as [Hx|Hx].
  - assert (Hy : dy < 0) by nra. rewrite dxdy_in by assumption.
    destruct (add_edge_exact g tx dx ty (- dy) false (Some cid) W Hx ltac:(lra) P) as (g' & e & A & B & (N1 & N2 & _) & F & _ & S & P'). exists g', e.
    split; [exact A|]. split; [exact S|]. split; [exact P'|]. split; [exact B|]. unfold fixed_part in F. injection F as F1 F2 F3 F4.
    split; [split; [exact F4|]; split; [exact F3|]; left; auto 8|]. intros u. exact (add_edge_names _ _ _ _ _ _ _ _ W A u).
  - assert (Hx' : dx < 0). { destruct (Req_dec dx 0) as [->|]; lra. } assert (Hy : 0 < dy) by nra. rewrite dxdy_out by assumption.
    destruct (add_edge_exact g ty dy tx (- dx) false (Some cid) W Hy ltac:(lra) P) as (g' & e & A & B & (N1 & N2 & _) & F & _ & S & P'). exists g', e.
    split; [exact A|]. split; [exact S|]. split; [exact P'|]. split; [exact B|]. unfold fixed_part in F. injection F as F1 F2 F3 F4.
    split; [split; [exact F4|]; split; [exact F3|]; right; auto 8|]. intros u. rewrite (add_edge_names _ _ _ _ _ _ _ _ W A u). tauto.
Qed.
Definition touches (u : string) (x : row) : Prop := let '(tx, _, ty, _, _) := x in u = tx \/ u = ty.
Lemma rows_graph : forall l g, winv g -> positive g -> Forall opposed l ->
  exists g' es, from_ccdxdy g l true = (g', None) /\ step g g' /\ positive g' /\ g_edges g' = g_edges g ++ es /\ Forall2 (drawn g') (filter stirs l) es /\
    (forall u, In u (names_of g') <-> In u (names_of g) \/ exists x, In x (filter stirs l) /\ touches u x).
Proof.
  induction l as [|[[[[tx dx] ty] dy] cid] l IH]; intros g W P F.
  - exists g, []. split; [reflexivity|]. split; [apply step_refl, W|]. split; [exact P|]. split; [symmetry; apply app_nil_r|]. split; [constructor|]. intros u. split; [auto|]. intros [H|(x & [] & _)]. exact H.
  - inversion F as [|? ? F0 F1]; subst. cbn [from_ccdxdy filter stirs andb]. destruct F0 as [H|[-> ->]].
    + assert (Z : req dx 0 && req dy 0 = false). { apply andb_false_iff. left. apply req_false. intros ->. lra. }
      rewrite Z. cbn [negb]. destruct (dxdy_step g tx dx ty dy cid W P H) as (g1 & e & A & S & P1 & E1 & D1 & N1). rewrite A.
      destruct (IH g1 (proj1 S) P1 F1) as (g' & es & B & S' & C & E' & D & N). exists g', (e :: es). split; [exact B|]. split; [eapply step_trans; eauto|]. split; [exact C|].
      split; [rewrite E', E1, <- app_assoc; reflexivity|]. split; [constructor; [eapply drawn_ext; [apply S'|exact D1]|exact D]|].
      intros u. rewrite N, N1. split.
      * intros [[Hu|Hu]|(x & X1 & X2)]; [auto|right; exists (tx, dx, ty, dy, cid); split; [left; reflexivity|exact Hu]|right; exists x; split; [right; exact X1|exact X2]].
      * intros [Hu|(x & [<-|X1] & X2)]; [auto|left; right; exact X2|right; exists x; auto].
    + rewrite !(req_true 0 0) by reflexivity. cbn [andb negb]. exact (IH g W P F1).
Qed.
Lemma rows_net l g : winv g -> positive g -> Forall opposed l -> forall g', from_ccdxdy g l true = (g', None) -> forall t, net g' t = net g t + asked l t.
Proof. intros W P F g' E t. destruct (ccdxdy_net l g W P F) as (g1 & A & _ & N). rewrite E in A. injection A as <-. apply N. Qed.

(** trades of pools as rows *)
Definition rows_of (cid : nat -> string) (i : nat) (l : list (cpc * R * R)) : list row := trades cid i (map (fun e => (tknx (fst (fst e)), tkny (fst (fst e)))) l) (map (fun e => (snd (fst e), snd e)) l).
Lemma rows_asked cid l t : forall i, asked (rows_of cid i l) t = OptSpec.net l t.
Proof.
  induction l as [|[[c dx] dy] l IH]; intros i; [reflexivity|]. cbn [rows_of map trades fst snd asked fold_right OptSpec.net OptSpec.flow]. unfold asked in IH. unfold rows_of in IH. rewrite IH.
  destruct (String.eqb_spec (tknx c) t), (string_dec (tknx c) t), (String.eqb_spec (tkny c) t), (string_dec (tkny c) t); try congruence; ring.
Qed.
Lemma rows_opposed cid l : Forall (fun e => let '(c, dx, dy) := e in (dx = 0 /\ dy = 0) \/ (0 < dx /\ dy < 0) \/ (dx < 0 /\ 0 < dy)) l -> forall i, Forall opposed (rows_of cid i l).
Proof.
  intros H. induction H as [|[[c dx] dy] l H0 _ IH]; intros i; [constructor|]. cbn [rows_of map trades fst snd]. constructor; [|apply IH]. cbn. destruct H0 as [H0|[H0|H0]]; [right; exact H0|left; nra|left; nra].
Qed.
Lemma rows_shown cid g l : forall i es, Forall2 (drawn g) (filter stirs (rows_of cid i l)) es -> Forall2 (shows cid g) (moving i l) es.
Proof.
  induction l as [|[[c dx] dy] l IH]; intros i es H; [inversion H; constructor|]. cbn [rows_of map trades fst snd filter stirs] in H. cbn [moving]. unfold req in H.
  destruct (Req_EM_T dx 0) as [Ex|Ex], (Req_EM_T dy 0) as [Ey|Ey]; cbn [andb negb] in H; try (inversion H as [|? ? ? ? H1 H2]; subst; constructor; [exact H1|apply IH; exact H2]). apply IH. exact H.
Qed.
Lemma rows_touch cid u l : forall i, (exists x, In x (filter stirs (rows_of cid i l)) /\ touches u x) <-> (exists n c dx dy, In (n, (c, dx, dy)) (moving i l) /\ (tknx c = u \/ tkny c = u)).
Proof.
  induction l as [|[[c dx] dy] l IH]; intros i; [split; [intros (x & [] & _)|intros (n & c & dx & dy & [] & _)]|]. cbn [rows_of map trades fst snd filter stirs]. cbn [moving]. unfold req.
  assert (C : (exists x, In x ((tknx c, dx, tkny c, dy, cid i) :: filter stirs (rows_of cid (S i) l)) /\ touches u x) <->
              (exists n c0 dx0 dy0, In (n, (c0, dx0, dy0)) ((i, (c, dx, dy)) :: moving (S i) l) /\ (tknx c0 = u \/ tkny c0 = u))).
  { split.
    - intros (x & [<-|X1] & X2); [exists i, c, dx, dy; split; [left; reflexivity|]; cbn in X2; destruct X2; auto|]. destruct (proj1 (IH (S i)) (ex_intro _ x (conj X1 X2))) as (n & c0 & a & b & Y1 & Y2).
      exists n, c0, a, b. split; [right; exact Y1|exact Y2].
    - intros (n & c0 & a & b & [Y1|Y1] & Y2); [injection Y1 as <- <- <- <-; eexists; split; [left; reflexivity|]; cbn; destruct Y2; auto|].
      destruct (proj2 (IH (S i))) as (x & X1 & X2); [exists n, c0, a, b; auto|]. exists x. split; [right; exact X1|exact X2]. }
  destruct (Req_EM_T dx 0) as [Ex|Ex], (Req_EM_T dy 0) as [Ey|Ey]; cbn [andb negb]; try exact C. apply IH.
Qed.
(** the graph of a list of trades *)
Lemma trades_graph cid l : Forall (fun e => let '(c, dx, dy) := e in (dx = 0 /\ dy = 0) \/ (0 < dx /\ dy < 0) \/ (dx < 0 /\ 0 < dy)) l ->
  forall iz, exists g, from_ccdxdy empty_graph (rows_of cid 0 l) iz = (g, None) /\ positive g /\ NoDup (map n_tkn (g_nodes g)) /\ Forall2 (shows cid g) (moving 0 l) (g_edges g) /\
    (forall t, net g t = OptSpec.net l t) /\ (forall u, (exists n, name g n = Some u) <-> exists n c dx dy, In (n, (c, dx, dy)) (moving 0 l) /\ (tknx c = u \/ tkny c = u)).
Proof.
  intros H iz. pose proof (rows_opposed cid l H 0) as O. destruct (rows_graph (rows_of cid 0 l) empty_graph empty_inv ltac:(constructor) O) as (g & es & A & S & P & E & D & N).
  exists g. split; [destruct iz; [exact A|rewrite ignorezero_same; exact A]|]. split; [exact P|]. split; [apply (proj2 (proj2 S)); constructor|]. cbn [g_edges empty_graph app] in E. rewrite E.
  split; [apply rows_shown, D|]. split.
  - intros t. rewrite (rows_net _ empty_graph empty_inv ltac:(constructor) O g A t), rows_asked. unfold net. cbn. ring.
  - intros u. rewrite <- (rows_touch cid u l 0). specialize (N u). cbn [names_of empty_graph g_nodes map In] in N. split.
    + intros (n & Hn). unfold name in Hn. destruct (nth_error (g_nodes g) n) as [w|] eqn:Y; [|discriminate]. cbn in Hn. injection Hn as <-. apply nth_error_In in Y.
      destruct (proj1 N (in_map n_tkn _ _ Y)) as [[]|X]. exact X.
    + intros X. apply (or_intror (A := False)) in X. apply N in X. unfold names_of in X. apply in_map_iff in X as (w & <- & Hw). apply In_nth_error in Hw as (n & Hn). exists n. unfold name. rewrite Hn. reflexivity.
Qed.
