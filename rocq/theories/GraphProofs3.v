(** Recorded transports. *)
From Coq Require Import Reals Lra Bool String List ZArith Arith Lia.
From Verif Require Import CurveModel CurveProofs GraphModel GraphSpec GraphProofs GraphProofs2.
Import ListNotations.
Local Open Scope R_scope.

Lemma EPS_pos : 0 < EPS. Proof. unfold EPS. apply Rinv_0_lt_compat, pow_lt. lra. Qed.

(** ** updating one element *)
Lemma upd_from {A} (l : list A) i f : forall k, map (fun p => if Nat.eqb (fst p) i then f (snd p) else snd p) (combine (seq k (List.length l)) l) =
  match (i <? k)%nat with true => l | false => firstn (i - k) l ++ match skipn (i - k) l with [] => [] | a :: r => f a :: r end end.
Proof.
  induction l as [|a l IH]; intros k.
  - cbn [List.length seq combine map]. destruct (i <? k)%nat; [reflexivity|]. rewrite firstn_nil, skipn_nil. reflexivity.
  - cbn [List.length seq combine map fst snd]. rewrite IH. destruct (Nat.eqb_spec k i) as [->|N].
    + rewrite Nat.ltb_irrefl, Nat.sub_diag. cbn [firstn skipn app]. rewrite (proj2 (Nat.ltb_lt _ _)) by lia. reflexivity.
    + destruct (Nat.ltb_spec i (S k)) as [L|L].
      * rewrite (proj2 (Nat.ltb_lt _ _)) by lia. reflexivity.
      * rewrite (proj2 (Nat.ltb_ge _ _)) by lia. replace (i - k)%nat with (S (i - S k)) by lia. reflexivity.
Qed.
Lemma upd_split {A} (l : list A) i f : upd l i f = firstn i l ++ match skipn i l with [] => [] | a :: r => f a :: r end.
Proof. unfold upd. rewrite upd_from, Nat.sub_0_r. reflexivity. Qed.
Lemma upd_app {A} (b : list A) a r f : upd (b ++ a :: r) (List.length b) f = b ++ f a :: r.
Proof. rewrite upd_split, skipn_app, skipn_all, Nat.sub_diag, firstn_app, firstn_all, Nat.sub_diag. cbn. rewrite app_nil_r. reflexivity. Qed.
Lemma upd_out {A} (l : list A) i f : (List.length l <= i)%nat -> upd l i f = l.
Proof. intros H. rewrite upd_split, skipn_all2, firstn_all2, app_nil_r by lia. reflexivity. Qed.
Lemma upd_nth {A} (l : list A) i f j : nth_error (upd l i f) j = if Nat.eqb j i then option_map f (nth_error l j) else nth_error l j.
Proof.
  destruct (Nat.lt_ge_cases i (List.length l)) as [H|H].
  - destruct (nth_error l i) as [a|] eqn:E; [|apply nth_error_None in E; lia]. apply nth_error_split in E as (b & r & -> & <-). rewrite upd_app.
    destruct (Nat.eqb_spec j (List.length b)) as [->|N]; [rewrite !nth_mid; reflexivity|].
    destruct (Nat.lt_ge_cases j (List.length b)); [rewrite !nth_error_app1 by lia; reflexivity|]. rewrite !nth_error_app2 by lia.
    destruct (j - List.length b)%nat eqn:X; [lia|reflexivity].
  - rewrite upd_out by exact H. destruct (Nat.eqb_spec j i) as [->|N]; [|reflexivity]. rewrite (proj2 (nth_error_None l i)) by exact H. reflexivity.
Qed.
Lemma upd_map {A B} (l : list A) i f (h : A -> B) : (forall a, h (f a) = h a) -> map h (upd l i f) = map h l.
Proof.
  intros H. rewrite upd_split. destruct (skipn i l) as [|a r] eqn:E; rewrite <- (firstn_skipn i l) at 2; rewrite E, !map_app; cbn [map]; rewrite ?H; reflexivity.
Qed.
Lemma upd_len {A} (l : list A) i f : List.length (upd l i f) = List.length l.
Proof. rewrite <- (map_length (fun _ => tt) (upd l i f)), <- (map_length (fun _ => tt) l). f_equal. apply upd_map. reflexivity. Qed.

(** ** one transport *)
Lemma add_amount_at g n d m : (n < List.length (g_nodes g))%nat -> node_amount (add_amount g n d) m = node_amount g m + if Nat.eqb n m then d else 0.
Proof.
  intros H. unfold node_amount, add_amount. cbn [g_nodes]. rewrite upd_nth. destruct (Nat.eqb_spec m n) as [->|N].
  - rewrite Nat.eqb_refl. destruct (nth_error (g_nodes g) n) as [x|] eqn:E; [|apply nth_error_None in E; lia]. cbn [option_map n_amount t_set t_reset t_value]. reflexivity.
  - rewrite (proj2 (Nat.eqb_neq n m)) by congruence. lra.
Qed.
Lemma add_amount_nodes g n d : map n_tkn (g_nodes (add_amount g n d)) = map n_tkn (g_nodes g).
Proof. unfold add_amount. cbn [g_nodes]. apply upd_map. reflexivity. Qed.
Lemma add_amount_len g n d : List.length (g_nodes (add_amount g n d)) = List.length (g_nodes g).
Proof. unfold add_amount. cbn [g_nodes]. apply upd_len. Qed.
Lemma same_refl g : same_graph g g. Proof. repeat split. Qed.
Lemma same_trans a b c : same_graph a b -> same_graph b c -> same_graph a c.
Proof. intros (A1 & A2 & A3 & A4) (B1 & B2 & B3 & B4). repeat split; congruence. Qed.
Lemma set_rem_same g i r : same_graph g (set_rem g i r).
Proof. unfold set_rem, same_graph. cbn. repeat split. apply upd_map. reflexivity. Qed.
Lemma add_amount_same g n d : same_graph g (add_amount g n d).
Proof. split; [apply add_amount_nodes|]. unfold add_amount. cbn. repeat split. Qed.
Lemma set_rem_amount g i r n : node_amount (set_rem g i r) n = node_amount g n. Proof. reflexivity. Qed.
Lemma set_rem_remaining g i r j e : nth_error (g_edges g) i = Some e -> remaining (set_rem g i r) j = if Nat.eqb j i then r else remaining g j.
Proof.
  intros E. unfold remaining, set_rem. cbn [g_edges]. rewrite upd_nth. destruct (Nat.eqb_spec j i) as [->|N]; [|reflexivity]. rewrite E. reflexivity.
Qed.
Definition sent (g : graph) (i : nat) (e : edge) (v : R) : graph :=
  add_amount (add_amount (set_rem g i (rem e - v)) (e_out e) (v * e_aout e / e_ain e)) (e_in e) (- v).
Lemma sent_amount g i e v n : linked g -> nth_error (g_edges g) i = Some e -> node_amount (sent g i e v) n = node_amount g n + effect e v n.
Proof.
  intros L E. apply nth_error_In in E. pose proof (proj1 (Forall_forall _ _) L e E) as (H1 & H2 & _). unfold sent.
  rewrite !add_amount_at by (rewrite ?add_amount_len; cbn; assumption). rewrite set_rem_amount. unfold effect.
  destruct (Nat.eqb (e_out e) n), (Nat.eqb (e_in e) n); unfold Rdiv; ring.
Qed.
Lemma sent_remaining g i e v j : nth_error (g_edges g) i = Some e -> remaining (sent g i e v) j = if Nat.eqb j i then remaining g i - v else remaining g j.
Proof.
  intros E. unfold sent. change (remaining (set_rem g i (rem e - v)) j = if Nat.eqb j i then remaining g i - v else remaining g j).
  rewrite (set_rem_remaining _ _ _ _ e) by exact E. unfold remaining at 2. rewrite E. reflexivity.
Qed.
Lemma sent_same g i e v : same_graph g (sent g i e v).
Proof. unfold sent. eapply same_trans; [apply set_rem_same|]. eapply same_trans; apply add_amount_same. Qed.
Lemma linked_same g g' : same_graph g g' -> (forall i e e', nth_error (g_edges g) i = Some e -> nth_error (g_edges g') i = Some e' -> e_rem e' = None <-> e_rem e = None) -> linked g -> linked g'.
Proof.
  intros (S1 & _ & S3 & _) HR L. assert (LN : List.length (g_nodes g') = List.length (g_nodes g)) by (rewrite <- (map_length n_tkn (g_nodes g')), S1; apply map_length).
  apply Forall_forall. intros e' He. apply In_nth_error in He as [i Hi]. 
  assert (X : nth_error (map fixed_part (g_edges g')) i = Some (fixed_part e')) by (rewrite nth_error_map, Hi; reflexivity).
  rewrite S3, nth_error_map in X. destruct (nth_error (g_edges g) i) as [e|] eqn:E; [|discriminate]. cbn in X. 
  assert (F : fixed_part e = fixed_part e') by congruence. unfold fixed_part in F. injection F as F1 F2 F3 F4 F5 F6.
  pose proof (nth_error_In _ _ E) as He. pose proof (proj1 (Forall_forall _ _) L e He) as (A & B & C). rewrite LN. specialize (HR i e e' E Hi).
  unfold is_amount in *. rewrite <- F1, <- F2, <- F3. split; [exact A|]. split; [exact B|]. rewrite C. split; intros H X'; apply H; tauto.
Qed.
Lemma sent_linked g i e v : linked g -> nth_error (g_edges g) i = Some e -> is_amount e = true -> linked (sent g i e v).
Proof.
  intros L E A. apply (linked_same g); [apply sent_same| |exact L]. intros j e1 e2 E1 E2. unfold sent, add_amount, set_rem in E2. cbn [g_edges] in E2. rewrite upd_nth in E2.
  pose proof (proj1 (Forall_forall _ _) L e (nth_error_In _ _ E)) as (_ & _ & C).
  destruct (Nat.eqb_spec j i) as [->|N]; [|assert (e1 = e2) by congruence; subst; tauto]. rewrite E in E1, E2. cbn in E2. injection E1 as <-. injection E2 as <-. cbn.
  split; [discriminate|]. intros X. exfalso. apply (proj1 C A). exact X.
Qed.

(** all outcomes of a recorded transport of a number *)
Lemma transport_cases g i e v re : linked g -> nth_error (g_edges g) i = Some e -> is_amount e = true ->
  edge_transport g i (Some (Num v)) true re =
    if negb (rle v (e_ain e + EPS)) then (g, Raise AssertionError) else
    if negb (rle (- EPS) v) then (g, Raise AssertionError) else
    if req (e_ain e) 0 then (g, Raise ZeroDivision) else
    if rlt (remaining g i - v) (- EPS) && re then (set_rem g i (remaining g i - v), Raise ValueError) else
    if rlt (node_amount (sent g i e v) (e_in e)) (- EPS) && re then (sent g i e v, Raise ValueError) else
    (sent g i e v, Ret (mkAmount (v * e_aout e / e_ain e) (e_out e))).
Proof.
  intros L E A. pose proof (proj1 (Forall_forall _ _) L e (nth_error_In _ _ E)) as (_ & _ & C). apply C in A as A'.
  unfold edge_transport. rewrite E, A. cbn [andb negb transport_in]. unfold transport_out. rewrite A. cbn [andb].
  destruct (negb (rle v (e_ain e + EPS))); [reflexivity|]. destruct (negb (rle (- EPS) v)); [reflexivity|]. unfold rdiv.
  destruct (req (e_ain e) 0); [reflexivity|]. unfold e_state. destruct (e_rem e) as [r|] eqn:Er; [|congruence].
  assert (RR : remaining g i = r) by (unfold remaining, GraphSpec.rem; rewrite E, Er; reflexivity). rewrite RR.
  assert (RE : GraphSpec.rem e = r) by (unfold GraphSpec.rem; rewrite Er; reflexivity).
  unfold sent. rewrite RE. reflexivity.
Qed.
Lemma unrecorded g i o re g' r : edge_transport g i o false re = (g', r) -> g' = g.
Proof.
  unfold edge_transport. destruct (nth_error (g_edges g) i) as [e|]; [|congruence]. cbn [andb negb].
  destruct (transport_in e o); [|congruence]. destruct (transport_out e a); congruence.
Qed.

(** ** sequences of transports *)
Lemma transport_ret g i v re g' a : linked g -> edge_transport g i (Some (Num v)) true re = (g', Ret a) ->
  exists e, nth_error (g_edges g) i = Some e /\ is_amount e = true /\ 0 < e_ain e /\ - EPS <= v <= e_ain e + EPS /\
  (re = true -> - EPS <= remaining g i - v /\ - EPS <= node_amount g' (e_in e)) /\
  g' = sent g i e v /\ a = mkAmount (v * e_aout e / e_ain e) (e_out e).
Proof.
  intros L H. destruct (nth_error (g_edges g) i) as [e|] eqn:E; [|unfold edge_transport in H; rewrite E in H; discriminate].
  destruct (is_amount e) eqn:A; [|unfold edge_transport in H; rewrite E, A in H; discriminate].
  rewrite (transport_cases g i e v re L E A) in H. exists e. split; [reflexivity|]. split; [exact A|].
  unfold is_amount, rlt in A. destruct (Rlt_dec (e_ain e) 0) as [|A']; [discriminate|].
  unfold rle in H. destruct (Rle_dec v (e_ain e + EPS)) as [H1|]; [|discriminate]. destruct (Rle_dec (- EPS) v) as [H2|]; [|discriminate]. cbn [negb] in H.
  unfold req in H. destruct (Req_EM_T (e_ain e) 0) as [|H3]; [discriminate|].
  unfold rlt in H. destruct (Rlt_dec (remaining g i - v) (- EPS)) as [H4|H4]; cbn [andb] in H.
  - destruct re; [discriminate|]. rewrite andb_false_r in H. split; [lra|]. split; [lra|]. split; [discriminate|]. split; congruence.
  - destruct (Rlt_dec (node_amount (sent g i e v) (e_in e)) (- EPS)) as [H5|H5]; cbn [andb] in H.
    + destruct re; [discriminate|]. split; [lra|]. split; [lra|]. split; [discriminate|]. split; congruence.
    + assert (g' = sent g i e v) by congruence. subst g'. split; [lra|]. split; [lra|]. split; [intros _; lra|]. split; congruence.
Qed.

Lemma combine_app2 {A B} (a b : list A) (c d : list B) : List.length a = List.length c -> combine (a ++ b) (c ++ d) = combine a c ++ combine b d.
Proof. revert c. induction a as [|x a IH]; intros [|y c] H; try discriminate; [reflexivity|]. cbn. f_equal. apply IH. cbn in H. lia. Qed.
Lemma booked_sum n (l : list (edge * edge)) a : fold_right (fun p s => effect (fst p) (GraphSpec.rem (fst p) - GraphSpec.rem (snd p)) n + s) a l =
  fold_right (fun p s => effect (fst p) (GraphSpec.rem (fst p) - GraphSpec.rem (snd p)) n + s) 0 l + a.
Proof. induction l as [|p l IH]; cbn [fold_right]; [ring|]. rewrite IH. ring. Qed.
Lemma booked_self g n : booked g g n = 0.
Proof.
  unfold booked. induction (g_edges g) as [|e l IH]; [reflexivity|]. cbn [combine fold_right fst snd]. rewrite IH. unfold effect.
  destruct (Nat.eqb _ _), (Nat.eqb _ _); ring.
Qed.
Lemma booked_step g0 g i e v n : same_graph g0 g -> nth_error (g_edges g) i = Some e -> booked g0 (sent g i e v) n = booked g0 g n + effect e v n.
Proof.
  intros (_ & _ & S & _) E. unfold booked. unfold sent, add_amount, set_rem. cbn [g_edges].
  set (f := fun e0 : edge => mkEdge (e_in e0) (e_ain e0) (e_out e0) (e_aout e0) (e_inv e0) (e_uid e0) (Some (GraphSpec.rem e - v))).
  assert (X : nth_error (map fixed_part (g_edges g)) i = Some (fixed_part e)) by (rewrite nth_error_map, E; reflexivity).
  rewrite S, nth_error_map in X. destruct (nth_error (g_edges g0) i) as [e0|] eqn:E0; [|discriminate]. cbn in X.
  assert (F : fixed_part e0 = fixed_part e) by congruence.
  assert (F1 : e_in e0 = e_in e) by (unfold fixed_part in F; congruence). assert (F2 : e_ain e0 = e_ain e) by (unfold fixed_part in F; congruence).
  assert (F3 : e_out e0 = e_out e) by (unfold fixed_part in F; congruence). assert (F4 : e_aout e0 = e_aout e) by (unfold fixed_part in F; congruence).
  apply nth_error_split in E as (b & r & E & Lb). apply nth_error_split in E0 as (b0 & r0 & E0 & Lb0). rewrite E, E0. subst i. rewrite upd_app.
  rewrite !combine_app2 by lia. rewrite !fold_right_app. cbn [combine fold_right fst snd]. rewrite (booked_sum n (combine b0 b) (effect _ _ _ + _)). rewrite (booked_sum n (combine b0 b) (effect _ _ _ + _)).
  set (u := fold_right _ 0 (combine b0 b)). set (w := fold_right _ 0 (combine r0 r)). clearbody u w.
  replace (GraphSpec.rem (f e)) with (GraphSpec.rem e - v) by reflexivity. unfold effect. rewrite F1, F2, F3, F4.
  destruct (Nat.eqb (e_out e) n), (Nat.eqb (e_in e) n); ring.
Qed.
Lemma ledger l : forall g0 g g', linked g -> same_graph g0 g -> run g l = Some g' -> same_graph g0 g' /\ linked g' /\
  forall n, node_amount g' n - booked g0 g' n = node_amount g n - booked g0 g n.
Proof.
  induction l as [|[i v] l IH]; intros g0 g g' L S H; [injection H as <-; auto|]. cbn [run] in H.
  destruct (edge_transport g i (Some (Num v)) true true) as [g1 [a|x]] eqn:T; [|discriminate].
  destruct (transport_ret g i v true g1 a L T) as (e & E & A & _ & _ & _ & -> & _).
  destruct (IH g0 (sent g i e v) g' (sent_linked g i e v L E A) (same_trans _ _ _ S (sent_same g i e v)) H) as (S' & L' & Hn).
  split; [exact S'|]. split; [exact L'|]. intros n. rewrite Hn, (booked_step g0 g i e v n S E), (sent_amount g i e v n L E). ring.
Qed.
