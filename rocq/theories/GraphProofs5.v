(** Building graphs. *)
From Coq Require Import Reals Lra Bool String List ZArith Arith Lia.
From Verif Require Import CurveModel CurveProofs GraphModel GraphSpec GraphProofs GraphProofs2 GraphProofs3.
From Verif Require CpcModel CpcSpec CpcProofs CpcProofs2.
Import ListNotations.
Local Open Scope R_scope.

Lemma dict_get_set d t n u : dict_get (dict_set d t n) u = if String.eqb t u then Some n else dict_get d u.
Proof.
  induction d as [|[w m] d IH]; cbn [dict_set dict_get].
  - destruct (String.eqb t u); reflexivity.
  - destruct (String.eqb_spec w t) as [->|N]; cbn [dict_get].
    + destruct (String.eqb t u); reflexivity.
    + rewrite IH. destruct (String.eqb_spec w u) as [->|]; [|reflexivity]. rewrite (proj2 (String.eqb_neq t u)) by congruence. reflexivity.
Qed.

(** invariant of graphs under construction *)
Definition winv (g : graph) : Prop :=
  g_fixed g = false /\ (forall t n, dict_get (g_index g) t = Some n <-> last_named g t n) /\
  Forall (fun m => n_amount m = t_new None) (g_nodes g) /\
  Forall (fun e => (e_in e < List.length (g_nodes g))%nat /\ (e_out e < List.length (g_nodes g))%nat /\ e_rem e = (if rlt (e_ain e) 0 then None else Some (e_ain e))) (g_edges g) /\
  (Forall (fun e => 0 < e_ain e /\ 0 < e_aout e) (g_edges g) \/ Forall (fun e => e_ain e < 0) (g_edges g)).
(** [g'] extends [g]: old nodes and edges keep their places *)
Definition ext (g g' : graph) : Prop := (exists ns, g_nodes g' = g_nodes g ++ ns) /\ (exists es, g_edges g' = g_edges g ++ es).
Lemma ext_refl g : ext g g. Proof. split; exists []; symmetry; apply app_nil_r. Qed.
Lemma ext_trans a b c : ext a b -> ext b c -> ext a c.
Proof. intros [[n1 E1] [e1 F1]] [[n2 E2] [e2 F2]]. split; [exists (n1 ++ n2)|exists (e1 ++ e2)]; [rewrite E2, E1|rewrite F2, F1]; symmetry; apply app_assoc. Qed.
Lemma ext_name g g' n t : ext g g' -> name g n = Some t -> name g' n = Some t.
Proof.
  intros [[ns E] _]. unfold name. rewrite E. destruct (nth_error (g_nodes g) n) as [m|] eqn:X; [|discriminate].
  rewrite nth_error_app1, X by (apply nth_error_Some; congruence). auto.
Qed.
Lemma ext_edge g g' e : ext g g' -> In e (g_edges g) -> In e (g_edges g').
Proof. intros [_ [es E]] H. rewrite E. apply in_or_app. auto. Qed.
Lemma name_app g ns n : name (mkGraph (g_nodes g ++ ns) (g_index g) (g_edges g) (g_fixed g)) n = nth_error (map n_tkn (g_nodes g) ++ map n_tkn ns) n.
Proof. unfold name. cbn. rewrite <- map_app, nth_error_map. reflexivity. Qed.
Lemma name_map g n : name g n = nth_error (map n_tkn (g_nodes g)) n. Proof. unfold name. rewrite nth_error_map. reflexivity. Qed.

Lemma empty_inv : winv empty_graph.
Proof.
  split; [reflexivity|]. split; [|split; [constructor|split; [constructor|left; constructor]]]. intros t n. split; [discriminate|].
  intros [H _]. unfold name, empty_graph in H. cbn in H. destruct n; discriminate.
Qed.
Lemma add_node_inv g t : winv g -> exists g', add_node g t = (g', None) /\ winv g' /\ ext g g' /\ g_edges g' = g_edges g /\
  map n_tkn (g_nodes g') = map n_tkn (g_nodes g) ++ [t] /\ dict_get (g_index g') t = Some (List.length (g_nodes g)).
Proof.
  intros (F & I & N & E & K). unfold add_node. rewrite F. eexists. split; [reflexivity|].
  assert (NM : forall m, name (mkGraph (g_nodes g ++ [new_node t]) (dict_set (g_index g) t (List.length (g_nodes g))) (g_edges g) false) m = nth_error (map n_tkn (g_nodes g) ++ [t]) m).
  { intros m. rewrite name_map. cbn [g_nodes]. rewrite map_app. reflexivity. }
  split; [|split; [|split; [reflexivity|split; [cbn; rewrite map_app; reflexivity|cbn [g_index]; rewrite dict_get_set, String.eqb_refl; reflexivity]]]].
  - split; [reflexivity|]. split; [|split; [|split; [|exact K]]].
    + intros u n. cbn [g_index]. rewrite dict_get_set. unfold last_named. rewrite NM. destruct (String.eqb_spec t u) as [->|D].
      * split.
        -- intros [= <-]. split; [rewrite nth_error_app2, map_length, Nat.sub_diag by (rewrite map_length; lia); reflexivity|].
           intros m Hm. rewrite NM. rewrite (proj2 (nth_error_None _ m)); [discriminate|]. rewrite app_length, map_length. cbn. lia.
        -- intros [H1 H2]. destruct (Nat.lt_trichotomy n (List.length (g_nodes g))) as [H|[H|H]]; [|congruence|].
           ++ exfalso. apply (H2 _ H). rewrite NM, nth_error_app2, map_length, Nat.sub_diag by (rewrite map_length; lia). reflexivity.
           ++ rewrite (proj2 (nth_error_None _ n)) in H1; [discriminate|]. rewrite app_length, map_length. cbn. lia.
      * rewrite I. unfold last_named. rewrite name_map. split; intros [H1 H2]; split.
        -- rewrite nth_error_app1 by (apply nth_error_Some; congruence). exact H1.
        -- intros m Hm. rewrite NM. destruct (Nat.lt_ge_cases m (List.length (g_nodes g))) as [L|L].
           ++ rewrite nth_error_app1 by (rewrite map_length; exact L). rewrite <- name_map. apply H2. exact Hm.
           ++ rewrite nth_error_app2 by (rewrite map_length; exact L). destruct (m - List.length (map n_tkn (g_nodes g)))%nat as [|q]; cbn; [congruence|]. destruct q; discriminate.
        -- destruct (Nat.lt_ge_cases n (List.length (g_nodes g))) as [L|L]; [rewrite nth_error_app1 in H1 by (rewrite map_length; exact L); exact H1|].
           rewrite nth_error_app2 in H1 by (rewrite map_length; exact L). destruct (n - List.length (map n_tkn (g_nodes g)))%nat as [|q]; cbn in H1; [congruence|]. destruct q; discriminate.
        -- intros m Hm X. apply (H2 m Hm). rewrite NM. rewrite name_map in X. rewrite nth_error_app1 by (apply nth_error_Some; congruence). exact X.
    + cbn [g_nodes]. apply Forall_app. split; [exact N|]. constructor; [reflexivity|constructor].
    + cbn [g_nodes g_edges]. rewrite app_length. cbn [List.length]. eapply Forall_impl; [|exact E]. cbn beta. intros e (A & B & C). split; [lia|]. split; [lia|exact C].
  - split; [exists [new_node t]; reflexivity|exists []; cbn; symmetry; apply app_nil_r].
Qed.
Lemma node_create_inv g t : winv g -> exists g' n, node_create g t = (g', Ret n) /\ winv g' /\ ext g g' /\ g_edges g' = g_edges g /\
  dict_get (g_index g') t = Some n /\ name g' n = Some t /\ (n < List.length (g_nodes g'))%nat /\ (NoDup (map n_tkn (g_nodes g)) -> NoDup (map n_tkn (g_nodes g'))) /\
  map n_tkn (g_nodes g') = map n_tkn (g_nodes g) ++ (match dict_get (g_index g) t with Some _ => [] | None => [t] end).
Proof.
  intros H. unfold node_create. destruct (dict_get (g_index g) t) as [n|] eqn:E.
  - exists g, n. split; [reflexivity|]. split; [exact H|]. split; [apply ext_refl|]. split; [reflexivity|]. split; [exact E|].
    pose proof (proj1 (proj1 (proj2 H) t n) E) as [X _]. split; [exact X|]. split; [|split; [auto|symmetry; apply app_nil_r]].
    unfold name in X. destruct (nth_error (g_nodes g) n) eqn:Y; [|discriminate]. apply nth_error_Some. congruence.
  - destruct (add_node_inv g t H) as (g' & A & W & X & Ed & Nm & D). rewrite A. exists g', (List.length (g_nodes g)). unfold node_by_tkn. rewrite D.
    split; [reflexivity|]. split; [exact W|]. split; [exact X|]. split; [exact Ed|]. split; [reflexivity|].
    split; [rewrite name_map, Nm, nth_error_app2, map_length, Nat.sub_diag by (rewrite map_length; lia); reflexivity|].
    split; [rewrite <- (map_length n_tkn (g_nodes g')), Nm, app_length, map_length; cbn; lia|]. split; [|exact Nm].
    intros ND. rewrite Nm. apply (Permutation.Permutation_NoDup (Permutation.Permutation_app_comm [t] _)). cbn. constructor; [|exact ND].
    intros C. apply In_nth_error in C as [m Hm]. rewrite <- name_map in Hm.
    (* some last position would be in the dictionary *)
    assert (Q : exists n, last_named g t n).
    { clear - Hm. unfold last_named. assert (B : forall k, name g k <> None -> (k < List.length (g_nodes g))%nat).
      { intros k Hk. unfold name in Hk. apply nth_error_Some. destruct (nth_error (g_nodes g) k); [discriminate|]. exfalso. apply Hk. reflexivity. }
      remember (List.length (g_nodes g) - m)%nat as d eqn:Ed. revert m Hm Ed. induction d as [d IH] using lt_wf_ind. intros m Hm Ed.
      assert (Lm : (m < List.length (g_nodes g))%nat) by (apply B; congruence).
      assert (X : forall j, (exists k, (m < k < m + S j)%nat /\ name g k = Some t) \/ (forall k, (m < k < m + S j)%nat -> name g k <> Some t)).
      { induction j as [|j [(k & K1 & K2)|K]]; [right; intros; lia|left; exists k; split; [lia|exact K2]|].
        destruct (name g (m + S j)) as [u|] eqn:U.
        - destruct (String.eqb_spec u t) as [->|Du]; [left; exists (m + S j)%nat; split; [lia|exact U]|]. right. intros k Hk. destruct (Nat.eq_dec k (m + S j)) as [->|]; [congruence|apply K; lia].
        - right. intros k Hk. destruct (Nat.eq_dec k (m + S j)) as [->|]; [congruence|apply K; lia]. }
      destruct (X (List.length (g_nodes g))) as [(k & K1 & K2)|K].
      - apply (IH (List.length (g_nodes g) - k)%nat) with k; [lia|exact K2|reflexivity].
      - exists m. split; [exact Hm|]. intros k Hk C. apply (K k); [|exact C]. assert (k < List.length (g_nodes g))%nat by (apply B; congruence). lia. }
    destruct Q as [n Q]. apply (proj1 (proj2 H)) in Q. congruence.
Qed.
Lemma add_edge_obj_inv g e : winv g -> (e_in e < List.length (g_nodes g))%nat -> (e_out e < List.length (g_nodes g))%nat ->
  e_rem e = (if rlt (e_ain e) 0 then None else Some (e_ain e)) -> (0 < e_ain e /\ 0 < e_aout e) \/ e_ain e < 0 ->
  exists g' r, add_edge_obj g e = (g', r) /\ winv g' /\ ext g g' /\ g_nodes g' = g_nodes g /\ g_index g' = g_index g /\
  ((r = None /\ g_edges g' = g_edges g ++ [e]) \/ (r = Some ValueError /\ g' = g /\ exists f, In f (g_edges g) /\ is_amount f <> is_amount e)).
Proof.
  intros (F & I & N & E & K) H1 H2 H3 H4. unfold add_edge_obj, g_is_amount. rewrite F.
  assert (MK : forall b, match g_edges g with [] => True | f :: _ => is_amount f = b end -> is_amount e = b ->
    winv (mkGraph (g_nodes g) (g_index g) (g_edges g ++ [e]) false) /\ ext g (mkGraph (g_nodes g) (g_index g) (g_edges g ++ [e]) false)).
  { intros b Hb He. split.
    - split; [reflexivity|]. split; [exact I|]. split; [exact N|]. split; [cbn [g_edges g_nodes]; apply Forall_app; split; [exact E|constructor; [auto|constructor]]|].
      cbn [g_edges]. destruct K as [K|K], H4 as [H4|H4].
      + left. apply Forall_app. split; [exact K|]. constructor; [exact H4|constructor].
      + destruct (g_edges g) as [|f l]; [right; constructor; [exact H4|constructor]|]. exfalso. inversion K as [|? ? [K1 K2] K3]; clear K K3. unfold is_amount in Hb, He. rewrite (rlt_false (e_ain f) 0) in Hb by lra. rewrite rlt_true in He by lra. cbn in *. congruence.
      + destruct (g_edges g) as [|f l]; [left; constructor; [exact H4|constructor]|]. exfalso. inversion K as [|? ? K1 K3]; clear K K3. unfold is_amount in Hb, He. rewrite (rlt_true (e_ain f) 0) in Hb by lra. rewrite rlt_false in He by lra. cbn in *. congruence.
      + right. apply Forall_app. split; [exact K|]. constructor; [exact H4|constructor].
    - split; [exists []; symmetry; apply app_nil_r|exists [e]; reflexivity]. }
  destruct (g_edges g) as [|f l] eqn:G.
  - do 2 eexists. split; [reflexivity|]. destruct (MK (is_amount e) Logic.I eq_refl) as [A B]. split; [exact A|]. split; [exact B|]. split; [reflexivity|]. split; [reflexivity|].
    left. split; reflexivity.
  - destruct (Bool.eqb (is_amount e) (is_amount f)) eqn:B; cbn [negb].
    + apply eqb_prop in B. do 2 eexists. split; [reflexivity|]. destruct (MK (is_amount e) (eq_sym B) eq_refl) as [X Y]. split; [exact X|]. split; [exact Y|].
      split; [reflexivity|]. split; [reflexivity|]. left. split; reflexivity.
    + apply eqb_false_iff in B. do 2 eexists. split; [reflexivity|]. split; [split; [exact F|]; split; [exact I|]; split; [exact N|]; rewrite G; split; [exact E|exact K]|].
      split; [apply ext_refl|]. split; [reflexivity|]. split; [reflexivity|]. right. split; [reflexivity|]. split; [reflexivity|]. exists f. split; [left; reflexivity|congruence].
Qed.

Definition uniq (g : graph) : Prop := NoDup (map n_tkn (g_nodes g)).
(** what every call preserves *)
Definition step (g g' : graph) : Prop := winv g' /\ ext g g' /\ (uniq g -> uniq g').
Lemma step_refl g : winv g -> step g g. Proof. intros H. split; [exact H|]. split; [apply ext_refl|auto]. Qed.
Lemma step_trans a b c : step a b -> step b c -> step a c.
Proof. intros (A & B & C) (D & E & F). split; [exact D|]. split; [eapply ext_trans; eauto|auto]. Qed.

(** the two nodes of a new edge *)
Lemma two_nodes g ti to : winv g -> exists g1 i g2 o, node_create g ti = (g1, Ret i) /\ node_create g1 to = (g2, Ret o) /\ step g g2 /\
  g_edges g2 = g_edges g /\ dict_get (g_index g2) ti = Some i /\ dict_get (g_index g2) to = Some o /\ name g2 i = Some ti /\ name g2 o = Some to /\
  (i < List.length (g_nodes g2))%nat /\ (o < List.length (g_nodes g2))%nat /\ (forall t n, dict_get (g_index g) t = Some n -> dict_get (g_index g2) t = Some n).
Proof.
  intros H. destruct (node_create_inv g ti H) as (g1 & i & A & W & X & Ed & D & Nm & L & U & M).
  destruct (node_create_inv g1 to W) as (g2 & o & A' & W' & X' & Ed' & D' & Nm' & L' & U' & M').
  assert (P : forall a b t w n, node_create a w = (b, Ret n) -> dict_get (g_index a) t = Some n -> dict_get (g_index b) t = Some n -> True) by auto. clear P.
  assert (K : forall a b w k, node_create a w = (b, Ret k) -> winv a -> forall t n, dict_get (g_index a) t = Some n -> dict_get (g_index b) t = Some n).
  { intros a b w k C Wa t n Hn. unfold node_create in C. destruct (dict_get (g_index a) w) eqn:E; [injection C as <- _; exact Hn|].
    unfold add_node in C. rewrite (proj1 Wa) in C. injection C as <- _. cbn [g_index]. rewrite dict_get_set. destruct (String.eqb_spec w t); [congruence|exact Hn]. }
  exists g1, i, g2, o. split; [exact A|]. split; [exact A'|]. split; [apply step_trans with g1; split; auto; split; auto|].
  split; [congruence|]. split; [eapply K; eauto|]. split; [exact D'|]. split; [eapply ext_name; eauto|]. split; [exact Nm'|]. split; [|split; [exact L'|]].
  - destruct X' as [[ns E] _]. rewrite E, app_length. lia.
  - intros t n Hn. eapply K; [exact A'|exact W|]. eapply K; eauto.
Qed.
Lemma step_obj g e : winv g -> (e_in e < List.length (g_nodes g))%nat -> (e_out e < List.length (g_nodes g))%nat ->
  e_rem e = (if rlt (e_ain e) 0 then None else Some (e_ain e)) -> (0 < e_ain e /\ 0 < e_aout e) \/ e_ain e < 0 -> step g (fst (add_edge_obj g e)).
Proof.
  intros H A B C D. destruct (add_edge_obj_inv g e H A B C D) as (g' & r & E & W & X & N & _). rewrite E. cbn. split; [exact W|]. split; [exact X|].
  unfold uniq. rewrite N. auto.
Qed.
Lemma add_edge_ok g ti ai to ao inv uid : winv g -> 0 < ai -> 0 < ao ->
  exists g2 i o, step g g2 /\ g_edges g2 = g_edges g /\ name g2 i = Some ti /\ name g2 o = Some to /\ dict_get (g_index g2) ti = Some i /\ dict_get (g_index g2) to = Some o /\
   (forall t n, dict_get (g_index g) t = Some n -> dict_get (g_index g2) t = Some n) /\
   add_edge g ti ai to ao inv uid = add_edge_obj g2 (edge_make i ai o ao inv uid) /\
   (i < List.length (g_nodes g2))%nat /\ (o < List.length (g_nodes g2))%nat.
Proof.
  intros H Ha Hb. destruct (two_nodes g ti to H) as (g1 & i & g2 & o & A & B & S & Ed & D1 & D2 & N1 & N2 & L1 & L2 & K).
  exists g2, i, o. split; [exact S|]. split; [exact Ed|]. split; [exact N1|]. split; [exact N2|]. split; [exact D1|]. split; [exact D2|]. split; [exact K|]. split; [|split; assumption].
  unfold add_edge. rewrite !(rlt_true 0) by assumption. cbn [negb]. rewrite A, B. reflexivity.
Qed.
Lemma edge_make_rem i ai o ao inv uid : 0 < ai -> e_rem (edge_make i ai o ao inv uid) = (if rlt (e_ain (edge_make i ai o ao inv uid)) 0 then None else Some (e_ain (edge_make i ai o ao inv uid))).
Proof. intros H. reflexivity. Qed.
Lemma add_edge_step g ti ai to ao inv uid : winv g -> step g (fst (add_edge g ti ai to ao inv uid)).
Proof.
  intros H. destruct (Rlt_dec 0 ai) as [Ha|Ha].
  - destruct (Rlt_dec 0 ao) as [Hb|Hb].
    + destruct (add_edge_ok g ti ai to ao inv uid H Ha Hb) as (g2 & i & o & S & Ed & _ & _ & _ & _ & _ & E & L1 & L2). rewrite E.
      eapply step_trans; [exact S|]. apply step_obj; [apply S|exact L1|exact L2|reflexivity|left; cbn; auto].
    + unfold add_edge. rewrite rlt_true by exact Ha. rewrite rlt_false by lra. apply step_refl. exact H.
  - unfold add_edge. rewrite rlt_false by lra. apply step_refl. exact H.
Qed.
Lemma add_dxdy_step g tx dx ty dy inv uid : winv g -> step g (fst (add_edge_dxdy g tx dx ty dy inv uid)).
Proof.
  intros H. unfold add_edge_dxdy. destruct (rlt (dx * dy) 0); cbn [negb].
  - destruct (rlt 0 dx); apply add_edge_step; exact H.
  - destruct (rlt EPSDXDY (dx * dy)); apply step_refl; exact H.
Qed.
Lemma connection_val i o p inv w uid : 0 < w ->
  connection_edge i o (Some p) inv (Some w) uid = Ret (edge_make i (- w) o (- (if inv then if req p 0 then p else 1 / p else p) * w) inv uid).
Proof. intros H. unfold connection_edge. rewrite rlt_true by exact H. reflexivity. Qed.
Lemma add_connection_step g ti to price inv poi w sym uid : winv g -> step g (fst (add_edge_connection g ti to price inv poi w sym uid)).
Proof.
  intros H. unfold add_edge_connection.
  destruct (match poi with Some _ => match price with Some _ => true | None => inv end | None => false end); [apply step_refl; exact H|].
  set (p := match poi with Some q => q | None => match price with Some q => q | None => 1 end end).
  set (v := match w with Some w => w | None => 1 end). destruct (Rlt_dec 0 v) as [Hv|Hv]; [|rewrite rlt_false by lra; apply step_refl; exact H].
  rewrite rlt_true by exact Hv. cbn [negb]. destruct (two_nodes g ti to H) as (g1 & i & g2 & o & A & B & S & Ed & D1 & D2 & N1 & N2 & L1 & L2 & K).
  rewrite A, B, connection_val by exact Hv. set (e1 := edge_make i _ _ _ _ _).
  destruct (add_edge_obj_inv g2 e1) as (g3 & r & E & W & X & N & _ & _); [apply S|exact L1|exact L2|reflexivity|right; cbn; lra|].
  rewrite E. assert (S3 : step g g3). { eapply step_trans; [exact S|]. split; [exact W|]. split; [exact X|]. unfold uniq. rewrite N. auto. }
  destruct r; [exact S3|]. destruct sym; cbn [negb]; [|exact S3]. rewrite connection_val by exact Hv.
  eapply step_trans; [exact S3|]. apply step_obj; [exact W|rewrite N; exact L2|rewrite N; exact L1|reflexivity|right; cbn; lra].
Qed.
Lemma add_cpc_step l uid : forall g, winv g -> step g (fst (add_edges_cpc g l uid)).
Proof.
  induction l as [|[c cid] l IH]; intros g H; [apply step_refl; exact H|]. cbn [add_edges_cpc].
  pose proof (add_connection_step g (CpcModel.tknx c) (CpcModel.tkny c) None false (Some (CpcModel.p c)) None true (Some (match uid with Some u => u | None => cid end)) H) as S.
  destruct (add_edge_connection _ _ _ _ _ _ _ _ _) as [g' [e|]]; cbn [fst] in S; [exact S|]. eapply step_trans; [exact S|]. apply IH. apply S.
Qed.
Lemma from_ccdxdy_step l iz : forall g, winv g -> step g (fst (from_ccdxdy g l iz)).
Proof.
  induction l as [|[[[[tx dx] ty] dy] cid] l IH]; intros g H; [apply step_refl; exact H|]. cbn [from_ccdxdy].
  destruct (iz && req dx 0 && req dy 0); [apply IH; exact H|].
  pose proof (add_dxdy_step g tx dx ty dy false (Some cid) H) as S. destruct (add_edge_dxdy _ _ _ _ _ _ _) as [g' [e|]]; cbn [fst] in S; [exact S|].
  eapply step_trans; [exact S|]. apply IH. apply S.
Qed.
Lemma call_step g c : winv g -> winv (do_call g c) /\ ext g (do_call g c) /\ (no_add_node c -> uniq g -> uniq (do_call g c)).
Proof.
  intros H. destruct c; unfold do_call.
  - destruct (add_node_inv g t H) as (g' & A & W & X & _). rewrite A. cbn. split; [exact W|]. split; [exact X|]. intros [].
  - destruct (add_edge_step g ti ai to ao inv uid H) as (A & B & C). auto.
  - destruct (add_dxdy_step g tx dx ty dy inv uid H) as (A & B & C). auto.
  - destruct (add_connection_step g ti to price inv poi weight symmetric uid H) as (A & B & C). auto.
  - destruct (add_cpc_step l uid g H) as (A & B & C). auto.
  - destruct (from_ccdxdy_step l ignorezero g H) as (A & B & C). auto.
Qed.
Lemma build_inv l : winv (build l) /\ (Forall no_add_node l -> uniq (build l)).
Proof.
  unfold build. assert (X : forall g, winv g -> winv (fold_left do_call l g) /\ (uniq g -> Forall no_add_node l -> uniq (fold_left do_call l g))).
  { induction l as [|c l IH]; intros g H; cbn; [auto|]. destruct (call_step g c H) as (A & B & C). destruct (IH _ A) as [P Q]. split; [exact P|].
    intros U F. inversion F; subst. auto. }
  destruct (X _ empty_inv) as [A B]. split; [exact A|]. apply B. constructor.
Qed.
(** amount graphs carry positive edges; connection graphs negative ones; edges are linked *)
Lemma build_kind l : positive (build l) \/ Forall (fun e => e_ain e < 0) (g_edges (build l)).
Proof. apply (proj1 (build_inv l)). Qed.
Lemma build_linked l : linked (build l).
Proof.
  destruct (proj1 (build_inv l)) as (_ & _ & _ & E & _). unfold linked. eapply Forall_impl; [|exact E]. cbn beta. intros e (A & B & C). split; [exact A|]. split; [exact B|].
  unfold is_amount. rewrite C. destruct (rlt (e_ain e) 0); cbn; split; congruence.
Qed.
Lemma build_fresh l n : node_amount (build l) n = 0.
Proof.
  destruct (proj1 (build_inv l)) as (_ & _ & N & _). unfold node_amount. destruct (nth_error _ n) eqn:X; [|reflexivity]. apply nth_error_In in X.
  rewrite Forall_forall in N. rewrite (N _ X). reflexivity.
Qed.
Lemma build_capacity l e : positive (build l) -> In e (g_edges (build l)) -> e_rem e = Some (e_ain e).
Proof.
  intros P H. destruct (proj1 (build_inv l)) as (_ & _ & _ & E & _). unfold positive in P. rewrite Forall_forall in E, P. destruct (E _ H) as (_ & _ & ->). rewrite rlt_false; [reflexivity|]. specialize (P _ H). lra.
Qed.
(** old edges and nodes stay where they were *)
Lemma build_keeps l c : (exists ns, g_nodes (do_call (build l) c) = g_nodes (build l) ++ ns) /\ (exists es, g_edges (do_call (build l) c) = g_edges (build l) ++ es).
Proof. exact (proj1 (proj2 (call_step _ c (proj1 (build_inv l))))). Qed.
Lemma build_index l t n : node_by_tkn (build l) t = Ret n <-> last_named (build l) t n.
Proof. unfold node_by_tkn. rewrite <- (proj1 (proj2 (proj1 (build_inv l)))). destruct (dict_get _ t); split; congruence. Qed.
Lemma build_unknown l t : (forall n, name (build l) n <> Some t) -> node_by_tkn (build l) t = Raise KeyError.
Proof.
  intros H. unfold node_by_tkn. destruct (dict_get _ t) as [n|] eqn:E; [|reflexivity]. exfalso. apply (proj1 (proj2 (proj1 (build_inv l)))) in E. apply (H n). apply E.
Qed.
