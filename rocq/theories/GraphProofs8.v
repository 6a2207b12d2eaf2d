(** Duplicates, prices along paths, states and statistics. *)
From Coq Require Import Reals Lra Bool String List ZArith Arith Lia.
From Verif Require Import CurveModel CurveProofs GraphModel GraphSpec GraphProofs GraphProofs2 GraphProofs3 GraphProofs4 GraphProofs5 GraphProofs7.
Import ListNotations.
Local Open Scope R_scope.

(** ** duplicate *)
Lemma names_uniq l : forall seen, NoDup (seen ++ map n_tkn l) -> names seen l = map n_tkn l.
Proof.
  induction l as [|n l IH]; intros seen H; [reflexivity|]. cbn [names map] in *. destruct (existsb (String.eqb (n_tkn n)) seen) eqn:E.
  - exfalso. apply existsb_exists in E as (u & Hu & E). apply String.eqb_eq in E. subst u. apply NoDup_remove_2 in H. apply H. apply in_or_app. auto.
  - f_equal. apply IH. rewrite <- app_assoc. exact H.
Qed.
Lemma position_nth ns t n : NoDup ns -> nth_error ns n = Some t -> position ns t = n.
Proof.
  revert n. induction ns as [|u ns IH]; intros n ND H; [destruct n; discriminate|]. inversion ND; subst. cbn [position]. destruct n as [|n]; cbn in H.
  - injection H as ->. rewrite String.eqb_refl. reflexivity.
  - destruct (String.eqb_spec u t) as [->|]; [exfalso; apply H2; apply nth_error_In in H; exact H|]. f_equal. apply IH; assumption.
Qed.
Lemma relabel_id g e : uniq g -> (e_in e < List.length (g_nodes g))%nat -> (e_out e < List.length (g_nodes g))%nat -> relabel g (map n_tkn (g_nodes g)) e = e.
Proof.
  intros U A B. unfold relabel.
  assert (X : forall n, (n < List.length (g_nodes g))%nat -> match nth_error (g_nodes g) n with Some m => position (map n_tkn (g_nodes g)) (n_tkn m) | None => 0%nat end = n).
  { intros n Hn. destruct (nth_error (g_nodes g) n) as [m|] eqn:E; [|apply nth_error_None in E; lia]. apply position_nth; [exact U|]. rewrite nth_error_map, E. reflexivity. }
  rewrite !X by assumption. destruct e; reflexivity.
Qed.
Definition gr (es : list edge) : graph := mkGraph [] [] es false.
Lemma total_gr f g i o : total f g i o = total f (gr (g_edges g)) i o. Proof. reflexivity. Qed.
Lemma count_gr g i o : count g i o = count (gr (g_edges g)) i o. Proof. reflexivity. Qed.
Lemma total_other f es i o : (forall e, In e es -> ~ (e_in e = i /\ e_out e = o)) -> total f (gr es) i o = 0 /\ count (gr es) i o = 0%nat.
Proof.
  unfold total, count. cbn [gr g_edges]. induction es as [|e es IH]; intros H; [split; reflexivity|]. cbn [fold_right filter].
  assert (X : Nat.eqb (e_in e) i && Nat.eqb (e_out e) o = false).
  { apply andb_false_iff. destruct (Nat.eqb_spec (e_in e) i); [|auto]. right. apply Nat.eqb_neq. intros E. apply (H e (or_introl eq_refl)). auto. }
  rewrite X. apply IH. intros f0 Hf. apply H. right. exact Hf.
Qed.
Lemma sums_spec g b prs : Forall (kind b) (g_edges g) -> NoDup prs ->
  exists es, sums (map (fun p => edges_between g (Some (fst p)) (Some (snd p))) prs) = Ret es /\ Forall (fun e => kind b e /\ In (e_in e, e_out e) prs /\ has_edge g (e_in e, e_out e) /\ e_rem e = (if b then Some (e_ain e) else None)) es /\
  forall i o, In (i, o) prs -> total e_ain (gr es) i o = total e_ain g i o /\ total e_aout (gr es) i o = total e_aout g i o /\ (count (gr es) i o <= 1)%nat.
Proof.
  intros K. induction prs as [|[a c] prs IH]; intros ND.
  - exists []. split; [reflexivity|]. split; [constructor|]. intros ? ? [].
  - inversion ND as [|? ? N1 N2]; subst. destruct (IH N2) as (es & E & F & T). cbn [map sums fst snd].
    destruct (edges_between g (Some a) (Some c)) as [|e l] eqn:B.
    + cbn [e_sum rbind]. rewrite E. cbn [rbind]. exists es. split; [reflexivity|]. split; [eapply Forall_impl; [|exact F]; cbn; tauto|]. intros i o [H|H]; [|apply T; exact H].
      injection H as -> ->. destruct (total_other e_ain es i o) as [T1 T3]; [|destruct (total_other e_aout es i o) as [T2 _]].
      * intros x Hx [X1 X2]. rewrite Forall_forall in F. destruct (F x Hx) as (_ & X & _). rewrite X1, X2 in X. contradiction.
      * intros x Hx [X1 X2]. rewrite Forall_forall in F. destruct (F x Hx) as (_ & X & _). rewrite X1, X2 in X. contradiction.
      * rewrite T1, T2, T3. rewrite <- (edges_total e_ain g), <- (edges_total e_aout g), B. cbn. split; [reflexivity|]. split; [reflexivity|]. lia.
    + assert (FE : Forall (fun e => kind b e /\ e_in e = a /\ e_out e = c) (e :: l)).
      { apply Forall_forall. intros x Hx. rewrite <- B in Hx. apply edges_between_in in Hx as (X1 & X2 & X3). rewrite Forall_forall in K. auto. }
      destruct (e_sum_spec b a c e l FE) as (s & S & Ks & As & Bs & S1 & S2 & _ & _ & Rs). rewrite S. cbn [rbind]. rewrite E. cbn [rbind]. exists (s :: es). split; [reflexivity|]. split.
      * constructor; [|eapply Forall_impl; [|exact F]; cbn; tauto]. rewrite As, Bs. split; [exact Ks|]. split; [left; reflexivity|]. split; [|exact Rs].
        apply edges_between_ne. cbn [fst snd]. rewrite B. discriminate.
      * assert (HO : forall i o, (i, o) <> (a, c) -> total e_ain (gr (s :: es)) i o = total e_ain (gr es) i o /\ total e_aout (gr (s :: es)) i o = total e_aout (gr es) i o /\ count (gr (s :: es)) i o = count (gr es) i o).
        { intros i o D. unfold total, count. cbn [gr g_edges fold_right filter]. rewrite As, Bs.
          assert (X : Nat.eqb a i && Nat.eqb c o = false). { apply andb_false_iff. destruct (Nat.eqb_spec a i) as [->|]; [|auto]. right. apply Nat.eqb_neq. congruence. }
          rewrite X. auto. }
        intros i o [H|H].
        -- injection H as <- <-. destruct (total_other e_ain es a c) as [T1 T3]; [|destruct (total_other e_aout es a c) as [T2 _]].
           ++ intros x Hx [X1 X2]. rewrite Forall_forall in F. destruct (F x Hx) as (_ & X & _). rewrite X1, X2 in X. contradiction.
           ++ intros x Hx [X1 X2]. rewrite Forall_forall in F. destruct (F x Hx) as (_ & X & _). rewrite X1, X2 in X. contradiction.
           ++ rewrite <- (edges_total e_ain g), <- (edges_total e_aout g), B, !rsum_summed, <- S1, <- S2. unfold total, count in *. cbn [gr g_edges fold_right filter] in *. rewrite As, Bs, !Nat.eqb_refl. cbn [andb List.length].
              rewrite T1, T2, T3. split; [ring|]. split; [ring|lia].
        -- assert (D : (i, o) <> (a, c)) by (intros X; rewrite X in H; contradiction). destruct (HO i o D) as (-> & -> & ->). apply T. exact H.
Qed.
Lemma node_pairs_in g i o : In (i, o) (node_pairs g) <-> (i < List.length (g_nodes g))%nat /\ (o < List.length (g_nodes g))%nat /\ i <> o.
Proof.
  unfold node_pairs. rewrite in_flat_map. split.
  - intros (a & Ha & H). apply in_map_iff in H as (c & E & Hc). injection E as -> ->. apply filter_In in Hc as [Hc D]. apply in_seq in Ha, Hc. apply negb_true_iff, Nat.eqb_neq in D. lia.
  - intros (A & B & C). exists i. split; [apply in_seq; lia|]. apply in_map_iff. exists o. split; [reflexivity|]. apply filter_In. split; [apply in_seq; lia|]. apply negb_true_iff, Nat.eqb_neq. exact C.
Qed.
Lemma NoDup_join {A} (l m : list A) : NoDup l -> NoDup m -> (forall x, In x l -> ~ In x m) -> NoDup (l ++ m).
Proof. induction 1 as [|a l N _ IH]; intros M D; [exact M|]. cbn. constructor; [|apply IH; [exact M|intros x Hx; apply D; right; exact Hx]]. intros H. apply in_app_or in H as [H|H]; [contradiction|]. apply (D a (or_introl eq_refl) H). Qed.
Lemma node_pairs_nodup g : NoDup (node_pairs g).
Proof.
  unfold node_pairs. set (ix := seq 0 _). assert (ND : NoDup ix) by apply seq_NoDup. 
  assert (X : forall l, NoDup l -> NoDup (flat_map (fun i => map (fun o => (i, o)) (filter (fun o => negb (Nat.eqb i o)) ix)) l)); [|apply X; exact ND].
  induction 1 as [|a l N _ IH]; [constructor|]. cbn [flat_map]. apply NoDup_join; [|exact IH|].
  - apply FinFun.Injective_map_NoDup; [intros x y; congruence|apply NoDup_filter; exact ND].
  - intros x Hx Hy. apply in_map_iff in Hx as (o & <- & _). apply in_flat_map in Hy as (i & Hi & Hy). apply in_map_iff in Hy as (o' & E & _). congruence.
Qed.
Lemma homogeneous_kind b es : Forall (kind b) es -> homogeneous es = true.
Proof.
  destruct es as [|e es]; [reflexivity|]. intros H. inversion H as [|? ? K F]; subst. cbn. apply forallb_forall. intros f Hf. rewrite Forall_forall in F.
  rewrite (kind_amount b e K), (kind_amount b f (F f Hf)). apply eqb_reflx.
Qed.
Lemma kinds g : positive g \/ Forall (fun e => e_ain e < 0) (g_edges g) -> exists b, Forall (kind b) (g_edges g).
Proof. intros [H|H]; [exists true|exists false]; exact H. Qed.
(** lookups in the duplicate *)
Lemma dict_combine ns t : NoDup ns -> forall k n, dict_get (combine ns (seq k (List.length ns))) t = Some n <-> (k <= n)%nat /\ nth_error ns (n - k) = Some t.
Proof.
  induction 1 as [|u ns N ND IH]; intros k n; cbn [combine List.length seq dict_get].
  - split; [discriminate|]. intros [_ H]. destruct (n - k)%nat; discriminate.
  - destruct (String.eqb_spec u t) as [->|D].
    + split; [intros [= <-]; split; [lia|rewrite Nat.sub_diag; reflexivity]|]. intros [H1 H2]. destruct (n - k)%nat as [|m] eqn:E; [f_equal; lia|]. cbn in H2. apply nth_error_In in H2. contradiction.
    + rewrite IH. split; intros [H1 H2].
      * split; [lia|]. replace (n - k)%nat with (S (n - S k)) by lia. exact H2.
      * destruct (n - k)%nat as [|m] eqn:E; [cbn in H2; congruence|]. cbn in H2. split; [lia|]. replace (n - S k)%nat with m by lia. exact H2.
Qed.
Lemma index_uniq g t n : winv g -> uniq g -> (dict_get (g_index g) t = Some n <-> name g n = Some t).
Proof.
  intros W U. rewrite (proj1 (proj2 W)). unfold last_named. split; [tauto|]. intros H. split; [exact H|]. intros m Hm C. unfold uniq in U.
  rewrite name_map in H, C. rewrite NoDup_nth_error in U. assert (n = m); [|lia]. apply U; [apply nth_error_Some; congruence|congruence].
Qed.
Lemma lookup_dup g ns es t : winv g -> uniq g -> ns = map n_tkn (g_nodes g) -> node_by_tkn (mkGraph (map new_node ns) (combine ns (seq 0 (List.length ns))) es true) t = node_by_tkn g t.
Proof.
  intros W U ->. unfold node_by_tkn. cbn [g_index]. assert (X : forall n, dict_get (combine (map n_tkn (g_nodes g)) (seq 0 (List.length (map n_tkn (g_nodes g))))) t = Some n <-> dict_get (g_index g) t = Some n).
  { intros n. rewrite dict_combine by exact U. rewrite index_uniq by assumption. rewrite name_map, Nat.sub_0_r. split; [tauto|]. intros H. split; [lia|exact H]. }
  set (d := dict_get (combine _ _) t) in *. clearbody d. destruct d as [n|]; [rewrite (proj1 (X n) eq_refl); reflexivity|].
  destruct (dict_get (g_index g) t) as [n|]; [|reflexivity]. discriminate (proj2 (X n) eq_refl).
Qed.
Lemma dup_consolidated g : winv g -> uniq g -> exists g', duplicate g true = Ret g' /\
  map n_tkn (g_nodes g') = map n_tkn (g_nodes g) /\ (forall t, node_by_tkn g' t = node_by_tkn g t) /\ (forall n, node_amount g' n = 0) /\
  (forall i o, i <> o -> total e_ain g' i o = total e_ain g i o /\ total e_aout g' i o = total e_aout g i o /\ (count g' i o <= 1)%nat) /\
  (forall e, In e (g_edges g') -> e_in e <> e_out e /\ has_edge g (e_in e, e_out e)) /\ (positive g -> positive g' /\ Forall (fun e => e_rem e = Some (e_ain e)) (g_edges g')) /\ g_fixed g' = true.
Proof.
  intros W U. destruct (kinds g (proj2 (proj2 (proj2 (proj2 W))))) as (b & K).
  destruct (sums_spec g b (node_pairs g) K (node_pairs_nodup g)) as (es & E & F & T). unfold duplicate. rewrite (names_uniq (g_nodes g) []) by exact U. rewrite E. cbn [rbind].
  assert (R0 : map (relabel g (map n_tkn (g_nodes g))) es = es).
  { clear E T. induction F as [|e es (_ & H & _) _ IH]; [reflexivity|]. cbn. apply node_pairs_in in H. rewrite relabel_id by tauto. f_equal. exact IH. }
  rewrite R0. rewrite (homogeneous_kind b es) by (eapply Forall_impl; [|exact F]; cbn; tauto).
  eexists. split; [reflexivity|]. split; [cbn [g_nodes]; rewrite map_map; cbn; rewrite map_id; reflexivity|].
  split; [intros t; apply lookup_dup; auto|]. split.
  { intros n. unfold node_amount. cbn [g_nodes]. destruct (nth_error (map new_node _) n) as [m|] eqn:X; [|reflexivity]. rewrite nth_error_map in X. destruct (nth_error (map n_tkn _) n); [|discriminate]. injection X as <-. reflexivity. }
  split.
  - intros i o D. destruct (Nat.lt_ge_cases i (List.length (g_nodes g))) as [Li|Li]; [destruct (Nat.lt_ge_cases o (List.length (g_nodes g))) as [Lo|Lo]|].
    + apply T. apply node_pairs_in. auto.
    + assert (X : forall es', Forall (fun e => (e_out e < List.length (g_nodes g))%nat) es' -> forall f, total f (gr es') i o = 0 /\ count (gr es') i o = 0%nat).
      { intros es' Fe f. apply total_other. intros e He [_ H]. rewrite Forall_forall in Fe. specialize (Fe e He). lia. }
      assert (F1 : Forall (fun e => (e_out e < List.length (g_nodes g))%nat) es) by (eapply Forall_impl; [|exact F]; cbn; intros e (_ & H & _); apply node_pairs_in in H; tauto).
      assert (F2 : Forall (fun e => (e_out e < List.length (g_nodes g))%nat) (g_edges g)) by (eapply Forall_impl; [|exact (proj1 (proj2 (proj2 (proj2 W))))]; cbn; tauto).
      rewrite (total_gr _ g), (total_gr e_aout g). rewrite (proj1 (X _ F2 e_ain)), (proj1 (X _ F2 e_aout)). split; [apply (X _ F1 e_ain)|]. split; [apply (X _ F1 e_aout)|]. rewrite count_gr. cbn [g_edges]. rewrite (proj2 (X _ F1 e_ain)). lia.
    + assert (X : forall es', Forall (fun e => (e_in e < List.length (g_nodes g))%nat) es' -> forall f, total f (gr es') i o = 0 /\ count (gr es') i o = 0%nat).
      { intros es' Fe f. apply total_other. intros e He [H _]. rewrite Forall_forall in Fe. specialize (Fe e He). lia. }
      assert (F1 : Forall (fun e => (e_in e < List.length (g_nodes g))%nat) es) by (eapply Forall_impl; [|exact F]; cbn; intros e (_ & H & _); apply node_pairs_in in H; tauto).
      assert (F2 : Forall (fun e => (e_in e < List.length (g_nodes g))%nat) (g_edges g)) by (eapply Forall_impl; [|exact (proj1 (proj2 (proj2 (proj2 W))))]; cbn; tauto).
      rewrite (total_gr _ g), (total_gr e_aout g). rewrite (proj1 (X _ F2 e_ain)), (proj1 (X _ F2 e_aout)). split; [apply (X _ F1 e_ain)|]. split; [apply (X _ F1 e_aout)|]. rewrite count_gr. cbn [g_edges]. rewrite (proj2 (X _ F1 e_ain)). lia.
  - split; [|split; [|reflexivity]].
    + cbn [g_edges]. intros e He. rewrite Forall_forall in F. destruct (F e He) as (_ & H & X & _). apply node_pairs_in in H. tauto.
    + intros P. cbn [g_edges]. unfold positive. cbn [g_edges]. destruct es as [|e0 es0] eqn:Es; [split; constructor|]. rewrite <- Es in *. assert (B : b = true).
      { assert (H0 : In e0 es) by (rewrite Es; left; reflexivity). rewrite Forall_forall in F. destruct (F e0 H0) as (_ & _ & (x & X1 & _) & _). unfold positive in P. rewrite Forall_forall in P, K.
        specialize (P _ X1). specialize (K _ X1). destruct b; [reflexivity|]. cbn in K. lra. }
      subst b. split; eapply Forall_impl; try exact F; cbn; tauto.
Qed.
Lemma dup_plain g : winv g -> uniq g -> exists g', duplicate g false = Ret g' /\ map n_tkn (g_nodes g') = map n_tkn (g_nodes g) /\ (forall t, node_by_tkn g' t = node_by_tkn g t) /\
  (forall n, node_amount g' n = 0) /\ map fixed_part (g_edges g') = map (fun e => (e_in e, e_ain e, e_out e, e_aout e, false, e_uid e)) (g_edges g) /\
  (positive g -> Forall (fun e => e_rem e = Some (e_ain e)) (g_edges g')) /\ g_fixed g' = true.
Proof.
  intros W U. destruct (kinds g (proj2 (proj2 (proj2 (proj2 W))))) as (b & K). unfold duplicate. rewrite (names_uniq (g_nodes g) []) by exact U. cbn [rbind].
  set (mk := fun e : edge => edge_make (e_in e) (e_ain e) (e_out e) (e_aout e) false (e_uid e)).
  assert (R0 : map (relabel g (map n_tkn (g_nodes g))) (map mk (g_edges g)) = map mk (g_edges g)).
  { rewrite map_map. apply map_ext_in. intros e He. destruct W as (_ & _ & _ & E & _). rewrite Forall_forall in E. destruct (E e He) as (A & B & _). apply relabel_id; [exact U|exact A|exact B]. }
  rewrite R0. rewrite (homogeneous_kind b) by (apply Forall_forall; intros x Hx; apply in_map_iff in Hx as (e & <- & He); rewrite Forall_forall in K; specialize (K e He); destruct b; exact K).
  eexists. split; [reflexivity|]. split; [cbn [g_nodes]; rewrite map_map; cbn; rewrite map_id; reflexivity|].
  split; [intros t; apply lookup_dup; auto|]. split.
  { intros n. unfold node_amount. cbn [g_nodes]. destruct (nth_error (map new_node _) n) as [m|] eqn:X; [|reflexivity]. rewrite nth_error_map in X. destruct (nth_error (map n_tkn _) n); [|discriminate]. injection X as <-. reflexivity. }
  cbn [g_edges]. split; [rewrite map_map; reflexivity|]. split; [|reflexivity]. intros P. apply Forall_forall. intros x Hx. apply in_map_iff in Hx as (e & <- & He).
  unfold positive in P. rewrite Forall_forall in P. specialize (P e He). cbn. rewrite rlt_false by lra. reflexivity.
Qed.
Lemma fixed_node g t : g_fixed g = true -> add_node g t = (g, Some AttributeError).
Proof. intros H. unfold add_node. rewrite H. reflexivity. Qed.
Lemma fixed_edge g ti ai to ao inv uid : g_fixed g = true -> positive g -> 0 < ai -> 0 < ao -> add_edge g ti ai to ao inv uid = (g, Some AttributeError).
Proof.
  intros H P A B. unfold add_edge. rewrite !rlt_true by assumption. cbn [negb]. unfold node_create. destruct (dict_get (g_index g) ti); [|rewrite fixed_node by exact H; reflexivity].
  destruct (dict_get (g_index g) to); [|rewrite fixed_node by exact H; reflexivity]. unfold add_edge_obj, g_is_amount. rewrite H. unfold positive in P. destruct (g_edges g) as [|e es]; [reflexivity|].
  inversion P; subst. unfold is_amount. rewrite !rlt_false by (cbn; lra). reflexivity.
Qed.
