(** Proofs for C150 and C151: prices and volumes. *)
From Coq Require Import Reals Lra Bool List String Arith Lia Permutation Sorting.Sorted.
From Verif Require Import CurveModel CurveProofs PairModel PairProofs HelperModel HelperProofs CpcModel ContainerModel ContainerSpec ContainerProofs ContainerProofs2 ContainerProofs3 FileModel TabModel TabSpec TabProofs.
From Verif Require FileSpec FileProofs.
Import ListNotations.
Local Open Scope R_scope.

Lemma meanl_mean l : meanl l = mean l. Proof. unfold meanl, mean. rewrite rsum_total. reflexivity. Qed.
Lemma squares_spread l : squares l = spread l.
Proof. unfold squares, spread. rewrite rsum_total, meanl_mean. reflexivity. Qed.
Lemma group_map h (l : list nat) {A} (F : rec -> A) (f : cpc -> A) a b : (forall r, F (rec_of h r) = f (obj h r)) ->
  map F (group r_tknb r_tknq (map (rec_of h) l) a b) = map f (from_to a b (map (obj h) l)).
Proof. intros H. rewrite (group_recs h l r_tknb r_tknq a b (fun _ => eq_refl) (fun _ => eq_refl)), <- filter_objs, !map_map. apply map_ext. exact H. Qed.
Lemma group_empty h (l : list nat) a b : group r_tknb r_tknq (map (rec_of h) l) a b = [] <-> from_to a b (map (obj h) l) = [].
Proof.
  rewrite (group_recs h l r_tknb r_tknq a b (fun _ => eq_refl) (fun _ => eq_refl)), <- filter_objs. split; intros E; apply map_eq_nil in E; rewrite E; reflexivity.
Qed.
(** ** tables of prices *)
Lemma prices_recs h (l : list nat) (F : list R -> R) : filled 0 (prices_by (fun v => Some (F v)) (map (rec_of h) l)) =
  tabulate (labels (map tknx (map (obj h) l))) (labels (map tkny (map (obj h) l))) (fun a b => match from_to a b (map (obj h) l) with [] => 0 | g => F (map spot g) end).
Proof.
  unfold prices_by. rewrite pivot_total by (intros grp _; eexists; reflexivity). rewrite filled_tabulate. rewrite !map_map. cbn [rec_of r_tknb r_tknq].
  unfold tabulate. f_equal. apply map_ext. intros a. apply map_ext. intros b. pose proof (group_map h l r_p spot a b (fun _ => eq_refl)) as M. pose proof (group_empty h l a b) as E.
  destruct (group r_tknb r_tknq (map (rec_of h) l) a b) as [|e g], (from_to a b (map (obj h) l)) as [|c g']; [reflexivity|exfalso; destruct E as [E _]; discriminate (E eq_refl)|exfalso; destruct E as [_ E]; discriminate (E eq_refl)|]. rewrite M. reflexivity.
Qed.
Lemma std_value h (l : list nat) a b : match group r_tknb r_tknq (map (rec_of h) l) a b with [] => None | grp => std1 (map r_p grp) end =
  if Nat.leb 2 (List.length (from_to a b (map (obj h) l))) then Some (sqrt (spread (map spot (from_to a b (map (obj h) l))) / INR (List.length (from_to a b (map (obj h) l)) - 1))) else None.
Proof.
  pose proof (group_map h l r_p spot a b (fun _ => eq_refl)) as M. set (g := group r_tknb r_tknq (map (rec_of h) l) a b) in *. set (g' := from_to a b (map (obj h) l)) in *.
  assert (L : List.length g = List.length g') by (rewrite <- (map_length r_p g), M, map_length; reflexivity).
  transitivity (std1 (map r_p g)). { destruct g; reflexivity. } unfold std1. rewrite M, map_length, squares_spread. destruct (Nat.ltb_spec (List.length g') 2), (Nat.leb_spec 2 (List.length g')); try lia; reflexivity.
Qed.
Lemma std_recs h (l : list nat) : let cs := map (obj h) l in filled 0 (prices_by std1 (map (rec_of h) l)) =
  tabulate (labels (map tknx (filter (several cs) cs))) (labels (map tkny (filter (several cs) cs)))
    (fun a b => if Nat.leb 2 (List.length (from_to a b cs)) then sqrt (spread (map spot (from_to a b cs)) / INR (List.length (from_to a b cs) - 1)) else 0).
Proof.
  cbv zeta. unfold prices_by, pivot. cbv zeta. rewrite filled_tabulate.
  assert (K : filter (fun r => match match group r_tknb r_tknq (map (rec_of h) l) (r_tknb r) (r_tknq r) with [] => None | grp => std1 (map r_p grp) end with Some _ => true | None => false end) (map (rec_of h) l) = map (rec_of h) (filter (fun r => several (map (obj h) l) (obj h r)) l)).
  { rewrite filter_map. f_equal. apply filter_ext. intros r. cbn [rec_of r_tknb r_tknq]. rewrite std_value. unfold several. destruct (Nat.leb 2 _); reflexivity. }
  rewrite K. rewrite (filter_map (obj h) (several (map (obj h) l)) l), !map_map. cbn [rec_of r_tknb r_tknq]. unfold tabulate. f_equal. apply map_ext. intros a. apply map_ext. intros b. rewrite std_value. destruct (Nat.leb 2 _); reflexivity.
Qed.
Lemma spot_pos c : 0 < k c -> x c <> 0 -> 0 < spot c.
Proof. intros K X. apply price_pos; assumption. Qed.
Lemma sdpc_recs h (l : list nat) : (forall r, In r l -> 0 < k (obj h r) /\ x (obj h r) <> 0) -> let cs := map (obj h) l in prices_by sdpc (map (rec_of h) l) =
  tabulate (labels (map tknx cs)) (labels (map tkny cs))
    (fun a b => match from_to a b cs with [] => None | g => Some (sqrt (spread (map spot g) / INR (List.length g)) / mean (map spot g)) end).
Proof.
  intros P. cbv zeta.
  assert (V : forall a b, match group r_tknb r_tknq (map (rec_of h) l) a b with [] => None | grp => sdpc (map r_p grp) end = match from_to a b (map (obj h) l) with [] => None | g => Some (sqrt (spread (map spot g) / INR (List.length g)) / mean (map spot g)) end).
  { intros a b. pose proof (group_map h l r_p spot a b (fun _ => eq_refl)) as M. pose proof (group_empty h l a b) as E.
    assert (Pf : forall c, In c (from_to a b (map (obj h) l)) -> 0 < spot c). { intros c I1. apply filter_In in I1. destruct I1 as [I1 _]. apply in_map_iff in I1. destruct I1 as (r & <- & I1). destruct (P r I1). apply spot_pos; assumption. }
    destruct (group r_tknb r_tknq (map (rec_of h) l) a b) as [|e g], (from_to a b (map (obj h) l)) as [|c g']; [reflexivity|exfalso; destruct E as [E _]; discriminate (E eq_refl)|exfalso; destruct E as [_ E]; discriminate (E eq_refl)|].
    rewrite M. unfold sdpc. rewrite meanl_mean, squares_spread. assert (N : 0 < mean (map spot (c :: g'))) by (apply mean_pos; [discriminate|exact Pf]).
    destruct (req (mean (map spot (c :: g'))) 0) eqn:Z; [apply req_iff in Z; lra|]. rewrite map_length. reflexivity. }
  unfold prices_by, pivot. cbv zeta. rewrite filter_all.
  - rewrite !map_map. cbn [rec_of r_tknb r_tknq]. unfold tabulate. f_equal. apply map_ext. intros a. apply map_ext. intros b. apply V.
  - intros e I1. rewrite V. pose proof (group_self r_tknb r_tknq _ e I1) as N. pose proof (group_empty h l (r_tknb e) (r_tknq e)) as E. destruct (from_to _ _ _); [|reflexivity]. exfalso. apply N, E. reflexivity.
Qed.
(** ** lists of prices *)
Lemma directed_in l b q : In (b, q) (directed l) <-> exists e, In e l /\ r_tknb e = b /\ r_tknq e = q.
Proof.
  unfold directed. rewrite in_flat_map. split.
  - intros (b' & _ & I2). apply in_map_iff in I2. destruct I2 as (q' & E & I2). injection E as -> ->. apply (proj1 (labels_in _ _)) in I2. apply in_map_iff in I2. destruct I2 as (e & <- & I2). apply filter_In in I2. destruct I2 as [I2 E]. apply String.eqb_eq in E. eauto.
  - intros (e & I1 & <- & <-). exists (r_tknb e). split; [apply labels_in, in_map, I1|]. apply in_map_iff. exists (r_tknq e). split; [reflexivity|]. apply labels_in. apply in_map. apply filter_In. rewrite String.eqb_refl. auto.
Qed.
Lemma NoDup_app_intro {A} (l1 l2 : list A) : NoDup l1 -> NoDup l2 -> (forall x, In x l1 -> ~ In x l2) -> NoDup (l1 ++ l2).
Proof. induction l1 as [|a l1 IH]; intros H1 H2 D; [exact H2|]. inversion H1; subst. cbn. constructor; [rewrite in_app_iff; intros [X|X]; [contradiction|apply (D a (or_introl eq_refl) X)]|]. apply IH; auto. intros x X. apply D. right. exact X. Qed.
Lemma nodup_flat_map {A B C} (f : A -> list B) (key : B -> C) (ka : C -> A) l : NoDup l -> (forall a, In a l -> NoDup (map key (f a))) -> (forall a b, In a l -> In b (f a) -> ka (key b) = a) -> NoDup (map key (flat_map f l)).
Proof.
  induction l as [|a l IH]; intros N F K; [constructor|]. cbn [flat_map]. rewrite map_app. inversion N as [|? ? N1 N2]; subst.
  apply NoDup_app_intro.
  - apply F. left. reflexivity.
  - apply IH; [exact N2|intros; apply F; right; assumption|intros; apply K; [right; assumption|assumption]].
  - intros c I1 I2. apply in_map_iff in I1, I2. destruct I1 as (b1 & <- & I1), I2 as (b2 & E & I2). apply in_flat_map in I2. destruct I2 as (a' & Ia & I2).
    pose proof (K a b1 (or_introl eq_refl) I1) as K1. pose proof (K a' b2 (or_intror Ia) I2) as K2. rewrite E in K2. apply N1. congruence.
Qed.
Lemma directed_nodup l : NoDup (directed l).
Proof.
  rewrite <- (map_id (directed l)). unfold directed. apply (nodup_flat_map _ (fun e => e) fst); [apply labels_ok| |].
  - intros b _. rewrite map_id. apply FinFun.Injective_map_NoDup; [intros q q' E; congruence|apply labels_ok].
  - intros b [b' q] _ I1. apply in_map_iff in I1. destruct I1 as (q' & E & _). cbn. congruence.
Qed.
Lemma insert_row_perm {A} leb (a : A) l : Permutation (a :: l) (insert_row leb a l).
Proof. induction l as [|b l IH]; cbn [insert_row]; [reflexivity|]. destruct (leb a b); [reflexivity|]. rewrite perm_swap. constructor. exact IH. Qed.
Lemma sort_rows_perm {A} leb (l : list A) : Permutation l (sort_rows leb l).
Proof. induction l as [|a l IH]; cbn [sort_rows]; [constructor|]. rewrite <- insert_row_perm. constructor. exact IH. Qed.
Lemma insert_row_sorted {A} leb (P : A -> A -> Prop) a l : (forall a b, leb a b = true -> P a b) -> (forall a b, leb a b = false -> P b a) -> (forall a b c, P a b -> P b c -> P a c) -> StronglySorted P l -> StronglySorted P (insert_row leb a l).
Proof.
  intros Y N Tr. induction l as [|b l IH]; cbn [insert_row]; intros S; [repeat constructor|]. inversion S as [|? ? S1 S2]; subst. destruct (leb a b) eqn:E.
  - constructor; [exact S|]. constructor; [apply Y, E|]. eapply Forall_impl; [|exact S2]. intros c X. eapply Tr; [apply Y, E|exact X].
  - constructor; [apply IH, S1|]. apply Forall_forall. intros c X. apply (Permutation_in _ (Permutation_sym (insert_row_perm leb a l))) in X. destruct X as [<-|X]; [apply N, E|]. rewrite Forall_forall in S2. auto.
Qed.
Lemma sort_rows_sorted {A} leb (P : A -> A -> Prop) l : (forall a b, leb a b = true -> P a b) -> (forall a b, leb a b = false -> P b a) -> (forall a b c, P a b -> P b c -> P a c) -> StronglySorted P (sort_rows leb l).
Proof. intros Y N Tr. induction l as [|a l IH]; cbn [sort_rows]; [constructor|]. apply insert_row_sorted; assumption. Qed.
(** the id of a list of prices *)
Lemma keyed h (l : list nat) b q c : filter (fun e => cid_eqb (r_cid e) c) (group r_tknb r_tknq (map (rec_of h) l) b q) = map (rec_of h) (with_key h b q c l).
Proof.
  rewrite (group_recs h l r_tknb r_tknq b q (fun _ => eq_refl) (fun _ => eq_refl)), filter_map. f_equal. unfold with_key. induction l as [|r l IH]; [reflexivity|]. cbn [filter].
  destruct (String.eqb (tknx (obj h r)) b && String.eqb (tkny (obj h r)) q); cbn [filter andb]; [|exact IH]. cbn [rec_of r_cid]. destruct (cid_eqb (cid_of h r) c); [f_equal|]; exact IH.
Qed.
Lemma primary_name_ok b q : primary norm_cpc b q = primary_name b q.
Proof. unfold primary_name. destruct (primary_cases b q) as [[-> ->]|[-> ->]]; reflexivity. Qed.
Lemma pricelist_in h (l : list nat) e : In e (pricelist (map (rec_of h) l)) <->
  exists b q c, with_key h b q c l <> [] /\ e = mkPl b q c (primary_name b q) (b ++ "/" ++ q) (mean (map (fun r => spot (obj h r)) (with_key h b q c l))) (mean (map (fun r => primary_spot (obj h r)) (with_key h b q c l))).
Proof.
  assert (Row : forall b q c, with_key h b q c l <> [] -> let g := map (rec_of h) (with_key h b q c l) in
    mkPl b q c (first_of r_primary g) (first_of r_pair g) (meanl (map r_p g)) (meanl (map r_pp g)) = mkPl b q c (primary_name b q) (b ++ "/" ++ q) (mean (map (fun r => spot (obj h r)) (with_key h b q c l))) (mean (map (fun r => primary_spot (obj h r)) (with_key h b q c l)))).
  { intros b q c N g. unfold g. rewrite !meanl_mean, !map_map. cbn [rec_of r_p r_pp]. destruct (with_key h b q c l) as [|r w] eqn:E; [congruence|]. assert (I1 : In r (with_key h b q c l)) by (rewrite E; left; reflexivity).
    apply filter_In in I1. destruct I1 as [_ I1]. apply andb_prop in I1. destruct I1 as [I1 _]. apply andb_prop in I1. destruct I1 as [I1 I2]. apply String.eqb_eq in I1, I2.
    cbn [map first_of rec_of r_primary r_pair]. unfold primary_of, pair_of. rewrite I1, I2, primary_name_ok. reflexivity. }
  unfold pricelist. rewrite in_flat_map. split.
  - intros ([b q] & I1 & I2). cbn [fst snd] in I2. apply in_map_iff in I2. destruct I2 as (c & <- & I2). apply (Permutation_in _ (Permutation_sym (sort_rows_perm _ _))) in I2. apply nodup_In in I2.
    apply in_map_iff in I2. destruct I2 as (e & E & I2). exists b, q, c. rewrite keyed. assert (N : with_key h b q c l <> []).
    { intros Z. assert (X : In e (filter (fun e => cid_eqb (r_cid e) c) (group r_tknb r_tknq (map (rec_of h) l) b q))) by (apply filter_In; split; [exact I2|apply cid_eqb_iff, E]). rewrite keyed, Z in X. exact X. }
    split; [exact N|]. apply Row, N.
  - intros (b & q & c & N & ->). destruct (with_key h b q c l) as [|r w] eqn:E; [congruence|]. assert (I1 : In r (with_key h b q c l)) by (rewrite E; left; reflexivity). rewrite <- E in N |- *.
    pose proof (keyed h l b q c) as Kd. assert (X : In (rec_of h r) (map (rec_of h) (with_key h b q c l))) by (apply in_map, I1). rewrite <- Kd in X. apply filter_In in X. destruct X as [X Xc]. pose proof X as X0. apply filter_In in X0. destruct X0 as [X0 X1]. apply andb_prop in X1. destruct X1 as [X1 X2]. apply String.eqb_eq in X1, X2.
    exists (b, q). split; [apply directed_in; exists (rec_of h r); auto|]. cbn [fst snd]. apply in_map_iff. exists c. rewrite Kd. split; [apply Row, N|]. apply (Permutation_in _ (sort_rows_perm _ _)). apply nodup_In. apply in_map_iff. exists (rec_of h r). split; [apply cid_eqb_iff, Xc|exact X].
Qed.
Lemma pricelist_nodup l : NoDup (map pl_key (pricelist l)).
Proof.
  unfold pricelist. apply (nodup_flat_map _ pl_key (fun e => fst e)); [apply directed_nodup| |].
  - intros [b q] _. rewrite map_map. cbn [pl_key l_tknb l_tknq l_cid fst snd]. unfold pl_key. cbn [l_tknb l_tknq l_cid]. apply (FinFun.Injective_map_NoDup (f := fun c => (b, q, c))); [intros c c' E; congruence|].
    eapply Permutation_NoDup; [apply sort_rows_perm|]. apply NoDup_nodup.
  - intros [b q] e _ I1. apply in_map_iff in I1. destruct I1 as (c & <- & _). reflexivity.
Qed.
Lemma herf_shares l : total l <> 0 -> finite (herfindahl l) = Some (shares l).
Proof.
  intros N. unfold herfindahl, finite. rewrite !rsum_total. rewrite rdiv_ok by (apply pow_nonzero, N). f_equal. unfold shares.
  assert (X : forall s m, s <> 0 -> total (map (fun v => v ^ 2) m) / s ^ 2 = total (map (fun v => (v / s) ^ 2) m)).
  { intros s m Ns. induction m as [|v m IH]; cbn [map]; [rewrite !total_nil; unfold Rdiv; ring|]. rewrite !total_cons, <- IH. field. exact Ns. }
  apply X, N.
Qed.
Lemma plaggr_in h (l : list nat) e : (forall r, In r l -> 0 < k (obj h r) /\ x (obj h r) <> 0) -> let cs := map (obj h) l in In e (plaggr (map (rec_of h) l)) <->
  exists b q, let v := map primary_spot (from_to b q cs) in from_to b q cs <> [] /\
    e = mkPa b q (primary_name b q) (mean v) (List.length (from_to b q cs)) (Some (sqrt (spread v / INR (List.length v)) / mean v * 100)) (minl v) (maxl v) (rangepc v * 100) (Some (shares v)).
Proof.
  intros P cs.
  assert (Row : forall b q, from_to b q cs <> [] -> let g := group r_tknb r_tknq (map (rec_of h) l) b q in let v := map r_pp g in
     mkPa b q (first_of r_primary g) (meanl v) (List.length g) (match sdpc v with Some s => Some (s * 100) | None => None end) (minl v) (maxl v) (rangepc v * 100) (finite (herfindahl v)) =
     let v := map primary_spot (from_to b q cs) in mkPa b q (primary_name b q) (mean v) (List.length (from_to b q cs)) (Some (sqrt (spread v / INR (List.length v)) / mean v * 100)) (minl v) (maxl v) (rangepc v * 100) (Some (shares v))).
  { intros b q N. cbv zeta. pose proof (group_map h l r_pp primary_spot b q (fun _ => eq_refl)) as M. rewrite M. rewrite meanl_mean.
    assert (Pf : forall c, In c (from_to b q cs) -> 0 < primary_spot c). { intros c I1. apply filter_In in I1. destruct I1 as [I1 _]. apply in_map_iff in I1. destruct I1 as (r & <- & I1). destruct (P r I1) as [A B]. pose proof (spot_pos _ A B) as S. unfold primary_spot. destruct (isprimary _ _ _); [exact S|apply Rinv_0_lt_compat, S]. }
    assert (Mp : 0 < mean (map primary_spot (from_to b q cs))) by (apply mean_pos; assumption).
    assert (Tp : 0 < total (map primary_spot (from_to b q cs))). { apply total_pos; [destruct (from_to b q cs); [congruence|discriminate]|]. intros v I1. apply in_map_iff in I1. destruct I1 as (c & <- & I1). apply Pf, I1. }
    fold cs. rewrite herf_shares by lra. unfold sdpc. rewrite meanl_mean, squares_spread. destruct (req _ 0) eqn:Z; [apply req_iff in Z; lra|].
    assert (L : List.length (group r_tknb r_tknq (map (rec_of h) l) b q) = List.length (from_to b q cs)) by (rewrite <- (map_length r_pp), M, map_length; reflexivity). rewrite L.
    assert (F : first_of r_primary (group r_tknb r_tknq (map (rec_of h) l) b q) = primary_name b q).
    { destruct (group r_tknb r_tknq (map (rec_of h) l) b q) as [|e0 g] eqn:E; [exfalso; apply N, (proj1 (group_empty h l b q)), E|]. cbn [first_of]. assert (I1 : In e0 (group r_tknb r_tknq (map (rec_of h) l) b q)) by (rewrite E; left; reflexivity).
      apply filter_In in I1. destruct I1 as [I1 I2]. apply andb_prop in I2. destruct I2 as [I2 I3]. apply String.eqb_eq in I2, I3. apply in_map_iff in I1. destruct I1 as (r & <- & _). cbn [rec_of r_tknb r_tknq r_primary] in *. unfold primary_of. rewrite I2, I3. apply primary_name_ok. }
    rewrite F. reflexivity. }
  unfold plaggr. rewrite in_map_iff. split.
  - intros ([b q] & <- & I1). cbn [fst snd]. exists b, q. cbv zeta. assert (N : from_to b q cs <> []).
    { apply directed_in in I1. destruct I1 as (e0 & I1 & <- & <-). pose proof (group_self r_tknb r_tknq _ e0 I1) as N. intros Z. apply N. apply group_empty. exact Z. }
    split; [exact N|]. exact (Row b q N).
  - intros (b & q & N & ->). exists (b, q). cbn [fst snd]. split; [exact (Row b q N)|]. apply directed_in. destruct (group r_tknb r_tknq (map (rec_of h) l) b q) as [|e0 g] eqn:E; [exfalso; apply N, (proj1 (group_empty h l b q)), E|].
    assert (I1 : In e0 (group r_tknb r_tknq (map (rec_of h) l) b q)) by (rewrite E; left; reflexivity). apply filter_In in I1. destruct I1 as [I1 I2]. apply andb_prop in I2. destruct I2 as [I2 I3]. apply String.eqb_eq in I2, I3. eauto.
Qed.
Lemma plaggr_nodup l : NoDup (map (fun e => (a_tknb e, a_tknq e)) (plaggr l)).
Proof. unfold plaggr. rewrite map_map. cbn [a_tknb a_tknq]. rewrite (map_ext _ (fun e => e)) by (intros [b q]; reflexivity). rewrite map_id. apply directed_nodup. Qed.
