(** Proofs for C151: volumes. *)
From Coq Require Import Reals Lra Bool List String Arith Lia Permutation Sorting.Sorted.
From Verif Require Import CurveModel CurveProofs PairModel PairProofs HelperModel HelperProofs CpcModel ContainerModel ContainerSpec ContainerProofs ContainerProofs2 ContainerProofs3 FileModel TabModel TabSpec TabProofs TabProofs2.
From Verif Require FileSpec FileProofs.
Import ListNotations.
Local Open Scope R_scope.

Lemma cid_leb_yes a b : cid_leb a b = true -> cid_before a b.
Proof. destruct a, b; cbn; try discriminate; auto; intros H; [apply Nat.leb_le, H|apply FileProofs.leb_before, H]. Qed.
Lemma cid_leb_no a b : cid_leb a b = false -> cid_before b a.
Proof.
  destruct a as [n|s], b as [m|t]; cbn; try discriminate; auto; intros H; [apply Nat.leb_gt in H; lia|]. destruct (String.leb_total s t) as [X|X]; [congruence|]. apply FileProofs.leb_before, X.
Qed.
Lemma cid_trans a b c : cid_before a b -> cid_before b c -> cid_before a c.
Proof. destruct a, b, c; cbn; try tauto; [lia|apply FileProofs.before_trans]. Qed.
Lemma vleb_yes a b : vleb a b = true -> row_before a b.
Proof. unfold vleb, row_before. destruct (String.eqb_spec (v_tkn a) (v_tkn b)) as [E|N]; intros H; [right; split; [exact E|apply cid_leb_yes, H]|left; split; [exact N|apply FileProofs.leb_before, H]]. Qed.
Lemma vleb_no a b : vleb a b = false -> row_before b a.
Proof.
  unfold vleb, row_before. destruct (String.eqb_spec (v_tkn a) (v_tkn b)) as [E|N]; intros H; [right; split; [auto|apply cid_leb_no, H]|left; split; [auto|]]. destruct (String.leb_total (v_tkn a) (v_tkn b)) as [X|X]; [congruence|]. apply FileProofs.leb_before, X.
Qed.
Lemma row_trans a b c : row_before a b -> row_before b c -> row_before a c.
Proof.
  unfold row_before. intros [[N1 B1]|[E1 C1]] [[N2 B2]|[E2 C2]].
  - left. split; [|eapply FileProofs.before_trans; eassumption]. intros E. rewrite E in B1. apply N2. apply FileProofs.before_antisym; assumption.
  - left. rewrite <- E2. auto.
  - left. rewrite E1. auto.
  - right. split; [congruence|eapply cid_trans; eassumption].
Qed.
Lemma volumes_sorted l : StronglySorted row_before (volumes l).
Proof. apply sort_rows_sorted; [exact vleb_yes|exact vleb_no|exact row_trans]. Qed.
Lemma perm_two {A B} (f g : A -> B) l : Permutation (map f l ++ map g l) (flat_map (fun a => [f a; g a]) l).
Proof.
  induction l as [|a l IH]; [constructor|]. cbn [map flat_map app]. constructor. rewrite <- Permutation_middle. constructor. exact IH.
Qed.
Lemma volumes_perm h (l : list nat) : Permutation (volumes (map (rec_of h) l)) (flat_map (rows_of h) l).
Proof. unfold volumes. rewrite <- sort_rows_perm. rewrite !map_map. apply (perm_two (fun r => mkVol (tknx (obj h r)) (cid_of h r) (x (obj h r)) (x_act (obj h r))) (fun r => mkVol (tkny (obj h r)) (cid_of h r) (k (obj h r) / x (obj h r)) (y_act (obj h r)))). Qed.
Lemma filter_perm {A} (f : A -> bool) l m : Permutation l m -> Permutation (filter f l) (filter f m).
Proof.
  induction 1 as [|u l m H IH|u w l|l m n H1 IH1 H2 IH2]; cbn [filter]; try reflexivity.
  - destruct (f u); [constructor|]; assumption.
  - destruct (f u), (f w); try reflexivity. apply perm_swap.
  - etransitivity; eassumption.
Qed.
Lemma token_rows h (l : list nat) t : Permutation (map v_amtv (filter (fun v => String.eqb (v_tkn v) t) (volumes (map (rec_of h) l)))) (all_amounts (virtual_amounts t) (map (obj h) l)) /\
  Permutation (map v_amt (filter (fun v => String.eqb (v_tkn v) t) (volumes (map (rec_of h) l)))) (all_amounts (real_amounts t) (map (obj h) l)).
Proof.
  pose proof (filter_perm (fun v => String.eqb (v_tkn v) t) _ _ (volumes_perm h l)) as P. split; (etransitivity; [apply Permutation_map, P|]); clear P; induction l as [|r l IH]; try (constructor; fail);
    cbn [flat_map map all_amounts]; rewrite filter_app, map_app; unfold all_amounts in *; cbn [flat_map]; (apply Permutation_app; [|exact IH]); unfold rows_of, virtual_amounts, real_amounts; cbn [filter v_tkn];
    destruct (String.eqb (tknx (obj h r)) t), (String.eqb (tkny (obj h r)) t); reflexivity.
Qed.
Lemma shares_perm l m : Permutation l m -> shares l = shares m.
Proof. intros P. unfold shares. rewrite (total_perm _ _ P). apply total_perm, Permutation_map, P. Qed.
Lemma total_sq_pos l : total l <> 0 -> 0 < total (map (fun v => v ^ 2) l).
Proof.
  intros N. assert (H : 0 <= total (map (fun v => v ^ 2) l)) by (apply total_nonneg; intros v I1; apply in_map_iff in I1; destruct I1 as (w & <- & _); apply pow2_ge_0).
  destruct (Rle_lt_or_eq_dec _ _ H) as [X|X]; [exact X|]. exfalso. apply N. clear N H. induction l as [|v l IH]; [reflexivity|]. cbn [map] in X. rewrite total_cons in X. cbv beta in X.
  assert (A : 0 <= v ^ 2) by apply pow2_ge_0. assert (B : 0 <= total (map (fun v => v ^ 2) l)) by (apply total_nonneg; intros u I1; apply in_map_iff in I1; destruct I1 as (w & <- & _); apply pow2_ge_0).
  rewrite total_cons, IH by lra. assert (v ^ 2 = 0) by lra. assert (v = 0) by (destruct (Req_dec v 0); [assumption|exfalso; apply (pow_nonzero v 2); assumption]). lra.
Qed.
Lemma herfN_shares l : total l <> 0 -> finite (herfindahlN l) = Some (/ shares l).
Proof.
  intros N. pose proof (herf_shares l N) as H. unfold herfindahlN. destruct (herfindahl l) as [s|] eqn:E; [|discriminate]. cbn in H. injection H as ->. cbn [rbind].
  assert (P : shares l <> 0). { unfold herfindahl in E. rewrite !rsum_total, rdiv_ok in E by (apply pow_nonzero, N). injection E as <-. pose proof (total_sq_pos l N) as Q. unfold Rdiv. apply Rmult_integral_contrapositive_currified; [apply Rgt_not_eq, Q|]. apply Rinv_neq_0_compat, (pow_nonzero (total l) 2), N. }
  rewrite rdiv_ok by exact P. cbn [finite]. f_equal. unfold Rdiv. apply Rmult_1_l.
Qed.
Lemma volume_tokens h (l : list nat) : forall t, In t (map v_tkn (volumes (map (rec_of h) l))) <-> In t (map tknx (map (obj h) l) ++ map tkny (map (obj h) l)).
Proof.
  intros t. rewrite in_app_iff, !map_map, !in_map_iff. split.
  - intros (v & <- & I1). apply (Permutation_in _ (volumes_perm h l)) in I1. apply in_flat_map in I1. destruct I1 as (r & Ir & [<-|[<-|[]]]); [left|right]; exists r; auto.
  - intros [(r & <- & Ir)|(r & <- & Ir)].
    + exists (mkVol (tknx (obj h r)) (cid_of h r) (x (obj h r)) (x_act (obj h r))). split; [reflexivity|]. apply (Permutation_in _ (Permutation_sym (volumes_perm h l))). apply in_flat_map. exists r. split; [exact Ir|left; reflexivity].
    + exists (mkVol (tkny (obj h r)) (cid_of h r) (k (obj h r) / x (obj h r)) (y_act (obj h r))). split; [reflexivity|]. apply (Permutation_in _ (Permutation_sym (volumes_perm h l))). apply in_flat_map. exists r. split; [exact Ir|right; left; reflexivity].
Qed.
Lemma by_token h cc (l : list nat) (pr : string -> option R) : (forall t, t <> ETH -> price h cc t ETH = Ret (pr t)) -> pr ETH = Some 1 -> (forall t q, pr t = Some q -> q <> 0) ->
  exists rows, volumes_by_token h cc (map (rec_of h) l) = Ret rows /\ labelled (map g_tkn rows) (map tknx (map (obj h) l) ++ map tkny (map (obj h) l)) /\
    forall e, In e rows -> token_row (map (obj h) l) (g_tkn e) (pr (g_tkn e)) e.
Proof.
  intros P P1 P0. unfold volumes_by_token. set (toks := labels (map v_tkn (volumes (map (rec_of h) l)))).
  set (row := fun t => let g := filter (fun v => String.eqb (v_tkn v) t) (volumes (map (rec_of h) l)) in let av := map v_amtv g in let aa := map v_amt g in
     let ev := times (rsum av) (pr t) in let ea := times (rsum aa) (pr t) in
     mkVa t (rsum av) (rsum aa) (finite (herfindahl av)) (finite (herfindahl aa)) (finite (herfindahlN av)) (finite (herfindahlN aa)) (List.length g) (pr t) ev ea (oquot ev ea)).
  exists (map row toks). split; [|split].
  - apply rmap_ok. intros t _. cbv zeta. destruct (String.eqb_spec t ETH) as [->|N]; [rewrite <- P1|rewrite (P t N)]; reflexivity.
  - rewrite map_map. replace (map (fun t => g_tkn (row t)) toks) with toks by (symmetry; erewrite map_ext; [apply map_id|reflexivity]). unfold toks. destruct (labels_ok (map v_tkn (volumes (map (rec_of h) l)))) as (A & B & C). split; [exact A|]. split; [exact B|]. intros s. rewrite C. apply volume_tokens.
  - intros e I1. apply in_map_iff in I1. destruct I1 as (t & <- & _). change (g_tkn (row t)) with t. destruct (token_rows h l t) as [Pv Pa]. unfold token_row, row. cbn [g_tkn g_amtv g_amt g_n g_price g_amtv_h g_amt_h g_amtv_hn g_amt_hn g_amtv_eth g_amt_eth g_lvg].
    set (g := filter (fun v => String.eqb (v_tkn v) t) (volumes (map (rec_of h) l))) in *. set (cs := map (obj h) l) in *. rewrite !rsum_total. pose proof (total_perm _ _ Pv) as Tv. pose proof (total_perm _ _ Pa) as Ta.
    split; [reflexivity|]. split; [exact Tv|]. split; [exact Ta|]. split; [rewrite <- (map_length v_amt g); apply Permutation_length, Pa|]. split; [reflexivity|].
    split. { intros N. rewrite <- Tv in N. rewrite herf_shares, herfN_shares by exact N. rewrite (shares_perm _ _ Pv). auto. }
    split. { intros N. rewrite <- Ta in N. rewrite herf_shares, herfN_shares by exact N. rewrite (shares_perm _ _ Pa). auto. }
    rewrite Tv, Ta. destruct (pr t) as [q|] eqn:Pq; cbn [times oquot]; [|auto]. apply P0 in Pq. split; [reflexivity|]. split; [reflexivity|]. intros N. unfold quot. destruct (req _ 0) eqn:Z; [apply req_iff in Z; exfalso; apply Rmult_integral in Z; tauto|]. f_equal. field. auto.
Qed.

Lemma eth_price_ok h cc : good h cc -> (forall r, In r (curves cc) -> no_slash (tknx (obj h r)) = true /\ no_slash (tkny (obj h r)) = true /\ x (obj h r) <> 0) ->
  (forall r, In r (curves cc) -> 0 < k (obj h r)) ->
  (forall t, t <> ETH -> price h cc t ETH = Ret (eth_price h cc t)) /\ eth_price h cc ETH = Some 1 /\ (forall t q, eth_price h cc t = Some q -> q <> 0).
Proof.
  intros G W K. assert (K' : forall t c, In c (trading h cc t ETH) -> 0 < k c) by (intros t c I1; apply filter_In in I1; destruct I1 as [I1 _]; apply in_map_iff in I1; destruct I1 as (r & <- & I1); apply K, I1).
  assert (V : forall t, t <> ETH -> price h cc t ETH = Ret (eth_price h cc t)).
  { intros t N. rewrite (price_value h cc t ETH G W N (K' t)). unfold eth_price. change "WETH-6Cc2"%string with ETH. destruct (String.eqb_spec t ETH) as [E|_]; [contradiction|]. destruct (trading h cc t ETH); reflexivity. }
  split; [exact V|]. split; [reflexivity|]. intros t q E. destruct (string_dec t ETH) as [->|N]; [injection E as <-; lra|].
  destruct (price_props h cc t ETH G W N (K' t)) as [A B]. rewrite (V t N) in A, B. destruct (trading h cc t ETH) as [|c l] eqn:Tr.
  - destruct A as [_ A]. rewrite E in A. discriminate (A eq_refl).
  - destruct (B ltac:(discriminate)) as (m & M & P & _). rewrite E in M. injection M as ->. lra.
Qed.
