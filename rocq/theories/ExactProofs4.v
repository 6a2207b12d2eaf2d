(** The matching loop of the exact router with its own split formulas: the result is the best
    feasible routing. *)
From Coq Require Import Reals Lra Lia Bool List Arith Permutation.
From Verif Require Import CurveModel CurveProofs OrderModel ExactModel ExactSpec ExactProofs ExactProofs2 ExactProofs3.
Import ListNotations.
Local Open Scope R_scope.

(** ** bounds of a returned routing, for any split formula *)
Lemma in_map_pair {A B C} (f : A -> B) (g : A -> C) l a : In a l -> In (f a, g a) (map (fun a => (f a, g a)) l).
Proof. intros. apply (in_map (fun a => (f a, g a))). assumption. Qed.
Lemma nonzero_in s i v : In (i, v) (nonzero s) <-> In (i, v) s /\ v <> 0.
Proof. unfold nonzero. rewrite filter_In. cbn. unfold req. destruct (Req_EM_T v 0); cbn; intuition congruence. Qed.
Lemma nonzero_nodup s : NoDup (map fst s) -> NoDup (map fst (nonzero s)).
Proof. apply map_filter_nodup. Qed.

Lemma finish_spec os x by_target support_partial outs acts : finish os x by_target support_partial outs = Ret acts ->
  map (fun a => (ac_index a, ac_output a)) acts = outs /\
  (forall a, In a acts -> dxdy (getx os (ac_index a)) (ac_output a) = Ret (ac_input a)) /\
  let actual := if by_target then rsum (map ac_output acts) else rsum (map ac_input acts) in
  actual <> 0 /\ (support_partial = false -> Rabs (x / actual - 1) < 5 / 100 /\ (by_target = false -> x <= actual)).
Proof.
  unfold finish. destruct (rmap _ outs) as [rows|e] eqn:E; [|discriminate]. cbn [rbind]. apply rows_fields in E. destruct E as [E1 E2].
  set (actual := if by_target then _ else _). unfold rdiv. destruct (req actual 0) eqn:Ez; [discriminate|]. cbn [rbind]. cbv zeta.
  destruct (negb by_target && negb support_partial && rlt (actual - x) 0) eqn:C1; [discriminate|].
  destruct (negb support_partial && rlt (/ 10000) (Rabs (x / actual - 1)) && rle (5 / 100) (Rabs (x / actual - 1))) eqn:C2; [discriminate|].
  intros H. injection H as <-. destruct (actions_fields 0 0 rows) as (A1 & A2 & A3).
  assert (Hact : actual = if by_target then rsum (map ac_output (actions 0 0 rows)) else rsum (map ac_input (actions 0 0 rows))).
  { rewrite A2, A3. unfold actual. rewrite <- E1, map_map. reflexivity. }
  assert (Epairs : map (fun a => (ac_index a, ac_output a)) (actions 0 0 rows) = map (fun r => (fst (fst r), snd r)) rows).
  { assert (P : forall t1 t2, map (fun a => (ac_index a, ac_output a)) (actions t1 t2 rows) = map (fun r => (fst (fst r), snd r)) rows); [|apply P]. clear. induction rows as [|[[i a] b] rows IH]; intros t1 t2; [reflexivity|]. cbn. f_equal. apply IH. }
  split; [rewrite Epairs; assumption|]. split.
  - assert (Hf : Forall (fun a => dxdy (getx os (ac_index a)) (ac_output a) = Ret (ac_input a)) (actions 0 0 rows)).
    { assert (P : forall t1 t2, Forall (fun a => dxdy (getx os (ac_index a)) (ac_output a) = Ret (ac_input a)) (actions t1 t2 rows)); [|apply P]. clear -E2. induction E2 as [|[[i a] b] rows H _ IH]; intros t1 t2; [constructor|]. cbn. constructor; [assumption|apply IH]. }
    intros a Ha. rewrite Forall_forall in Hf. apply Hf. assumption.
  - cbv zeta. rewrite <- Hact. split.
    + intro Z. rewrite req_true in Ez by assumption. discriminate.
    + intros ->. rewrite ?andb_true_l, ?andb_true_r in *. cbn [negb andb] in C2. split.
      * destruct (Rlt_dec (Rabs (x / actual - 1)) (5 / 100)) as [|G]; [assumption|]. exfalso. rewrite rlt_true, rle_true in C2 by lra. discriminate.
      * intros ->. cbn in C1. destruct (Rle_dec x actual) as [|G]; [assumption|]. rewrite rlt_true in C1 by lra. discriminate.
Qed.
Lemma map_fst_pairs (acts : list action) : map fst (map (fun a => (ac_index a, ac_output a)) acts) = map ac_index acts.
Proof. rewrite map_map. reflexivity. Qed.
Lemma match_bounded fuel infuel os split x by_target check level support_partial acts :
  match_with fuel infuel os split x by_target check level support_partial = Some (Ret acts) ->
  NoDup (map ac_index acts) /\
  (forall a, In a acts -> usable os level (ac_index a) /\ ac_output a <> 0 /\ 0 <= xo_y (nth (ac_index a) os (mkX 0 0 0 0)) + ac_output a /\
    dxdy (nth (ac_index a) os (mkX 0 0 0 0)) (ac_output a) = Ret (ac_input a)) /\
  (support_partial = false ->
    Rabs (x / (if by_target then rsum (map ac_output acts) else rsum (map ac_input acts)) - 1) < 5 / 100 /\ (by_target = false -> x <= rsum (map ac_input acts))).
Proof.
  rewrite match_unfold. destruct (request _ _ _ _ _ _) as [x'|e] eqn:Er; [|discriminate].
  destruct (outer _ _ _ _ _ _ _ _) as [[[f p]|e]|] eqn:Eo; try discriminate. intros H. injection H as H.
  apply finish_spec in H. destruct H as (H1 & H2 & H3). apply outer_bounded in Eo; [|apply drained_nil].
  destruct (merged_eq _ _ _ _ Eo) as [Em Nm]. rewrite Em in H1. destruct Eo as ([N D] & Np & Hp & Hb).
  split; [rewrite <- map_fst_pairs, H1; apply nonzero_nodup; assumption|]. split.
  - intros a Ha. assert (Hin : In (ac_index a, ac_output a) (nonzero (f ++ p))) by (rewrite <- H1; apply in_map_pair; assumption).
    apply nonzero_in in Hin. destruct Hin as [Hin Hnz]. apply in_app_or in Hin. fold (getx os (ac_index a)).
    destruct Hin as [Hin|Hin].
    + destruct (D _ _ Hin) as [U E]. split; [assumption|]. split; [assumption|]. split; [rewrite E; lra|apply H2; assumption].
    + split; [apply Hp, in_map_iff; exists (ac_index a, ac_output a); split; [reflexivity|assumption]|]. split; [assumption|]. split; [apply Hb; assumption|apply H2; assumption].
  - intros ->. destruct H3 as [_ H3]. specialize (H3 eq_refl). assert (x' = x).
    { unfold request in Er. destruct (by_target && check); [|congruence]. unfold sufficient_liquidity in Er. destruct (rle 0 _); cbn in Er; congruence. }
    subst x'. destruct by_target; split; try apply H3; try discriminate.
Qed.

(** ** the level of the routing *)
(** how much of the request an order serves when its balance changes by [v] *)
Definition serves (by_target : bool) (o : xorder) (v : R) : R := if by_target then - v else payment o (- v).
Definition dom (by_target : bool) (lam : R) : Prop := by_target = true \/ 0 < lam.
Lemma serves_zero b o : serves b o 0 = 0. Proof. destruct b; unfold serves; [lra|]. rewrite Ropp_0. apply payment_zero. Qed.
Lemma serves_lt b o v w : sane o -> (b = true \/ 0 < depth o v) -> v < w -> serves b o w < serves b o v.
Proof.
  intros H Hd Hlt. unfold serves. destruct b; [lra|]. destruct Hd as [?|Hd]; [discriminate|].
  pose proof (depth0_pos o H) as H0. assert (Hw : depth o v < depth o w). { rewrite (depth_shift o v), (depth_shift o w). destruct H as (? & _). assert (xo_n o * v < xo_n o * w) by (apply Rmult_lt_compat_l; lra). lra. }
  rewrite !payment_form by (rewrite ?Ropp_involutive; try assumption; lra). rewrite !Ropp_involutive. destruct H as (? & ? & ? & ?).
  apply Rmult_lt_compat_l; [apply Rdiv_lt_0_compat; [apply Rmult_lt_0_compat; assumption|lra]|]. apply Rplus_lt_compat_r. apply Rinv_lt_contravar; [apply Rmult_lt_0_compat; lra|assumption].
Qed.
Lemma serves_le b o v w : sane o -> (b = true \/ 0 < depth o v) -> v <= w -> serves b o w <= serves b o v.
Proof. intros H Hd [Hlt| ->]; [left; apply serves_lt; assumption|right; reflexivity]. Qed.
Lemma level_lt lam mu o : sane o -> lam < mu -> at_level lam o < at_level mu o.
Proof.
  intros H Hlt. pose proof (root_pos o H). unfold at_level. destruct H as (? & _). apply Rmult_lt_compat_r; [apply Rinv_0_lt_compat; lra|]. assert (lam * root o < mu * root o) by (apply Rmult_lt_compat_r; assumption). lra.
Qed.
Lemma level_le lam mu o : sane o -> lam <= mu -> at_level lam o <= at_level mu o.
Proof. intros H [Hlt| ->]; [left; apply level_lt; assumption|right; reflexivity]. Qed.
Lemma level_dom b lam o : sane o -> dom b lam -> b = true \/ 0 < depth o (at_level lam o).
Proof. intros H [?|?]; [left; assumption|right]. rewrite depth_at_level by assumption. apply Rmult_lt_0_compat; [assumption|apply root_pos; assumption]. Qed.
Lemma empty_depth o : sane o -> 0 < depth o (- xo_y o).
Proof. intros (? & ? & ? & ?). unfold depth. replace (xo_y o + - xo_y o) with 0 by ring. rewrite Rmult_0_r, Rplus_0_l. apply Rmult_lt_0_compat; lra. Qed.

(** what the closed forms deliver *)
Definition amount (by_target : bool) (rem : R) : R := if by_target then - rem else rem.
Definition split_of (by_target : bool) os : splitter := if by_target then amt_by_target os else amt_by_src os.
Definition serve_at b os lam i := serves b (getx os i) (at_level lam (getx os i)).
Lemma split_level b os sub rem : good_subset os sub -> sub <> [] -> 0 < rem ->
  exists lam, dom b lam /\ total (serve_at b os lam) sub = rem /\ rmap (fun i => let* v := split_of b os i (amount b rem) sub in Ret (i, v)) sub = Ret (map (fun i => (i, at_level lam (getx os i))) sub).
Proof.
  intros G Hne Hrem. unfold serve_at, serves, amount, split_of. destruct b.
  - exists (level_target os sub (- rem)). split; [left; reflexivity|]. split.
    + pose proof (total_at_level_target os sub (- rem) G Hne) as T.
      transitivity ((-1) * total (fun i => at_level (level_target os sub (- rem)) (getx os i)) sub); [|rewrite T; ring].
      rewrite <- total_scale. apply total_ext. intros; ring.
    + apply rmap_ok. intros i Hi. rewrite amt_by_target_value by assumption. reflexivity.
  - pose proof (reach_src_pos os sub G Hne) as HR. pose proof (weight_pos os sub G Hne) as HW. exists (level_src os sub rem). split; [right; apply Rdiv_lt_0_compat; lra|]. split.
    + apply total_at_level_src; [assumption|assumption|lra].
    + apply rmap_ok. intros i Hi. rewrite amt_by_src_value by (try assumption; lra). reflexivity.
Qed.

Lemma total_filter f p l : total f l = total f (filter p l) + total f (filter (fun i => negb (p i)) l).
Proof.
  induction l as [|a l IH]; [unfold total; cbn; lra|]. rewrite total_cons, IH. cbn [filter]. destruct (p a); cbn [negb]; rewrite total_cons; lra.
Qed.
Lemma total_perm f a b : Permutation a b -> total f a = total f b.
Proof. induction 1; rewrite ?total_cons; lra. Qed.
Lemma total_const0 f l : (forall i, In i l -> f i = 0) -> total f l = 0.
Proof. intros H. induction l; [reflexivity|]. rewrite total_cons, H by (left; reflexivity). rewrite IHl; [lra|]. intros; apply H; right; assumption. Qed.
Lemma total_nonneg f l : (forall i, In i l -> 0 <= f i) -> 0 <= total f l.
Proof. intros H. rewrite <- (total_const0 (fun _ => 0) l) by reflexivity. apply total_le. assumption. Qed.

Lemma total_neg f l : (forall i, In i l -> f i <= 0) -> (exists i, In i l /\ f i < 0) -> total f l < 0.
Proof. intros H1 H2. rewrite <- (total_const0 (fun _ => 0) l) by reflexivity. apply total_lt; assumption. Qed.

Definition pairs os lam (s : list nat) : swaps := map (fun i => (i, at_level lam (getx os i))) s.
Lemma pairs_keys os lam s : map fst (pairs os lam s) = s. Proof. unfold pairs. rewrite map_map. cbn. apply map_id. Qed.
Lemma pairs_positives os lam s i : In i (positives (pairs os lam s)) <-> In i s /\ 0 < at_level lam (getx os i).
Proof.
  rewrite in_positives. unfold pairs. split.
  - intros (v & H & Hv). apply in_map_iff in H. destruct H as (j & E & Hj). injection E as <- <-. split; assumption.
  - intros [Hi Hv]. exists (at_level lam (getx os i)). split; [apply (in_map_pair (fun i => i) (fun i => at_level lam (getx os i))); assumption|assumption].
Qed.
Lemma live_step os dropped lam : incl (zeros os) dropped ->
  live os (dropped ++ positives (pairs os lam (live os dropped)) ++ zeros os) = filter (fun i => rle (at_level lam (getx os i)) 0) (live os dropped).
Proof.
  intros Z. unfold live at 1 3. set (P := positives _).
  assert (HP : forall i, In i (indexes os) -> negb (mem i (dropped ++ P ++ zeros os)) = negb (mem i dropped) && rle (at_level lam (getx os i)) 0).
  { intros i Hi. destruct (mem i dropped) eqn:M; rewrite !mem_app, M; [reflexivity|]. cbn [negb andb orb].
    assert (Mz : mem i (zeros os) = false) by (apply mem_not; intro Hz; apply Z, mem_in in Hz; congruence). rewrite Mz, orb_false_r.
    assert (Hl : In i (live os dropped)) by (apply in_live; split; [apply in_seq in Hi; lia|apply mem_not; assumption]).
    destruct (Rle_dec (at_level lam (getx os i)) 0) as [E|E].
    - rewrite rle_true by assumption. apply negb_true_iff, mem_not. unfold P. rewrite pairs_positives. intros [_ ?]. lra.
    - rewrite rle_false by lra. apply negb_false_iff, mem_in. unfold P. rewrite pairs_positives. split; [assumption|lra]. }
  rewrite (filter_ext_in _ _ _ HP). clear. induction (indexes os) as [|a l IH]; [reflexivity|]. cbn. destruct (negb (mem a dropped)) eqn:M; cbn [andb]; [cbn [filter]; destruct (rle _ _); rewrite IH; reflexivity|assumption].
Qed.

(** the inner loop finds the level of the orders that are better than it *)
Lemma inner_level b os rem fuel : forall dropped lamp,
  good_subset os (live os dropped) -> incl (zeros os) dropped -> 0 < rem -> dom b lamp -> total (serve_at b os lamp) (live os dropped) = rem -> (length (live os dropped) < fuel)%nat ->
  exists lam s, inner fuel os (split_of b os) (amount b rem) dropped (pairs os lamp (live os dropped)) = Some (Ret (pairs os lam s)) /\
    dom b lam /\ lamp <= lam /\ NoDup s /\ incl s (live os dropped) /\ total (serve_at b os lam) s = rem /\
    (forall i, In i s -> at_level lam (getx os i) <= 0) /\ (forall i, In i (live os dropped) -> ~ In i s -> 0 < at_level lam (getx os i)).
Proof.
  induction fuel as [|fuel IH]; intros dropped lamp G Z Hrem Hdom Htot Hf; [lia|]. rewrite inner_unfold.
  destruct (check_partial_swaps (pairs os lamp (live os dropped))) eqn:C.
  - exists lamp, (live os dropped). split; [reflexivity|]. split; [assumption|]. split; [lra|]. split; [apply live_nodup|]. split; [apply incl_refl|]. split; [assumption|]. split; [|intros i H1 H2; contradiction].
    intros i Hi. unfold check_partial_swaps in C. destruct (pairs _ _ _) as [|kv ps] eqn:P; [discriminate|]. rewrite <- P in C. rewrite forallb_forall in C.
    specialize (C (i, at_level lamp (getx os i)) (in_map_pair (fun i => i) (fun i => at_level lamp (getx os i)) _ i Hi)). cbn in C. unfold rle in C. destruct (Rle_dec _ _); [assumption|discriminate].
  - set (d' := dropped ++ positives (pairs os lamp (live os dropped)) ++ zeros os).
    assert (L : live os d' = filter (fun i => rle (at_level lamp (getx os i)) 0) (live os dropped)) by (apply live_step; assumption).
    assert (Hd : forall i, In i (live os d') <-> In i (live os dropped) /\ at_level lamp (getx os i) <= 0).
    { intros i. rewrite L, filter_In. unfold rle. destruct (Rle_dec (at_level lamp (getx os i)) 0); intuition congruence. }
    assert (Hne : live os d' <> []).
    { intro E. assert (total (serve_at b os lamp) (live os dropped) <= total (fun _ => 0) (live os dropped)).
      { apply total_le. intros i Hi. pose proof (good_sane _ _ _ G Hi) as Ho. rewrite <- (serves_zero b (getx os i)). apply serves_le; [assumption| |].
        - right. apply depth0_pos; assumption.
        - destruct (Rle_dec 0 (at_level lamp (getx os i))); [assumption|]. exfalso. assert (Hin : In i (live os d')) by (apply Hd; split; [assumption|lra]). rewrite E in Hin. destruct Hin. }
      rewrite (total_const0 (fun _ => 0)) in H by reflexivity. lra. }
    assert (G' : good_subset os (live os d')). { split; [apply live_nodup|]. intros i Hi. apply G. apply Hd. assumption. }
    destruct (split_level b os (live os d') rem G' Hne Hrem) as (lam & Dl & Tl & El).
    destruct (live os d') as [|a0 l0] eqn:Lc; [congruence|]. rewrite <- Lc in *. rewrite El. fold (pairs os lam (live os d')).
    (* the level rises *)
    assert (Hnp : pairs os lamp (live os dropped) <> []) by (intro E; apply (f_equal (map fst)) in E; rewrite pairs_keys in E; cbn in E; apply Hne; rewrite L, E; reflexivity).
    assert (Hkey : total (serve_at b os lam) (live os d') < total (serve_at b os lamp) (live os d')).
    { rewrite Tl, <- Htot. rewrite (total_filter _ (fun i => rle (at_level lamp (getx os i)) 0) (live os dropped)), <- L.
      assert (Hneg : forall i, In i (filter (fun i => negb (rle (at_level lamp (getx os i)) 0)) (live os dropped)) -> serve_at b os lamp i < 0).
      { intros i Hi. apply filter_In in Hi. destruct Hi as [Hi E]. unfold rle in E. destruct (Rle_dec (at_level lamp (getx os i)) 0) as [|E']; [discriminate|].
        pose proof (good_sane _ _ _ G Hi) as Ho. rewrite <- (serves_zero b (getx os i)). apply serves_lt; [assumption|right; apply depth0_pos; assumption|lra]. }
      destruct (check_false _ Hnp C) as ((k & v) & Hk & Hv). unfold pairs in Hk. apply in_map_iff in Hk. destruct Hk as (k' & E & Hk). injection E as -> <-. cbn in Hv.
      assert (total (serve_at b os lamp) (filter (fun i => negb (rle (at_level lamp (getx os i)) 0)) (live os dropped)) < 0); [|lra].
      apply total_neg; [intros; left; apply Hneg; assumption|]. exists k. assert (Hkin : In k (filter (fun i => negb (rle (at_level lamp (getx os i)) 0)) (live os dropped))) by (apply filter_In; split; [assumption|rewrite rle_false by lra; reflexivity]). split; [assumption|apply Hneg; assumption]. }
    assert (Hup : lamp < lam).
    { apply Rnot_le_lt. intro Hle. assert (total (serve_at b os lamp) (live os d') <= total (serve_at b os lam) (live os d')); [|lra].
      apply total_le. intros i Hi. pose proof (good_sane _ _ _ G' Hi) as Ho. apply serves_le; [assumption|apply level_dom; assumption|apply level_le; assumption]. }
    assert (Zd : incl (zeros os) d') by (unfold d'; intros i Hi; rewrite !in_app_iff; tauto).
    assert (Hlt : (length (live os d') < length (live os dropped))%nat).
    { rewrite L. destruct (check_false _ Hnp C) as ((k & v) & Hk & Hv). unfold pairs in Hk. apply in_map_iff in Hk. destruct Hk as (k' & E & Hk). injection E as -> <-. cbn in Hv.
      assert (Hall : length (live os dropped) = length (filter (fun _ => true) (live os dropped))) by (f_equal; clear; induction (live os dropped) as [|a l IH]; [reflexivity|cbn; f_equal; assumption]).
      rewrite Hall. apply filter_lt; [reflexivity|]. exists k. split; [assumption|]. split; [apply rle_false; lra|reflexivity]. }
    destruct (IH d' lam G' Zd Hrem Dl Tl ltac:(lia)) as (lam' & s & Ei & Dl' & Hle & Ns & Is & Ts & Hneg & Hpos).
    exists lam', s. rewrite Ei. split; [reflexivity|]. split; [assumption|]. split; [lra|]. split; [assumption|]. split; [intros i Hi; apply Hd, Is; assumption|]. split; [assumption|]. split; [assumption|].
    intros i Hi Hns. destruct (Rle_dec (at_level lamp (getx os i)) 0) as [E|E].
    + apply Hpos; [apply Hd; split; assumption|assumption].
    + pose proof (good_sane _ _ _ G Hi) as Ho. pose proof (level_le lamp lam' (getx os i) Ho ltac:(lra)). lra.
Qed.
