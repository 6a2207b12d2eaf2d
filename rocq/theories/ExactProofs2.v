(** Totals, marginal prices and optimality of the exact router's splits. *)
From Coq Require Import Reals Lra Lia Bool List Arith Permutation.
From Verif Require Import CurveModel CurveProofs OrderModel ExactModel ExactSpec ExactProofs.
Import ListNotations.
Local Open Scope R_scope.

Lemma total_at_level_target os sub dx : good_subset os sub -> sub <> [] ->
  total (fun i => at_level (level_target os sub dx) (getx os i)) sub = dx.
Proof.
  intros G Hne. pose proof (weight_pos os sub G Hne) as HW. set (lam := level_target os sub dx).
  transitivity (total (fun i => lam * (root (getx os i) / xo_n (getx os i)) + (-1) * (depth (getx os i) 0 / xo_n (getx os i))) sub).
  - apply total_ext. intros i Hi. unfold at_level. destruct (good_sane _ _ _ G Hi) as (? & _). field. lra.
  - rewrite total_plus, !total_scale. fold (weight os sub) (reach os sub). unfold lam, level_target. field. lra.
Qed.
Lemma total_at_level_src os sub dx : good_subset os sub -> sub <> [] -> 0 < dx + reach_src os sub ->
  total (fun i => payment (getx os i) (- at_level (level_src os sub dx) (getx os i))) sub = dx.
Proof.
  intros G Hne Hd. pose proof (weight_pos os sub G Hne) as HW. set (lam := level_src os sub dx).
  assert (Hl : 0 < lam) by (apply Rdiv_lt_0_compat; assumption).
  transitivity (total (fun i => / lam * (root (getx os i) / xo_n (getx os i)) + (-1) * (stock (getx os i) / xo_n (getx os i))) sub).
  - apply total_ext. intros i Hi. rewrite payment_at_level by (try assumption; apply (good_sane _ _ _ G Hi)). destruct (good_sane _ _ _ G Hi) as (? & _). field. lra.
  - rewrite total_plus, !total_scale. fold (weight os sub) (reach_src os sub). unfold lam, level_src. field. lra.
Qed.
Lemma price_at_level lam o : sane o -> price_after o (at_level lam o) = lam ^ 2.
Proof.
  intros H. pose proof (root_pos o H). unfold price_after. rewrite depth_at_level by assumption. rewrite <- root_sq by assumption. field. lra.
Qed.

(** C29, C30 *)
Lemma target_split os dx sub : good_subset os sub -> sub <> [] ->
  exists v, (forall i, In i sub -> amt_by_target os i dx sub = Ret (v i)) /\ total v sub = dx /\
    forall i j, In i sub -> In j sub -> price_after (nth i os (mkX 0 0 0 0)) (v i) = price_after (nth j os (mkX 0 0 0 0)) (v j).
Proof.
  intros G Hne. exists (fun i => at_level (level_target os sub dx) (getx os i)). split; [|split].
  - intros. apply amt_by_target_value; assumption.
  - apply total_at_level_target; assumption.
  - intros i j Hi Hj. rewrite !price_at_level; [reflexivity|apply (good_sane _ _ _ G Hj)|apply (good_sane _ _ _ G Hi)].
Qed.
Lemma src_split os dx sub : good_subset os sub -> sub <> [] -> 0 <= dx ->
  exists v u, (forall i, In i sub -> amt_by_src os i dx sub = Ret (v i) /\ dxdy (nth i os (mkX 0 0 0 0)) (v i) = Ret (u i) /\ 0 < depth (nth i os (mkX 0 0 0 0)) (v i)) /\ total u sub = dx /\
    forall i j, In i sub -> In j sub -> price_after (nth i os (mkX 0 0 0 0)) (v i) = price_after (nth j os (mkX 0 0 0 0)) (v j).
Proof.
  intros G Hne Hdx. pose proof (reach_src_pos os sub G Hne) as HR. pose proof (weight_pos os sub G Hne) as HW.
  assert (Hl : 0 < level_src os sub dx) by (apply Rdiv_lt_0_compat; lra).
  exists (fun i => at_level (level_src os sub dx) (getx os i)), (fun i => payment (getx os i) (- at_level (level_src os sub dx) (getx os i))). split; [|split].
  - intros i Hi. pose proof (good_sane _ _ _ G Hi) as Ho. assert (0 < depth (getx os i) (at_level (level_src os sub dx) (getx os i))).
    { rewrite depth_at_level by assumption. apply Rmult_lt_0_compat; [assumption|apply root_pos; assumption]. }
    split; [apply amt_by_src_value; [assumption|assumption|lra]|]. split; [|assumption]. apply dxdy_value; [assumption|unfold getx in *; lra].
  - apply total_at_level_src; [assumption|assumption|lra].
  - intros i j Hi Hj. rewrite !price_at_level; [reflexivity|apply (good_sane _ _ _ G Hj)|apply (good_sane _ _ _ G Hi)].
Qed.

(** ** convexity *)
Lemma payment_tangent o t t' : sane o -> 0 < depth o (- t) -> 0 < depth o (- t') ->
  (t' - t) / price_after o (- t) <= payment o t' - payment o t.
Proof.
  intros H Ht Ht'. pose proof (depth0_pos o H) as H0. rewrite !payment_form by (try assumption; lra).
  assert (E : depth o (- t') = depth o (- t) - xo_n o * (t' - t)) by (unfold depth; ring).
  destruct H as (? & ? & ? & ?). unfold price_after. assert (Hk : 0 < xo_x0 o * xo_y0 o) by (apply Rmult_lt_0_compat; assumption).
  set (k := xo_x0 o * xo_y0 o) in *. set (D := depth o (- t)) in *. set (D' := depth o (- t')) in *. set (n := xo_n o) in *. set (D0 := depth o 0) in *. clearbody k D D' n D0.
  assert (Et : t' - t = (D - D') / n) by (rewrite E; field; lra). rewrite Et. clear E Et.
  enough (0 <= k / n * (/ D' - / D0) - k / n * (/ D - / D0) - (D - D') / n / (D ^ 2 / k)) by lra.
  replace (k / n * (/ D' - / D0) - k / n * (/ D - / D0) - (D - D') / n / (D ^ 2 / k)) with (k * (D - D') ^ 2 / (n * D' * D ^ 2)) by (field; repeat split; lra).
  apply Rmult_le_pos; [apply Rmult_le_pos; [lra|apply pow2_ge_0]|]. apply Rlt_le, Rinv_0_lt_compat. repeat apply Rmult_lt_0_compat; lra.
Qed.
Lemma price_pos o v : sane o -> 0 < depth o v -> 0 < price_after o v.
Proof. intros (? & ? & ? & ?) Hd. unfold price_after. apply Rdiv_lt_0_compat; [apply pow_lt; assumption|apply Rmult_lt_0_compat; assumption]. Qed.

(** C31: among splits of the same total, equal marginal prices cost least *)
Lemma equal_prices_optimal os sub t t' : good_subset os sub ->
  (forall i, In i sub -> 0 < depth (nth i os (mkX 0 0 0 0)) (- t i)) -> (forall i, In i sub -> 0 < depth (nth i os (mkX 0 0 0 0)) (- t' i)) ->
  (forall i j, In i sub -> In j sub -> price_after (nth i os (mkX 0 0 0 0)) (- t i) = price_after (nth j os (mkX 0 0 0 0)) (- t j)) ->
  total t sub <= total t' sub ->
  total (fun i => payment (nth i os (mkX 0 0 0 0)) (t i)) sub <= total (fun i => payment (nth i os (mkX 0 0 0 0)) (t' i)) sub.
Proof.
  intros G Ht Ht' Heq Hsum. destruct sub as [|s l] eqn:El; [unfold total; cbn; lra|]. rewrite <- El in *. assert (Hs : In s sub) by (rewrite El; left; reflexivity). clear El l.
  fold (getx os) in *. set (p := price_after (getx os s) (- t s)).
  assert (Hp : 0 < p) by (apply price_pos; [apply (good_sane _ _ _ G Hs)|apply Ht; assumption]).
  assert (total (fun i => / p * (t' i + (-1) * t i)) sub <= total (fun i => payment (getx os i) (t' i) + (-1) * payment (getx os i) (t i)) sub).
  { apply total_le. intros i Hi. pose proof (payment_tangent (getx os i) (t i) (t' i) (good_sane _ _ _ G Hi) (Ht i Hi) (Ht' i Hi)) as T.
    fold (getx os i) in *. specialize (Heq i s Hi Hs). unfold getx in *. rewrite Heq in T. fold p in T. unfold Rdiv in T. lra. }
  rewrite total_scale, !total_plus, !total_scale in H.
  assert (0 <= / p * (total t' sub + -1 * total t sub)) by (apply Rmult_le_pos; [apply Rlt_le, Rinv_0_lt_compat; assumption|lra]).
  unfold getx in *. lra.
Qed.
(** ... and the dual: for the same payment, equal marginal prices yield most *)
Lemma equal_prices_optimal_src os sub t t' : good_subset os sub -> 
  (forall i, In i sub -> 0 < depth (nth i os (mkX 0 0 0 0)) (- t i)) -> (forall i, In i sub -> 0 < depth (nth i os (mkX 0 0 0 0)) (- t' i)) ->
  (forall i j, In i sub -> In j sub -> price_after (nth i os (mkX 0 0 0 0)) (- t i) = price_after (nth j os (mkX 0 0 0 0)) (- t j)) ->
  total (fun i => payment (nth i os (mkX 0 0 0 0)) (t' i)) sub <= total (fun i => payment (nth i os (mkX 0 0 0 0)) (t i)) sub ->
  total t' sub <= total t sub.
Proof.
  intros G Ht Ht' Heq Hsum. destruct sub as [|s l] eqn:El; [unfold total; cbn; lra|]. rewrite <- El in *. assert (Hs : In s sub) by (rewrite El; left; reflexivity). clear El l.
  set (p := price_after (getx os s) (- t s)).
  assert (Hp : 0 < p) by (apply price_pos; [apply (good_sane _ _ _ G Hs)|apply Ht; assumption]).
  assert (total (fun i => / p * (t' i + (-1) * t i)) sub <= total (fun i => payment (getx os i) (t' i) + (-1) * payment (getx os i) (t i)) sub).
  { apply total_le. intros i Hi. pose proof (payment_tangent (getx os i) (t i) (t' i) (good_sane _ _ _ G Hi) (Ht i Hi) (Ht' i Hi)) as T.
    specialize (Heq i s Hi Hs). unfold getx in *. rewrite Heq in T. fold p in T. unfold Rdiv in T. lra. }
  rewrite total_scale, !total_plus, !total_scale in H. unfold getx in H.
  assert (H1 : / p * (total t' sub + -1 * total t sub) <= 0) by lra.
  apply Rnot_lt_le. intro Hlt. assert (0 < / p * (total t' sub + -1 * total t sub)) by (apply Rmult_lt_0_compat; [apply Rinv_0_lt_compat; assumption|lra]). lra.
Qed.

(** the payment is the area under the reciprocal price *)
Lemma payment_derivative o t : sane o -> 0 < depth o (- t) -> derivable_pt_lim (payment o) t (/ price_after o (- t)).
Proof.
  intros H Ht. pose proof (depth0_pos o H) as H0. destruct H as (Hn & Hx & Hy & _).
  assert (E : forall u, payment o u = (xo_x0 o * xo_y0 o / depth o 0 * id u) * / (depth o 0 - xo_n o * id u)).
  { intro u. unfold payment, Rdiv, id. rewrite (depth_shift o (- u)). replace (depth o 0 + xo_n o * - u) with (depth o 0 - xo_n o * u) by ring. rewrite Rinv_mult. ring. }
  rewrite (depth_shift o (- t)) in Ht.
  assert (Hd : derivable_pt_lim (fun u => depth o 0 - xo_n o * id u) t (0 - xo_n o * 1)).
  { apply derivable_pt_lim_minus; [apply derivable_pt_lim_const|]. apply derivable_pt_lim_scal, derivable_pt_lim_id. }
  assert (Hnum : derivable_pt_lim (fun u => xo_x0 o * xo_y0 o / depth o 0 * id u) t (xo_x0 o * xo_y0 o / depth o 0 * 1)) by (apply derivable_pt_lim_scal, derivable_pt_lim_id).
  assert (Hq := derivable_pt_lim_div _ _ t _ _ Hnum Hd ltac:(unfold id; lra)).
  intros eps He. destruct (Hq eps He) as [delta Hdl]. exists delta. intros h Hh Hlt. specialize (Hdl h Hh Hlt).
  rewrite !E. unfold price_after, div_fct, Rdiv in *. rewrite (depth_shift o (- t)).
  replace (/ ((depth o 0 + xo_n o * - t) ^ 2 * / (xo_x0 o * xo_y0 o))) with
   ((xo_x0 o * xo_y0 o * / depth o 0 * 1 * (depth o 0 - xo_n o * id t) - (0 - xo_n o * 1) * (xo_x0 o * xo_y0 o * / depth o 0 * id t)) * / (depth o 0 - xo_n o * id t)²); [assumption|].
  unfold id, Rsqr. set (D := depth o 0) in *. clearbody D. field. repeat split; lra.
Qed.
Lemma payment_zero o : payment o 0 = 0. Proof. unfold payment, Rdiv. rewrite Rmult_0_r. ring. Qed.
