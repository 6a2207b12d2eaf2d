(** The exact router returns the best feasible routing. *)
From Coq Require Import Reals Lra Lia Bool List Arith Permutation.
From Verif Require Import CurveModel CurveProofs OrderModel ExactModel ExactSpec ExactProofs ExactProofs2 ExactProofs3 ExactProofs4 ExactProofs5.
Import ListNotations.
Local Open Scope R_scope.

Definition clamp (lam : R) (o : xorder) : R := Rmax (- xo_y o) (Rmin (at_level lam o) 0).
Definition eligible os level := rest os level [].
Lemma in_eligible os level i : In i (eligible os level) <-> usable os level i.
Proof. unfold eligible. rewrite in_rest. cbn. tauto. Qed.
Lemma eligible_nodup os level : NoDup (eligible os level). Proof. apply live_nodup. Qed.

Lemma routing b os level A fuel infuel : all_sane os level -> (length os < fuel)%nat -> (length os + 1 < infuel)%nat -> 0 < A ->
  exists F p L v, outer fuel infuel os (split_of b os) b level (amount b A) [] = Some (Ret (F, p)) /\ F ++ p = map (fun i => (i, v i)) L /\
    NoDup L /\ (forall i, In i L -> usable os level i) /\ (forall i, ~ In i L -> v i = 0) /\ (forall i, usable os level i -> - xo_y (getx os i) <= v i <= 0) /\
    ((forall i, usable os level i -> v i = - xo_y (getx os i)) /\ total (fun i => serves b (getx os i) (v i)) (eligible os level) < A \/
     total (fun i => serves b (getx os i) (v i)) (eligible os level) = A /\ exists lam, 0 < lam /\ forall i, usable os level i -> v i = clamp lam (getx os i)).
Proof.
  intros Hs Hf Hi HA.
  destruct (outer_level b os level A infuel fuel Hs Hi [] ltac:(constructor) ltac:(intros i []) ltac:(unfold total; cbn; lra) (or_introl eq_refl) ltac:(cbn; lia)) as (F & lam & s & Eo & NF & UF & Hrem & Ns & Is & Hcase).
  cbn [drain map] in Eo.
  set (v := fun i => if mem i F then - xo_y (getx os i) else if mem i s then at_level lam (getx os i) else 0).
  assert (vF : forall i, In i F -> v i = - xo_y (getx os i)) by (intros i H; unfold v; rewrite (proj2 (mem_in i F) H); reflexivity).
  assert (vs : forall i, In i s -> v i = at_level lam (getx os i)).
  { intros i H. unfold v. rewrite (proj2 (mem_not i F)) by (apply (in_rest os level), Is; assumption). rewrite (proj2 (mem_in i s) H). reflexivity. }
  assert (v0 : forall i, ~ In i F -> ~ In i s -> v i = 0).
  { intros i H1 H2. unfold v. rewrite (proj2 (mem_not i F) H1), (proj2 (mem_not i s) H2). reflexivity. }
  assert (NL : NoDup (F ++ s)) by (apply nodup_app; [assumption|assumption|intros i H; apply (in_rest os level), Is; assumption]).
  assert (UL : forall i, In i (F ++ s) -> usable os level i) by (intros i H; apply in_app_or in H; destruct H as [H|H]; [apply UF; assumption|apply (in_rest os level F), Is; assumption]).
  assert (Htot : total (fun i => serves b (getx os i) (v i)) (eligible os level) = total (full b os) F + total (serve_at b os lam) s).
  { rewrite (total_subset _ (F ++ s) (eligible os level) NL (eligible_nodup _ _)).
    - rewrite total_app. f_equal; apply total_ext; intros i H; [rewrite vF by assumption|rewrite vs by assumption]; reflexivity.
    - intros i H. apply in_eligible, UL. assumption.
    - intros i _ H. rewrite in_app_iff in H. rewrite v0 by tauto. apply serves_zero. }
  exists (drain os F), (pairs os lam s), (F ++ s), v. split; [assumption|]. split.
  { rewrite map_app. f_equal; [unfold drain|unfold pairs]; apply map_ext_in; intros i H; [rewrite vF by assumption|rewrite vs by assumption]; reflexivity. }
  split; [assumption|]. split; [assumption|]. split; [intros i H; rewrite in_app_iff in H; apply v0; tauto|].
  assert (Hy : forall i, usable os level i -> 0 <= xo_y (getx os i)) by (intros i H; apply Hs in H; apply H).
  destruct Hcase as [L|(Dl & Ts & Hb & Hp & HF)].
  - assert (Hall : forall i, usable os level i -> In i F).
    { intros i H. destruct (in_dec Nat.eq_dec i F); [assumption|]. assert (Hc : In i (rest os level F)) by (apply in_rest; tauto). rewrite L in Hc. destruct Hc. }
    assert (s = []) by (destruct s as [|a s']; [reflexivity|]; specialize (Is a (or_introl eq_refl)); rewrite L in Is; destruct Is). subst s.
    split; [intros i H; rewrite vF by (apply Hall; assumption); specialize (Hy i H); lra|]. left. split; [intros i H; apply vF, Hall; assumption|]. rewrite Htot. unfold total at 2. cbn. lra.
  - split.
    { intros i H. specialize (Hy i H). destruct (in_dec Nat.eq_dec i F); [rewrite vF by assumption; lra|]. destruct (in_dec Nat.eq_dec i s); [rewrite vs by assumption; apply Hb; assumption|]. rewrite v0 by assumption. lra. }
    right. split; [rewrite Htot, Ts; lra|]. exists lam. split.
    + destruct s as [|a s']; [unfold total in Ts at 1; cbn in Ts; lra|]. specialize (Hb a (or_introl eq_refl)).
      assert (Ho : sane (getx os a)) by (apply Hs, UL, in_or_app; right; left; reflexivity).
      pose proof (empty_depth _ Ho) as He. pose proof (root_pos _ Ho) as Hr.
      assert (Hd : 0 < lam * root (getx os a)).
      { rewrite <- depth_at_level by assumption. rewrite (depth_shift _ (at_level lam (getx os a))). rewrite (depth_shift _ (- _)) in He. destruct Ho as (? & _).
        assert (xo_n (getx os a) * - xo_y (getx os a) <= xo_n (getx os a) * at_level lam (getx os a)) by (apply Rmult_le_compat_l; lra). lra. }
      apply Rnot_le_lt. intro Hc. assert (lam * root (getx os a) <= 0) by (rewrite <- (Rmult_0_l (root (getx os a))); apply Rmult_le_compat_r; lra). lra.
    + intros i H. specialize (Hy i H). unfold clamp. destruct (in_dec Nat.eq_dec i F) as [iF|nF].
      { rewrite vF by assumption. specialize (HF i iF). rewrite Rmin_left, Rmax_left by lra. reflexivity. }
      destruct (in_dec Nat.eq_dec i s) as [is|ns].
      { rewrite vs by assumption. specialize (Hb i is). rewrite Rmin_left, Rmax_right by lra. reflexivity. }
      rewrite v0 by assumption. assert (0 < at_level lam (getx os i)) by (apply Hp; [apply in_rest; tauto|assumption]). rewrite Rmin_right, Rmax_right by lra. reflexivity.
Qed.

(** the first order condition *)
Lemma clamp_optimal lam o t : sane o -> 0 < lam -> 0 <= t <= xo_y o -> (t - - clamp lam o) / lam ^ 2 <= payment o t - payment o (- clamp lam o).
Proof.
  intros H Hl Ht. pose proof (depth0_pos o H) as H0. pose proof (empty_depth o H) as He. pose proof (root_pos o H) as Hr. pose proof (root_sq o H) as Hk.
  assert (Hn : 0 < xo_n o) by (destruct H; lra).
  assert (Hdt : forall t, t <= xo_y o -> 0 < depth o (- t)).
  { intros u Hu. rewrite (depth_shift o (- u)). rewrite (depth_shift o (- _)) in He. assert (xo_n o * - xo_y o <= xo_n o * - u) by (apply Rmult_le_compat_l; lra). lra. }
  set (u := - clamp lam o). assert (Hu : 0 <= u <= xo_y o).
  { unfold u, clamp. destruct H as (_ & _ & _ & Hy). unfold Rmax, Rmin. repeat destruct (Rle_dec _ _); lra. }
  pose proof (payment_tangent o u t H (Hdt u (proj2 Hu)) (Hdt t (proj2 Ht))) as T.
  eapply Rle_trans; [|exact T].
  assert (Hdu := Hdt u (proj2 Hu)). pose proof (price_pos o (- u) H Hdu) as Hp.
  (* compare the price at u with the level *)
  assert (Hcmp : (t - u = 0) \/ (0 <= t - u /\ price_after o (- u) <= lam ^ 2) \/ (t - u <= 0 /\ lam ^ 2 <= price_after o (- u))).
  { assert (Hprice : forall c, depth o (- u) = c -> price_after o (- u) = (c / root o) ^ 2).
    { intros c <-. unfold price_after. rewrite <- Hk. field. lra. }
    assert (Hsq : forall c, 0 <= c -> c <= lam * root o -> (c / root o) ^ 2 <= lam ^ 2).
    { intros c Hc Hle. apply pow_incr. split; [apply Rmult_le_pos; [assumption|apply Rlt_le, Rinv_0_lt_compat; assumption]|]. apply (Rmult_le_reg_r (root o)); [assumption|]. unfold Rdiv. rewrite Rmult_assoc, Rinv_l by lra. lra. }
    assert (Hsq' : forall c, lam * root o <= c -> lam ^ 2 <= (c / root o) ^ 2).
    { intros c Hle. apply pow_incr. split; [lra|]. apply (Rmult_le_reg_r (root o)); [assumption|]. unfold Rdiv. rewrite Rmult_assoc, Rinv_l by lra. lra. }
    assert (Hlev : forall w, depth o w = lam * root o + xo_n o * (w - at_level lam o)).
    { intros w. rewrite <- (depth_at_level lam o H). unfold depth. ring. }
    destruct (Rle_dec 0 (at_level lam o)) as [E|E].
    - assert (Eu : u = 0). { unfold u, clamp. destruct H as (_ & _ & _ & Hy). rewrite Rmin_right, Rmax_right by lra. lra. }
      right. left. split; [lra|]. rewrite (Hprice _ eq_refl). apply Hsq; [lra|]. rewrite Hlev. assert (0 <= xo_n o * (at_level lam o)) by (apply Rmult_le_pos; lra). rewrite Eu. lra.
    - destruct (Rle_dec (- xo_y o) (at_level lam o)) as [E2|E2].
      + assert (Eu : - u = at_level lam o). { unfold u, clamp. rewrite Rmin_left, Rmax_right by lra. lra. }
        assert (Ep : price_after o (- u) = lam ^ 2) by (rewrite Eu; apply price_at_level; assumption). rewrite Ep. destruct (Rle_dec 0 (t - u)); [right; left; split; lra|right; right; split; lra].
      + assert (Eu : u = xo_y o). { unfold u, clamp. rewrite Rmin_left, Rmax_left by lra. lra. }
        right. right. split; [lra|]. rewrite (Hprice _ eq_refl). apply Hsq'. rewrite Hlev. assert (0 <= xo_n o * (- u - at_level lam o)) by (apply Rmult_le_pos; lra). lra. }
  assert (Hl2 : 0 < lam ^ 2) by (apply pow_lt; assumption).
  unfold Rdiv. destruct Hcmp as [E|[[E1 E2]|[E1 E2]]].
  - rewrite E. lra.
  - apply Rmult_le_compat_l; [assumption|]. apply Rinv_le_contravar; assumption.
  - assert (/ price_after o (- u) <= / lam ^ 2) by (apply Rinv_le_contravar; assumption). apply Rmult_le_compat_neg_l; assumption.
Qed.

(** any feasible alternative, extended by zero *)
Lemma alternative os level l (t : nat -> R) (g : nat -> R -> R) : NoDup l -> (forall i, In i l -> usable os level i) -> (forall i, g i 0 = 0) ->
  total (fun i => g i (if mem i l then t i else 0)) (eligible os level) = total (fun i => g i (t i)) l.
Proof.
  intros N U G. rewrite (total_subset _ l (eligible os level) N (eligible_nodup _ _)).
  - apply total_ext. intros i Hi. rewrite (proj2 (mem_in i l) Hi). reflexivity.
  - intros i Hi. apply in_eligible, U. assumption.
  - intros i _ Hi. rewrite (proj2 (mem_not i l) Hi). apply G.
Qed.
Lemma kkt os level lam v l t : all_sane os level -> 0 < lam -> (forall i, usable os level i -> v i = clamp lam (getx os i)) ->
  NoDup l -> (forall i, In i l -> usable os level i /\ 0 <= t i <= xo_y (getx os i)) ->
  (total t l - total (fun i => - v i) (eligible os level)) / lam ^ 2 <= total (fun i => payment (getx os i) (t i)) l - total (fun i => payment (getx os i) (- v i)) (eligible os level).
Proof.
  intros Hs Hl Hv N U. assert (Hl2 : 0 < lam ^ 2) by (apply pow_lt; assumption).
  rewrite <- (alternative os level l t (fun i => payment (getx os i))) by first [assumption | intros; apply U; assumption | intros; apply payment_zero].
  assert (E2 : total (fun i => if mem i l then t i else 0) (eligible os level) = total t l).
  { apply (alternative os level l t (fun _ u => u)); [assumption|intros; apply U; assumption|reflexivity]. }
  rewrite <- E2.
  set (t0 := fun i => if mem i l then t i else 0).
  assert (H : total (fun i => / lam ^ 2 * (t0 i + (-1) * - v i)) (eligible os level) <= total (fun i => payment (getx os i) (t0 i) + (-1) * payment (getx os i) (- v i)) (eligible os level)).
  { apply total_le. intros i Hi. apply in_eligible in Hi. rewrite (Hv i Hi). assert (Ht0 : 0 <= t0 i <= xo_y (getx os i)).
    { unfold t0. destruct (mem i l) eqn:M; [apply U, mem_in; assumption|]. destruct (Hs i Hi) as (_ & _ & _ & ?). lra. }
    pose proof (clamp_optimal lam (getx os i) (t0 i) (Hs i Hi) Hl Ht0) as T. unfold Rdiv in T. lra. }
  rewrite total_scale, !total_plus, !total_scale in H. unfold Rdiv. fold t0. unfold t0 in *. cbv beta in *. lra.
Qed.

(** ** the returned actions *)
Definition row os kv := (fst kv, payment (getx os (fst kv)) (- snd kv), snd kv) : nat * R * R.
Lemma rsum_nonzero (g : nat -> R -> R) s : (forall i, g i 0 = 0) -> rsum (map (fun kv => g (fst kv) (snd kv)) (nonzero s)) = rsum (map (fun kv => g (fst kv) (snd kv)) s).
Proof.
  intros G. induction s as [|[i v] s IH]; [reflexivity|]. unfold nonzero. cbn [filter snd]. fold (nonzero s). unfold req. destruct (Req_EM_T v 0) as [->|E]; cbn [negb map rsum fold_right fst snd].
  - rewrite G, Rplus_0_l. exact IH.
  - f_equal. exact IH.
Qed.
Lemma finish_value b os level A sp L v S : all_sane os level -> (forall i, In i L -> usable os level i /\ - xo_y (getx os i) <= v i) ->
  S = total (fun i => serves b (getx os i) (v i)) L -> S <> 0 -> A / S - 1 < 5 / 100 /\ - (5 / 100) < A / S - 1 \/ sp = true -> (b = true \/ sp = true \/ A <= S) ->
  finish os (amount b A) b sp (nonzero (map (fun i => (i, v i)) L)) = Ret (actions 0 0 (map (row os) (nonzero (map (fun i => (i, v i)) L)))).
Proof.
  intros Hs HL ES S0 Herr Hassert. unfold finish. rewrite (rmap_ok _ (row os)).
  2:{ intros [i w] Hi. apply nonzero_in in Hi. destruct Hi as [Hi _]. apply in_map_iff in Hi. destruct Hi as (j & E & Hj). injection E as <- <-. cbn [fst snd]. destruct (HL j Hj) as [U B]. pose proof (Hs j U) as Ho.
      rewrite dxdy_value; [reflexivity|assumption|]. pose proof (empty_depth _ Ho) as He. rewrite (depth_shift _ (v j)). rewrite (depth_shift _ (- _)) in He. destruct Ho as (? & _). assert (xo_n (getx os j) * - xo_y (getx os j) <= xo_n (getx os j) * v j) by (apply Rmult_le_compat_l; lra). lra. }
  cbn [rbind]. set (outs := nonzero (map (fun i => (i, v i)) L)).
  assert (Eact : (if b then rsum (map snd outs) else rsum (map (fun r => snd (fst r)) (map (row os) outs))) = amount b S).
  { rewrite ES. unfold outs, amount, serves. destruct b.
    - rewrite (rsum_nonzero (fun _ w => w)) by reflexivity. rewrite map_map. cbn [snd]. change (rsum (map (fun i => v i) L)) with (total v L). rewrite (total_ext (fun i => - v i) (fun i => (-1) * v i)) by (intros; ring). rewrite total_scale. ring.
    - rewrite map_map. cbn [row fst snd]. rewrite (rsum_nonzero (fun i w => payment (getx os i) (- w))) by (intros; rewrite Ropp_0; apply payment_zero). rewrite map_map. reflexivity. }
  rewrite Eact. assert (Ea0 : amount b S <> 0) by (unfold amount; destruct b; lra). rewrite rdiv_ok by assumption. cbn [rbind]. cbv zeta.
  assert (Er : amount b A / amount b S = A / S) by (unfold amount; destruct b; [field; assumption|reflexivity]). rewrite Er.
  replace (negb b && negb sp && rlt (amount b S - amount b A) 0) with false.
  2:{ destruct b; [reflexivity|]. destruct sp; [reflexivity|]. cbn. symmetry. apply rlt_false. destruct Hassert as [?|[?|?]]; try discriminate. unfold amount. lra. }
  replace (negb sp && rlt (/ 10000) (Rabs (A / S - 1)) && rle (5 / 100) (Rabs (A / S - 1))) with false; [reflexivity|].
  destruct sp; [reflexivity|]. destruct Herr as [Herr|?]; [|discriminate]. symmetry. apply andb_false_intro2. apply rle_false. apply Rabs_def1; lra.
Qed.
Lemma action_sums os L v acts : NoDup L -> acts = actions 0 0 (map (row os) (nonzero (map (fun i => (i, v i)) L))) ->
  rsum (map ac_output acts) = total v L /\ rsum (map ac_input acts) = total (fun i => payment (getx os i) (- v i)) L.
Proof.
  intros N ->. destruct (actions_fields 0 0 (map (row os) (nonzero (map (fun i => (i, v i)) L)))) as (_ & -> & ->). rewrite !map_map. cbn [row fst snd]. split.
  - rewrite (rsum_nonzero (fun _ w => w)) by reflexivity. rewrite map_map. reflexivity.
  - rewrite (rsum_nonzero (fun i w => payment (getx os i) (- w))) by (intros; rewrite Ropp_0; apply payment_zero). rewrite map_map. reflexivity.
Qed.

Lemma request_target os level A check sp : 0 < A -> all_sane os level -> A <= total (fun i => xo_y (getx os i)) (eligible os level) -> (forall i, In i level -> (i < length os)%nat) ->
  request os (- A) true check level sp = Ret (- A).
Proof.
  intros HA Hs Hle Hin. unfold request. destruct check; [|reflexivity]. cbn [andb]. unfold sufficient_liquidity.
  set (lv := match level with [] => indexes os | _ => level end). change (rsum (map (fun i => xo_y (getx os i)) lv)) with (total (fun i => xo_y (getx os i)) lv).
  assert (Hlv : forall i, In i lv -> (i < length os)%nat /\ (level = [] \/ In i level)).
  { intros i Hi. unfold lv in Hi. destruct level as [|a l]; [unfold indexes in Hi; apply in_seq in Hi; split; [lia|left; reflexivity]|]. split; [apply Hin; assumption|right; assumption]. }
  assert (total (fun i => xo_y (getx os i)) (eligible os level) <= total (fun i => xo_y (getx os i)) lv).
  { apply total_incl_le; [apply eligible_nodup| |].
    - intros i Hi. apply in_eligible in Hi. destruct Hi as (H1 & H2 & _). unfold lv. destruct level as [|a l]; [unfold indexes; apply in_seq; lia|]. destruct H2; [discriminate|assumption].
    - intros i Hi. destruct (Hlv i Hi) as [H1 H2]. destruct (Req_EM_T (xo_y (getx os i)) 0) as [->|E]; [lra|]. apply (Hs i). repeat split; assumption. }
  rewrite rle_true; [reflexivity|]. rewrite Rabs_Ropp, Rabs_right by lra. lra.
Qed.

Lemma feasible_total os level l t (g : nat -> R -> R) : all_sane os level -> NoDup l -> (forall i, In i l -> usable os level i /\ 0 <= t i <= xo_y (getx os i)) ->
  (forall i, usable os level i -> g i 0 = 0) -> (forall i u w, usable os level i -> 0 <= u <= w -> w <= xo_y (getx os i) -> g i u <= g i w) ->
  total (fun i => g i (t i)) l <= total (fun i => g i (xo_y (getx os i))) (eligible os level).
Proof.
  intros Hs N U G0 G. apply Rle_trans with (total (fun i => g i (xo_y (getx os i))) l).
  - apply total_le. intros i Hi. destruct (U i Hi). apply G; [assumption|assumption|lra].
  - apply total_incl_le; [assumption|intros i Hi; apply in_eligible, U; assumption|]. intros i Hi. apply in_eligible in Hi. rewrite <- (G0 i Hi). destruct (Hs i Hi) as (_ & _ & _ & Hy). apply G; [assumption|lra|lra].
Qed.
Lemma payment_mono o u w : sane o -> 0 <= u <= w -> w <= xo_y o -> payment o u <= payment o w.
Proof.
  intros H Huw Hw. pose proof (serves_le false o (- w) (- u) H) as S. unfold serves in S. rewrite !Ropp_involutive in S. apply S; [right|lra].
  pose proof (empty_depth o H) as He. rewrite (depth_shift _ (- w)). rewrite (depth_shift _ (- _)) in He. destruct H as (? & _). assert (xo_n o * - xo_y o <= xo_n o * - w) by (apply Rmult_le_compat_l; lra). lra.
Qed.
Lemma payment_lt o u w : sane o -> u < w -> w <= xo_y o -> payment o u < payment o w.
Proof.
  intros H Huw Hw. pose proof (serves_lt false o (- w) (- u) H) as S. unfold serves in S. rewrite !Ropp_involutive in S. apply S; [right|lra].
  pose proof (empty_depth o H) as He. rewrite (depth_shift _ (- w)). rewrite (depth_shift _ (- _)) in He. destruct H as (? & _). assert (xo_n o * - xo_y o <= xo_n o * - w) by (apply Rmult_le_compat_l; lra). lra.
Qed.

Lemma eligible_full b os level v : (forall i, usable os level i -> v i = - xo_y (getx os i)) -> total (fun i => serves b (getx os i) (v i)) (eligible os level) = total (full b os) (eligible os level).
Proof. intros H. apply total_ext. intros i Hi. unfold full. rewrite H by (apply in_eligible; assumption). reflexivity. Qed.
Lemma total_L os level L v (g : nat -> R -> R) : NoDup L -> (forall i, In i L -> usable os level i) -> (forall i, ~ In i L -> v i = 0) -> (forall i, g i 0 = 0) ->
  total (fun i => g i (v i)) L = total (fun i => g i (v i)) (eligible os level).
Proof.
  intros N U V G. symmetry. apply total_subset; [assumption|apply eligible_nodup|intros i Hi; apply in_eligible, U; assumption|]. intros i _ Hi. rewrite V by assumption. apply G.
Qed.

(** whenever some feasible routing serves the request, the router returns a best one *)
Lemma match_optimal_target fuel infuel os level A check sp :
  (forall i, usable os level i -> sane (nth i os (mkX 0 0 0 0))) -> (forall i, In i level -> (i < length os)%nat) -> (length os < fuel)%nat -> (length os + 1 < infuel)%nat -> 0 < A ->
  (exists l t, NoDup l /\ (forall i, In i l -> usable os level i /\ 0 <= t i <= xo_y (nth i os (mkX 0 0 0 0))) /\ A <= total t l) ->
  exists acts, exact_match fuel infuel os (- A) true check level sp = Some (Ret acts) /\ rsum (map ac_output acts) = - A /\
    (forall a, In a acts -> - xo_y (nth (ac_index a) os (mkX 0 0 0 0)) <= ac_output a < 0) /\
    forall l t, NoDup l -> (forall i, In i l -> usable os level i /\ 0 <= t i <= xo_y (nth i os (mkX 0 0 0 0))) -> A <= total t l ->
      rsum (map ac_input acts) <= total (fun i => payment (nth i os (mkX 0 0 0 0)) (t i)) l.
Proof.
  intros Hs Hin Hf Hi HA (l0 & t0 & N0 & U0 & T0). fold (all_sane os level) in Hs.
  assert (Hliq : A <= total (fun i => xo_y (getx os i)) (eligible os level)).
  { eapply Rle_trans; [exact T0|]. apply (feasible_total os level l0 t0 (fun _ u => u)); try assumption; intros; lra. }
  unfold exact_match. rewrite match_unfold, request_target by assumption. change (amt_by_target os) with (split_of true os).
  destruct (routing true os level A fuel infuel Hs Hf Hi HA) as (F & p & L & v & Eo & Em & NL & UL & V0 & VB & Hcase). change (amount true A) with (- A) in Eo. rewrite Eo.
  assert (Hb : bounded os level F p) by (eapply outer_bounded; [apply drained_nil|exact Eo]). destruct (merged_eq _ _ _ _ Hb) as [-> _]. rewrite Em.
  destruct Hcase as [[Hd Hlt]|[Htot (lam & Hl & Hv)]].
  { exfalso. rewrite (total_ext _ (fun i => xo_y (getx os i))) in Hlt; [lra|]. intros i Hi'. unfold serves. rewrite Hd by (apply in_eligible; assumption). ring. }
  assert (HTL : total (fun i => serves true (getx os i) (v i)) L = A) by (rewrite <- Htot; apply (total_L os level L v (fun i => serves true (getx os i))); try assumption; intros; apply serves_zero).
  change (- A) with (amount true A) at 1. rewrite (finish_value true os level A sp L v A Hs); try assumption; try lra.
  2:{ intros i Hi'. split; [apply UL; assumption|apply VB, UL; assumption]. }
  2:{ left. replace (A / A) with 1 by (field; lra). lra. }
  eexists. split; [reflexivity|]. destruct (action_sums os L v _ NL eq_refl) as [Eout Ein]. rewrite Eout, Ein.
  assert (Ev : total v L = - A). { rewrite <- HTL. unfold serves. rewrite (total_ext (fun i => - v i) (fun i => (-1) * v i)) by (intros; ring). rewrite total_scale. ring. }
  split; [assumption|]. split.
  - intros a Ha. assert (Hp : In (ac_index a, ac_output a) (nonzero (map (fun i => (i, v i)) L))).
    { assert (E : map (fun a => (ac_index a, ac_output a)) (actions 0 0 (map (row os) (nonzero (map (fun i => (i, v i)) L)))) = nonzero (map (fun i => (i, v i)) L)).
      { generalize (nonzero (map (fun i => (i, v i)) L)). intros o. generalize 0 at 1. generalize 0. induction o as [|[i w] o IH]; intros r1 r2; [reflexivity|]. cbn. f_equal. apply IH. }
      rewrite <- E. apply in_map_pair. assumption. }
    apply nonzero_in in Hp. destruct Hp as [Hp Hnz]. apply in_map_iff in Hp. destruct Hp as (j & E & Hj). injection E as E1 E2. rewrite <- E1, <- E2 in *. specialize (VB j (UL j Hj)). unfold getx in VB. lra.
  - intros l t N U T. pose proof (kkt os level lam v l t Hs Hl Hv N U) as K.
    rewrite (total_L os level L v (fun i w => payment (getx os i) (- w))) by (try assumption; intros; rewrite Ropp_0; apply payment_zero).
    assert (Hl2 : 0 < lam ^ 2) by (apply pow_lt; assumption). change (total (fun i => - v i) (eligible os level)) with (total (fun i => serves true (getx os i) (v i)) (eligible os level)) in K. rewrite Htot in K.
    assert (0 <= (total t l - A) / lam ^ 2) by (apply Rmult_le_pos; [lra|apply Rlt_le, Rinv_0_lt_compat; assumption]). unfold getx in *. lra.
Qed.
Lemma match_optimal_src fuel infuel os level A check sp :
  (forall i, usable os level i -> sane (nth i os (mkX 0 0 0 0))) -> (length os < fuel)%nat -> (length os + 1 < infuel)%nat -> 0 < A ->
  (exists l t, NoDup l /\ (forall i, In i l -> usable os level i /\ 0 <= t i <= xo_y (nth i os (mkX 0 0 0 0))) /\ A <= total (fun i => payment (nth i os (mkX 0 0 0 0)) (t i)) l) ->
  exists acts, exact_match fuel infuel os A false check level sp = Some (Ret acts) /\ rsum (map ac_input acts) = A /\
    (forall a, In a acts -> - xo_y (nth (ac_index a) os (mkX 0 0 0 0)) <= ac_output a < 0) /\
    forall l t, NoDup l -> (forall i, In i l -> usable os level i /\ 0 <= t i <= xo_y (nth i os (mkX 0 0 0 0))) -> total (fun i => payment (nth i os (mkX 0 0 0 0)) (t i)) l <= A ->
      total t l <= - rsum (map ac_output acts).
Proof.
  intros Hs Hf Hi HA (l0 & t0 & N0 & U0 & T0). fold (all_sane os level) in Hs.
  assert (Hliq : A <= total (fun i => payment (getx os i) (xo_y (getx os i))) (eligible os level)).
  { eapply Rle_trans; [exact T0|]. apply (feasible_total os level l0 t0 (fun i => payment (getx os i))); try assumption; intros; [apply payment_zero|]. apply payment_mono; [apply Hs; assumption|assumption|assumption]. }
  unfold exact_match. rewrite match_unfold. unfold request. cbn [andb]. change (amt_by_src os) with (split_of false os).
  destruct (routing false os level A fuel infuel Hs Hf Hi HA) as (F & p & L & v & Eo & Em & NL & UL & V0 & VB & Hcase). change (amount false A) with A in Eo. rewrite Eo.
  assert (Hb : bounded os level F p) by (eapply outer_bounded; [apply drained_nil|exact Eo]). destruct (merged_eq _ _ _ _ Hb) as [-> _]. rewrite Em.
  destruct Hcase as [[Hd Hlt]|[Htot (lam & Hl & Hv)]].
  { exfalso. rewrite (total_ext _ (fun i => payment (getx os i) (xo_y (getx os i)))) in Hlt; [lra|]. intros i Hi'. unfold serves. rewrite Hd by (apply in_eligible; assumption). rewrite Ropp_involutive. reflexivity. }
  assert (HTL : total (fun i => serves false (getx os i) (v i)) L = A) by (rewrite <- Htot; apply (total_L os level L v (fun i => serves false (getx os i))); try assumption; intros; apply serves_zero).
  change A with (amount false A) at 1. rewrite (finish_value false os level A sp L v A Hs); try assumption; try lra.
  2:{ intros i Hi'. split; [apply UL; assumption|apply VB, UL; assumption]. }
  2:{ left. replace (A / A) with 1 by (field; lra). lra. }
  eexists. split; [reflexivity|]. destruct (action_sums os L v _ NL eq_refl) as [Eout Ein]. rewrite Eout, Ein.
  split; [exact HTL|]. split.
  - intros a Ha. assert (Hp : In (ac_index a, ac_output a) (nonzero (map (fun i => (i, v i)) L))).
    { assert (E : map (fun a => (ac_index a, ac_output a)) (actions 0 0 (map (row os) (nonzero (map (fun i => (i, v i)) L)))) = nonzero (map (fun i => (i, v i)) L)).
      { generalize (nonzero (map (fun i => (i, v i)) L)). intros o. generalize 0 at 1. generalize 0. induction o as [|[i w] o IH]; intros r1 r2; [reflexivity|]. cbn. f_equal. apply IH. }
      rewrite <- E. apply in_map_pair. assumption. }
    apply nonzero_in in Hp. destruct Hp as [Hp Hnz]. apply in_map_iff in Hp. destruct Hp as (j & E & Hj). injection E as E1 E2. rewrite <- E1, <- E2 in *. specialize (VB j (UL j Hj)). unfold getx in VB. lra.
  - intros l t N U T. pose proof (kkt os level lam v l t Hs Hl Hv N U) as K.
    assert (Hl2 : 0 < lam ^ 2) by (apply pow_lt; assumption). change (total (fun i => payment (getx os i) (- v i)) (eligible os level)) with (total (fun i => serves false (getx os i) (v i)) (eligible os level)) in K. rewrite Htot in K.
    assert (EL : total v L = total v (eligible os level)) by (apply (total_L os level L v (fun _ w => w)); try assumption; reflexivity). rewrite EL.
    rewrite (total_ext (fun i => - v i) (fun i => (-1) * v i)) in K by (intros; ring). rewrite total_scale in K.
    assert (K2 : (total t l - -1 * total v (eligible os level)) / lam ^ 2 <= 0) by (unfold getx in *; lra).
    apply Rnot_lt_le. intro Hc. assert (0 < (total t l - -1 * total v (eligible os level)) / lam ^ 2) by (apply Rdiv_lt_0_compat; [lra|assumption]). lra.
Qed.
