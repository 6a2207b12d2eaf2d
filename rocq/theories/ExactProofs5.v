(** The matching loop of the exact router with its own split formulas: the result is the best
    feasible routing (continued). *)
From Coq Require Import Reals Lra Lia Bool List Arith Permutation.
From Verif Require Import CurveModel CurveProofs OrderModel ExactModel ExactSpec ExactProofs ExactProofs2 ExactProofs3 ExactProofs4.
Import ListNotations.
Local Open Scope R_scope.

Lemma filter_mem_perm s r : NoDup s -> NoDup r -> incl s r -> Permutation (filter (fun i => mem i s) r) s.
Proof.
  intros Ns Nr I. apply NoDup_Permutation; [apply NoDup_filter; assumption|assumption|]. intros i. rewrite filter_In, mem_in. intuition.
Qed.
Lemma total_subset f s r : NoDup s -> NoDup r -> incl s r -> (forall i, In i r -> ~ In i s -> f i = 0) -> total f r = total f s.
Proof.
  intros Ns Nr I H. rewrite (total_filter f (fun i => mem i s) r). rewrite (total_perm f _ _ (filter_mem_perm s r Ns Nr I)).
  rewrite (total_const0 f (filter _ r)); [lra|]. intros i Hi. apply filter_In in Hi. destruct Hi as [Hi E]. apply negb_true_iff, mem_not in E. apply H; assumption.
Qed.
Lemma total_incl_le f s r : NoDup s -> incl s r -> (forall i, In i r -> 0 <= f i) -> total f s <= total f r.
Proof.
  intros Ns. revert r. induction s as [|a s IH]; intros r I H.
  - apply total_nonneg. assumption.
  - inversion Ns as [|? ? Ha Ns']; subst. destruct (in_split a r (I a (or_introl eq_refl))) as (r1 & r2 & ->).
    rewrite (total_perm f (r1 ++ a :: r2) (a :: r1 ++ r2)) by (symmetry; apply Permutation_middle). rewrite !total_cons. apply Rplus_le_compat_l. apply IH; [assumption| |].
    + intros i Hi. specialize (I i (or_intror Hi)). rewrite in_app_iff in *. destruct I as [?|[->|?]]; [tauto|contradiction|tauto].
    + intros i Hi. apply H. rewrite in_app_iff in *. cbn. tauto.
Qed.
Lemma total_app f a b : total f (a ++ b) = total f a + total f b.
Proof. induction a as [|x a IH]; [unfold total; cbn; lra|]. cbn [app]. rewrite !total_cons, IH. lra. Qed.

Definition all_sane os level : Prop := forall i, usable os level i -> sane (getx os i).
Definition rest os level F := live os (excluded os level ++ F ++ zeros os).
Lemma in_rest os level F i : In i (rest os level F) <-> usable os level i /\ ~ In i F. Proof. apply usable_live. Qed.
Lemma rest_good os level F : all_sane os level -> good_subset os (rest os level F).
Proof. intros H. split; [apply live_nodup|]. intros i Hi. apply in_rest in Hi. split; [apply (proj1 Hi)|apply H, Hi]. Qed.

Lemma inner_start b os rem fuel level F : all_sane os level -> 0 < rem -> (length os + 1 < fuel)%nat ->
  (rest os level F = [] /\ inner fuel os (split_of b os) (amount b rem) (excluded os level ++ F) [] = Some (Ret [])) \/
  exists lam s, inner fuel os (split_of b os) (amount b rem) (excluded os level ++ F) [] = Some (Ret (pairs os lam s)) /\
    dom b lam /\ NoDup s /\ incl s (rest os level F) /\ total (serve_at b os lam) s = rem /\
    (forall i, In i s -> at_level lam (getx os i) <= 0) /\ (forall i, In i (rest os level F) -> ~ In i s -> 0 < at_level lam (getx os i)).
Proof.
  intros Hs Hrem Hf. destruct fuel as [|fuel]; [lia|]. rewrite inner_unfold. cbn [check_partial_swaps]. change (positives []) with (@nil nat). rewrite app_nil_l, <- app_assoc.
  fold (rest os level F). pose proof (rest_good os level F Hs) as G.
  destruct (rest os level F) as [|i l] eqn:L; [left; split; reflexivity|]. right. rewrite <- L in *. assert (Hne : rest os level F <> []) by (rewrite L; discriminate). clear i l L.
  destruct (split_level b os (rest os level F) rem G Hne Hrem) as (lam & Dl & Tl & El). rewrite El.
  assert (Hlen : (length (rest os level F) < fuel)%nat) by (pose proof (live_length os (excluded os level ++ F ++ zeros os)); unfold rest; lia).
  assert (Z : incl (zeros os) (excluded os level ++ F ++ zeros os)) by (intros i Hi; rewrite !in_app_iff; tauto).
  destruct (inner_level b os rem fuel (excluded os level ++ F ++ zeros os) lam G Z Hrem Dl Tl Hlen) as (lam' & s & Ei & Dl' & _ & Ns & Is & Ts & Hneg & Hpos).
  exists lam', s. split; [exact Ei|]. split; [assumption|]. split; [assumption|]. split; [assumption|]. split; [assumption|]. split; assumption.
Qed.

Definition drain os (F : list nat) : swaps := map (fun i => (i, - xo_y (getx os i))) F.
Lemma drain_keys os F : map fst (drain os F) = F. Proof. unfold drain. rewrite map_map. cbn. apply map_id. Qed.
Definition full b os i := serves b (getx os i) (- xo_y (getx os i)).
Definition capped b os lam i := serves b (getx os i) (Rmin (at_level lam (getx os i)) 0).
Lemma drain_deltas b os level A F : all_sane os level -> (forall i, In i F -> usable os level i) ->
  exists deltas, deltas_of b os (drain os F) = Ret deltas /\ amount b A - rsum deltas = amount b (A - total (full b os) F).
Proof.
  intros Hs HF. unfold deltas_of, amount, full, serves. destruct b.
  - eexists. split; [reflexivity|]. unfold drain. rewrite map_map. cbn [snd]. change (rsum (map (fun i => - xo_y (getx os i)) F)) with (total (fun i => - xo_y (getx os i)) F).
    rewrite (total_ext (fun i => - - xo_y (getx os i)) (fun i => (-1) * - xo_y (getx os i))) by (intros; ring). rewrite total_scale. ring.
  - exists (map (fun kv => payment (getx os (fst kv)) (- snd kv)) (drain os F)). split.
    + apply rmap_ok. intros [i v] Hi. unfold drain in Hi. apply in_map_iff in Hi. destruct Hi as (j & E & Hj). injection E as <- <-. cbn [fst snd].
      pose proof (Hs _ (HF _ Hj)) as Ho. pose proof (empty_depth _ Ho). apply dxdy_value; [assumption|lra].
    + unfold drain. rewrite map_map. cbn [fst snd]. reflexivity.
Qed.
Lemma over_pairs os lam s : map fst (over os (pairs os lam s)) = filter (fun i => rlt (xo_y (getx os i) + at_level lam (getx os i)) 0) s.
Proof. unfold over, pairs. induction s as [|a s IH]; [reflexivity|]. cbn. destruct (rlt _ 0); cbn; rewrite IH; reflexivity. Qed.

Lemma capped_mono b os lam mu i : sane (getx os i) -> dom b lam -> lam <= mu -> capped b os mu i <= capped b os lam i.
Proof.
  intros H D Hle. unfold capped. apply serves_le; [assumption| |].
  - destruct (level_dom b lam _ H D) as [?|Hd]; [left; assumption|right]. unfold Rmin. destruct (Rle_dec _ _); [assumption|apply depth0_pos; assumption].
  - pose proof (level_le lam mu _ H Hle). apply Rle_min_compat_r. assumption.
Qed.
Lemma capped_nonneg b os lam i : sane (getx os i) -> dom b lam -> 0 <= capped b os lam i.
Proof.
  intros H D. unfold capped. apply Rle_trans with (serves b (getx os i) 0); [rewrite serves_zero; lra|]. apply serves_le; [assumption| |apply Rmin_r].
  destruct (level_dom b lam _ H D) as [?|Hd]; [left; assumption|right]. unfold Rmin. destruct (Rle_dec _ _); [assumption|apply depth0_pos; assumption].
Qed.
Lemma capped_total b os level F lam s rem : all_sane os level -> NoDup s -> incl s (rest os level F) -> total (serve_at b os lam) s = rem ->
  (forall i, In i s -> at_level lam (getx os i) <= 0) -> (forall i, In i (rest os level F) -> ~ In i s -> 0 < at_level lam (getx os i)) -> total (capped b os lam) (rest os level F) = rem.
Proof.
  intros Hs Ns Is Ts Hneg Hpos. rewrite (total_subset (capped b os lam) s (rest os level F) Ns (live_nodup _ _) Is).
  - rewrite <- Ts. apply total_ext. intros i Hi. unfold capped, serve_at. rewrite Rmin_left by (apply Hneg; assumption). reflexivity.
  - intros i Hi Hns. unfold capped. rewrite Rmin_right by (left; apply Hpos; assumption). apply serves_zero.
Qed.

Lemma outer_level b os level A infuel fuel : all_sane os level -> (length os + 1 < infuel)%nat -> forall F,
  NoDup F -> (forall i, In i F -> usable os level i) -> 0 < A - total (full b os) F ->
  (F = [] \/ exists lp, dom b lp /\ (forall j, In j F -> at_level lp (getx os j) < - xo_y (getx os j)) /\ total (capped b os lp) (rest os level F) < A - total (full b os) F) ->
  (length os + 1 <= fuel + length F)%nat ->
  exists F' lam s, outer fuel infuel os (split_of b os) b level (amount b A) (drain os F) = Some (Ret (drain os F', pairs os lam s)) /\
    NoDup F' /\ (forall i, In i F' -> usable os level i) /\ 0 < A - total (full b os) F' /\ NoDup s /\ incl s (rest os level F') /\
    (rest os level F' = [] \/
     dom b lam /\ total (serve_at b os lam) s = A - total (full b os) F' /\ (forall i, In i s -> - xo_y (getx os i) <= at_level lam (getx os i) <= 0) /\
     (forall i, In i (rest os level F') -> ~ In i s -> 0 < at_level lam (getx os i)) /\ (forall j, In j F' -> at_level lam (getx os j) < - xo_y (getx os j))).
Proof.
  intros Hs Hin. induction fuel as [|fuel IH]; intros F NF UF Hrem Hprev Hf.
  { exfalso. assert (drained os level (drain os F)). { split; [rewrite drain_keys; assumption|]. intros i v Hv. unfold drain in Hv. apply in_map_iff in Hv. destruct Hv as (j & E & Hj). injection E as <- <-. split; [apply UF; assumption|reflexivity]. }
    pose proof (drained_count _ _ _ H). unfold drain in *. rewrite map_length in *. lia. }
  rewrite outer_unfold. destruct (drain_deltas b os level A F Hs UF) as (deltas & -> & ->). rewrite drain_keys.
  set (rem := A - total (full b os) F) in *.
  destruct (inner_start b os rem infuel level F Hs Hrem Hin) as [[L Ei]|(lam & s & Ei & Dl & Ns & Is & Ts & Hneg & Hpos)]; rewrite Ei.
  { cbn [over filter]. exists F, 0, []. split; [reflexivity|]. split; [assumption|]. split; [assumption|]. split; [assumption|]. split; [constructor|]. split; [intros i []|]. left. assumption. }
  pose proof (capped_total b os level F lam s rem Hs Ns Is Ts Hneg Hpos) as Tc.
  assert (HF : forall j, In j F -> at_level lam (getx os j) < - xo_y (getx os j)).
  { intros j Hj. destruct Hprev as [->|(lp & Dp & Hlp & Hlt)]; [destruct Hj|]. assert (lam <= lp).
    { apply Rnot_lt_le. intro Hc. assert (total (capped b os lam) (rest os level F) <= total (capped b os lp) (rest os level F)); [|lra].
      apply total_le. intros i Hi. apply capped_mono; [apply (good_sane _ _ _ (rest_good os level F Hs) Hi)|assumption|lra]. }
    pose proof (level_le lam lp _ (Hs _ (UF _ Hj)) H). specialize (Hlp j Hj). lra. }
  pose proof (over_pairs os lam s) as Ho. set (hits := filter (fun i => rlt (xo_y (getx os i) + at_level lam (getx os i)) 0) s) in *.
  assert (Hh : forall i, In i hits <-> In i s /\ at_level lam (getx os i) < - xo_y (getx os i)).
  { intros i. unfold hits. rewrite filter_In. unfold rlt. destruct (Rlt_dec (xo_y (getx os i) + at_level lam (getx os i)) 0); split; intros [? ?]; split; try assumption; try lra; try discriminate; reflexivity. }
  destruct (over os (pairs os lam s)) as [|kv0 ov0] eqn:O.
  { exists F, lam, s. split; [reflexivity|]. split; [assumption|]. split; [assumption|]. split; [assumption|]. split; [assumption|]. split; [assumption|]. right. split; [assumption|]. split; [assumption|]. split; [|split; assumption].
    intros i Hi. split; [|apply Hneg; assumption]. apply Rnot_lt_le. intro Hc. assert (Hx : In i hits) by (apply Hh; split; assumption). rewrite <- Ho in Hx. destruct Hx. }
  assert (Hhne : hits <> []) by (rewrite <- Ho; discriminate).
  rewrite <- O in *. clear kv0 ov0 O Ei.
  assert (Nh : NoDup hits) by (apply NoDup_filter; assumption).
  assert (Hhr : forall i, In i hits -> usable os level i /\ ~ In i F) by (intros i Hi; apply in_rest, Is, Hh; assumption).
  assert (Dd : drained os level (drain os F)). { split; [rewrite drain_keys; assumption|]. intros i v Hv. unfold drain in Hv. apply in_map_iff in Hv. destruct Hv as (j & E & Hj). injection E as <- <-. split; [apply UF; assumption|reflexivity]. }
  destruct (drained_step os level (drain os F) (pairs os lam s) Dd) as [E _].
  { rewrite pairs_keys. assumption. }
  { intros i Hi. rewrite pairs_keys in Hi. rewrite drain_keys. apply in_rest, Is. assumption. }
  rewrite Ho in E. rewrite E. fold (drain os hits). assert (Ed : drain os F ++ drain os hits = drain os (F ++ hits)) by (unfold drain; rewrite map_app; reflexivity). rewrite Ed.
  assert (Perm : Permutation (rest os level F) (hits ++ rest os level (F ++ hits))).
  { apply NoDup_Permutation; [apply live_nodup|apply nodup_app; [assumption|apply live_nodup|]|].
    - intros i Hi. apply in_rest in Hi. rewrite in_app_iff in Hi. tauto.
    - intros i. rewrite in_app_iff, !in_rest, in_app_iff. specialize (Hhr i). destruct (in_dec Nat.eq_dec i hits); tauto. }
  assert (Erem : A - total (full b os) (F ++ hits) = rem - total (full b os) hits) by (rewrite total_app; unfold rem; ring).
  assert (Hlt : total (capped b os lam) (rest os level (F ++ hits)) < rem - total (full b os) hits).
  { rewrite (total_perm _ _ _ Perm), total_app in Tc. assert (total (full b os) hits < total (capped b os lam) hits); [|lra].
    assert (Hp : forall i, In i hits -> full b os i < capped b os lam i).
    { intros i Hi. apply Hh in Hi. destruct Hi as [Hi Hc]. pose proof (Hs i (proj1 (proj1 (in_rest _ _ _ _) (Is i Hi)))) as Hsi. unfold full, capped. rewrite Rmin_left by (apply Hneg; assumption). apply serves_lt; [assumption|apply level_dom; assumption|assumption]. }
    apply total_lt; [intros i Hi; left; apply Hp; assumption|]. destruct hits as [|h hs]; [congruence|]. exists h. split; [left; reflexivity|apply Hp; left; reflexivity]. }
  assert (Hcn : 0 <= total (capped b os lam) (rest os level (F ++ hits))).
  { apply total_nonneg. intros i Hi. apply capped_nonneg; [apply (good_sane _ _ _ (rest_good os level _ Hs) Hi)|assumption]. }
  apply IH.
  - apply nodup_app; [assumption|assumption|]. intros i Hi. apply Hhr. assumption.
  - intros i Hi. apply in_app_or in Hi. destruct Hi as [Hi|Hi]; [apply UF; assumption|apply Hhr; assumption].
  - lra.
  - right. exists lam. split; [assumption|]. split; [|lra]. intros j Hj. apply in_app_or in Hj. destruct Hj as [Hj|Hj]; [apply HF; assumption|apply Hh; assumption].
  - rewrite app_length. destruct hits as [|h hs]; [congruence|]. cbn [length]. lia.
Qed.
