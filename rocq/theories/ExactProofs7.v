(** Requests no routing can serve. *)
From Coq Require Import Reals Lra Lia Bool List Arith Permutation.
From Verif Require Import CurveModel CurveProofs OrderModel ExactModel ExactSpec ExactProofs ExactProofs2 ExactProofs3 ExactProofs4 ExactProofs5 ExactProofs6.
Import ListNotations.
Local Open Scope R_scope.

Lemma level_total os level : all_sane os level -> (forall i, In i level -> (i < length os)%nat) -> 
  let lv := match level with [] => indexes os | _ => level end in
  (forall i, In i lv -> 0 <= xo_y (getx os i)) /\ total (fun i => xo_y (getx os i)) (eligible os level) <= total (fun i => xo_y (getx os i)) lv /\
  (NoDup level -> total (fun i => xo_y (getx os i)) lv = total (fun i => xo_y (getx os i)) (eligible os level)).
Proof.
  intros Hs Hin lv.
  assert (Hlv : forall i, In i lv -> (i < length os)%nat /\ (level = [] \/ In i level)).
  { intros i Hi. unfold lv in Hi. destruct level as [|a l]; [unfold indexes in Hi; apply in_seq in Hi; split; [lia|left; reflexivity]|]. split; [apply Hin; assumption|right; assumption]. }
  assert (Hel : incl (eligible os level) lv).
  { intros i Hi. apply in_eligible in Hi. destruct Hi as (H1 & H2 & _). unfold lv. destruct level as [|a l]; [unfold indexes; apply in_seq; lia|]. destruct H2; [discriminate|assumption]. }
  assert (Hnn : forall i, In i lv -> 0 <= xo_y (getx os i)).
  { intros i Hi. destruct (Hlv i Hi) as [H1 H2]. destruct (Req_EM_T (xo_y (getx os i)) 0) as [->|E]; [lra|]. apply (Hs i). repeat split; assumption. }
  split; [assumption|]. split; [apply total_incl_le; [apply eligible_nodup|assumption|assumption]|].
  intros N. apply total_subset; [apply eligible_nodup| |assumption|].
  - unfold lv. destruct level; [apply seq_NoDup|assumption].
  - intros i Hi Hn. destruct (Req_EM_T (xo_y (getx os i)) 0) as [E|E]; [assumption|]. exfalso. apply Hn, in_eligible. destruct (Hlv i Hi). repeat split; assumption.
Qed.
Lemma eligible_feasible os level : all_sane os level -> forall i, In i (eligible os level) -> usable os level i /\ 0 <= xo_y (getx os i) <= xo_y (getx os i).
Proof. intros Hs i Hi. apply in_eligible in Hi. split; [assumption|]. destruct (Hs i Hi) as (_ & _ & _ & ?). lra. Qed.

Lemma target_rejected fuel infuel os level A :
  (forall i, usable os level i -> sane (nth i os (mkX 0 0 0 0))) -> NoDup level -> (forall i, In i level -> (i < length os)%nat) -> 0 < A ->
  (forall l t, NoDup l -> (forall i, In i l -> usable os level i /\ 0 <= t i <= xo_y (nth i os (mkX 0 0 0 0))) -> total t l < A) ->
  exact_match fuel infuel os (- A) true true level false = Some (Raise AssertionError).
Proof.
  intros Hs N Hin HA Hinf. fold (all_sane os level) in Hs. destruct (level_total os level Hs Hin) as (_ & _ & E). specialize (E N).
  unfold exact_match. rewrite match_unfold. unfold request. cbn [andb]. unfold sufficient_liquidity.
  set (lv := match level with [] => indexes os | _ => level end) in *. change (rsum (map (fun i => xo_y (getx os i)) lv)) with (total (fun i => xo_y (getx os i)) lv). rewrite E.
  assert (total (fun i => xo_y (getx os i)) (eligible os level) < A) by (apply Hinf; [apply eligible_nodup|apply eligible_feasible; assumption]).
  rewrite rle_false; [reflexivity|]. rewrite Rabs_Ropp, Rabs_right by lra. lra.
Qed.

Lemma drained_case b os level A fuel infuel : all_sane os level -> (length os < fuel)%nat -> (length os + 1 < infuel)%nat -> 0 < A -> total (full b os) (eligible os level) < A ->
  exists F p L v, outer fuel infuel os (split_of b os) b level (amount b A) [] = Some (Ret (F, p)) /\ merged F p = map (fun i => (i, v i)) L /\
    NoDup L /\ (forall i, In i L -> usable os level i) /\ (forall i, usable os level i -> In i L /\ v i = - xo_y (getx os i)).
Proof.
  intros Hs Hf Hi HA Hlt. destruct (routing b os level A fuel infuel Hs Hf Hi HA) as (F & p & L & v & Eo & Em & NL & UL & V0 & VB & Hcase).
  exists F, p, L, v. split; [assumption|]. assert (Hb : bounded os level F p) by (eapply outer_bounded; [apply drained_nil|exact Eo]). destruct (merged_eq _ _ _ _ Hb) as [-> _].
  split; [assumption|]. split; [assumption|]. split; [assumption|].
  destruct Hcase as [[Hd _]|[Htot (lam & Hl & Hv)]].
  - intros i Hu. split; [|apply Hd; assumption]. destruct (in_dec Nat.eq_dec i L) as [|n]; [assumption|]. exfalso. specialize (V0 i n). rewrite (Hd i Hu) in V0. destruct Hu as (_ & _ & Hy). apply Hy. fold (getx os i). lra.
  - exfalso. assert (total (fun i => serves b (getx os i) (v i)) (eligible os level) <= total (full b os) (eligible os level)); [|lra].
    apply total_le. intros i Hi'. apply in_eligible in Hi'. unfold full. apply serves_le; [apply Hs; assumption|right; apply empty_depth, Hs; assumption|apply VB; assumption].
Qed.
Lemma full_pos b os level i : all_sane os level -> usable os level i -> 0 < full b os i.
Proof.
  intros Hs Hu. pose proof (Hs i Hu) as Ho. unfold full. rewrite <- (serves_zero b (getx os i)). apply serves_lt; [assumption|right; apply empty_depth; assumption|]. destruct Ho as (_ & _ & _ & Hy). destruct Hu as (_ & _ & Hne). fold (getx os i) in Hne. lra.
Qed.
Lemma full_total_pos b os level i : all_sane os level -> usable os level i -> 0 < total (full b os) (eligible os level).
Proof.
  intros Hs Hu. apply total_pos; [|intros j Hj; apply (full_pos b os level); [assumption|apply in_eligible; assumption]]. apply (in_nonempty i). apply in_eligible. assumption.
Qed.
Definition drains_all os level acts : Prop := forall i, usable os level i -> exists a, In a acts /\ ac_index a = i /\ ac_output a = - xo_y (nth i os (mkX 0 0 0 0)).
Lemma drained_actions os level L v : all_sane os level -> (forall i, usable os level i -> In i L /\ v i = - xo_y (getx os i)) ->
  drains_all os level (actions 0 0 (map (row os) (nonzero (map (fun i => (i, v i)) L)))).
Proof.
  intros Hs H i Hu. destruct (H i Hu) as [HL Hv].
  assert (E : map (fun a => (ac_index a, ac_output a)) (actions 0 0 (map (row os) (nonzero (map (fun i => (i, v i)) L)))) = nonzero (map (fun i => (i, v i)) L)).
  { generalize (nonzero (map (fun i => (i, v i)) L)). intros o. generalize 0 at 1. generalize 0. induction o as [|[j w] o IH]; intros r1 r2; [reflexivity|]. cbn. f_equal. apply IH. }
  assert (Hin : In (i, v i) (nonzero (map (fun i => (i, v i)) L))).
  { apply nonzero_in. split; [apply (in_map_pair (fun i => i) v); assumption|]. rewrite Hv. destruct Hu as (_ & _ & Hy). fold (getx os i) in Hy. lra. }
  rewrite <- E in Hin. apply in_map_iff in Hin. destruct Hin as (a & Ha & HA). injection Ha as E1 E2. exists a. split; [assumption|]. split; [assumption|]. rewrite E2, Hv. reflexivity.
Qed.
Lemma infeasible_full b os level A : all_sane os level ->
  (forall l t, NoDup l -> (forall i, In i l -> usable os level i /\ 0 <= t i <= xo_y (nth i os (mkX 0 0 0 0))) -> total (fun i => serves b (nth i os (mkX 0 0 0 0)) (- t i)) l < A) ->
  total (full b os) (eligible os level) < A.
Proof. intros Hs H. apply (H (eligible os level) (fun i => xo_y (getx os i))); [apply eligible_nodup|apply eligible_feasible; assumption]. Qed.

Lemma partial_fill b fuel infuel os level A check :
  (forall i, usable os level i -> sane (nth i os (mkX 0 0 0 0))) -> (b = true -> forall i, In i level -> (i < length os)%nat) -> (exists i, usable os level i) -> (length os < fuel)%nat -> (length os + 1 < infuel)%nat -> 0 < A ->
  (forall l t, NoDup l -> (forall i, In i l -> usable os level i /\ 0 <= t i <= xo_y (nth i os (mkX 0 0 0 0))) -> total (fun i => serves b (nth i os (mkX 0 0 0 0)) (- t i)) l < A) ->
  exists acts, exact_match fuel infuel os (amount b A) b check level true = Some (Ret acts) /\ drains_all os level acts.
Proof.
  intros Hs Hin [i0 Hu0] Hf Hi HA Hinf. fold (all_sane os level) in Hs. pose proof (infeasible_full b os level A Hs Hinf) as Hlt. pose proof (full_total_pos b os level i0 Hs Hu0) as Hpos.
  change (exact_match fuel infuel os (amount b A) b check level true) with (match_with fuel infuel os (split_of b os) (amount b A) b check level true). rewrite match_unfold.
  assert (Er : request os (amount b A) b check level true = Ret (amount b A)).
  { unfold request. destruct (b && check) eqn:E; [|reflexivity]. apply andb_true_iff in E. destruct E as [-> _]. unfold sufficient_liquidity.
    destruct (level_total os level Hs (Hin eq_refl)) as (_ & Hle & _). set (lv := match level with [] => indexes os | _ => level end) in *. change (rsum (map (fun i => xo_y (getx os i)) lv)) with (total (fun i => xo_y (getx os i)) lv).
    destruct (rle 0 _); [reflexivity|]. assert (0 < total (fun i => xo_y (getx os i)) lv).
    { rewrite (total_ext (full true os) (fun i => xo_y (getx os i))) in Hpos by (intros; unfold full, serves; ring). lra. }
    rewrite req_false by lra. reflexivity. }
  rewrite Er.
  destruct (drained_case b os level A fuel infuel Hs Hf Hi HA Hlt) as (F & p & L & v & -> & -> & NL & UL & HV).
  rewrite (finish_value b os level A true L v (total (full b os) (eligible os level)) Hs).
  - eexists. split; [reflexivity|]. apply drained_actions; assumption.
  - intros i HiL. split; [apply UL; assumption|]. destruct (HV i (UL i HiL)) as [_ ->]. lra.
  - assert (EL : total (fun i => serves b (getx os i) (v i)) L = total (full b os) L) by (apply total_ext; intros i HiL; destruct (HV i (UL i HiL)) as [_ ->]; reflexivity). rewrite EL.
    apply total_perm. apply NoDup_Permutation; [apply eligible_nodup|assumption|]. intros i. rewrite in_eligible. split; [apply HV|apply UL].
  - lra.
  - right. reflexivity.
  - right. left. reflexivity.
Qed.
Lemma src_rejected fuel infuel os level A check :
  (forall i, usable os level i -> sane (nth i os (mkX 0 0 0 0))) -> (exists i, usable os level i) -> (length os < fuel)%nat -> (length os + 1 < infuel)%nat -> 0 < A ->
  (forall l t, NoDup l -> (forall i, In i l -> usable os level i /\ 0 <= t i <= xo_y (nth i os (mkX 0 0 0 0))) -> total (fun i => payment (nth i os (mkX 0 0 0 0)) (t i)) l < A) ->
  exact_match fuel infuel os A false check level false = Some (Raise AssertionError).
Proof.
  intros Hs [i0 Hu0] Hf Hi HA Hinf. fold (all_sane os level) in Hs.
  assert (Hlt : total (full false os) (eligible os level) < A).
  { apply infeasible_full; [assumption|]. intros l t N U. unfold serves. rewrite (total_ext _ (fun i => payment (nth i os (mkX 0 0 0 0)) (t i))) by (intros; rewrite Ropp_involutive; reflexivity). apply Hinf; assumption. }
  pose proof (full_total_pos false os level i0 Hs Hu0) as Hpos.
  unfold exact_match. rewrite match_unfold. unfold request. cbn [andb]. change (amt_by_src os) with (split_of false os). change A with (amount false A).
  destruct (drained_case false os level A fuel infuel Hs Hf Hi HA Hlt) as (F & p & L & v & -> & -> & NL & UL & HV). change (amount false A) with A.
  assert (EL : total (fun i => payment (getx os i) (- v i)) L = total (full false os) (eligible os level)).
  { transitivity (total (full false os) L); [apply total_ext; intros i HiL; destruct (HV i (UL i HiL)) as [_ ->]; reflexivity|]. symmetry.
    apply total_perm. apply NoDup_Permutation; [apply eligible_nodup|assumption|]. intros i. rewrite in_eligible. split; [apply HV|apply UL]. }
  f_equal. unfold finish. rewrite (rmap_ok _ (row os)).
  2:{ intros [i w] Hi'. apply nonzero_in in Hi'. destruct Hi' as [Hi' _]. apply in_map_iff in Hi'. destruct Hi' as (j & E & Hj). injection E as <- <-. cbn [fst snd]. pose proof (Hs j (UL j Hj)) as Ho.
      rewrite dxdy_value; [reflexivity|assumption|]. destruct (HV j (UL j Hj)) as [_ ->]. pose proof (empty_depth (getx os j) Ho). lra. }
  cbn [rbind]. rewrite map_map. cbn [row fst snd]. rewrite (rsum_nonzero (fun i w => payment (getx os i) (- w))) by (intros; rewrite Ropp_0; apply payment_zero). rewrite map_map. cbn [fst snd].
  change (rsum (map (fun x => payment (getx os x) (- v x)) L)) with (total (fun i => payment (getx os i) (- v i)) L). rewrite EL. rewrite rdiv_ok by lra. cbn [rbind negb andb]. rewrite rlt_true by lra. reflexivity.
Qed.
