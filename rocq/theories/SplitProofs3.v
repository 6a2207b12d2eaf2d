From Coq Require Import Reals Lra Lia Bool List Arith Permutation.
From Verif Require Import CurveModel CurveProofs OrderModel ExactModel ExactSpec ExactProofs ExactProofs2 ExactProofs3 ExactProofs4 ExactProofs5 ExactProofs6 SplitSpec SplitProofs SplitProofs2.
Import ListNotations.
Local Open Scope R_scope.

(** ** Later parts are not cheaper *)
Lemma sum_by_order (f : action -> R) acts n : (forall a, In a acts -> (ac_index a < n)%nat) ->
  fold_right Rplus 0 (map f acts) = total (fun i => fold_right Rplus 0 (map (fun a => if Nat.eq_dec (ac_index a) i then f a else 0) acts)) (seq 0 n).
Proof.
  induction acts as [|a acts IH]; intros H; cbn [map fold_right]; [symmetry; apply total_const0; reflexivity|].
  rewrite IH by (intros; apply H; right; assumption). rewrite total_plus. f_equal.
  assert (E : total (fun i => if Nat.eq_dec (ac_index a) i then f a else 0) (seq 0 n) = total (fun i => if Nat.eq_dec i (ac_index a) then f a else 0) (seq 0 n)).
  { apply total_ext. intros i _. destruct (Nat.eq_dec (ac_index a) i), (Nat.eq_dec i (ac_index a)); congruence. }
  rewrite E. unfold total. rewrite (pick (fun _ => f a)) by apply seq_NoDup. destruct (in_dec Nat.eq_dec (ac_index a) (seq 0 n)) as [_|K]; [reflexivity|].
  exfalso. apply K. apply in_seq. pose proof (H a (or_introl eq_refl)). lia.
Qed.
Lemma payment_worse o v t : sane o -> v <= 0 -> 0 <= t -> t <= xo_y o + v -> payment o t <= payment (with_balance o (xo_y o + v)) t.
Proof.
  intros H Hv Ht Hy. assert (S' : sane (with_balance o (xo_y o + v))) by (apply sane_with; [assumption|lra]).
  pose proof (depth0_pos _ S') as D0. pose proof (depth_left _ t S' Hy) as D1. unfold payment. rewrite depth_with in D0, D1. rewrite !depth_with. cbn [with_balance xo_x0 xo_y0].
  replace (xo_y o + v + 0 - xo_y o) with v in * by ring. replace (xo_y o + v + - t - xo_y o) with (v - t) in * by ring.
  assert (N : 0 < xo_n o) by apply H. assert (NV : xo_n o * v <= 0) by (rewrite <- (Rmult_0_r (xo_n o)); apply Rmult_le_compat_l; lra).
  assert (E0 : depth o v <= depth o 0) by (unfold depth; lra). assert (E1 : depth o (v - t) <= depth o (- t)) by (unfold depth; lra).
  assert (P : 0 < depth o v * depth o (v - t)) by (apply Rmult_lt_0_compat; assumption). assert (Q : depth o v * depth o (v - t) <= depth o 0 * depth o (- t)) by (apply Rmult_le_compat; lra).
  unfold Rdiv. apply Rmult_le_compat_l; [|apply Rinv_le_contravar; assumption]. destruct H as (_ & X & Y & _). apply Rmult_le_pos; [apply Rlt_le, Rmult_lt_0_compat; assumption|assumption].
Qed.
Lemma in_bounds b fuel infuel os level A check sp acts : exact_match fuel infuel os (amount b A) b check level sp = Some (Ret acts) -> forall a, In a acts -> (ac_index a < length os)%nat.
Proof. intros H a Ha. unfold exact_match in H. destruct (match_bounded _ _ _ _ _ _ _ _ _ _ H) as (_ & B & _). apply (B a Ha). Qed.
Lemma later_parts b fuel infuel os level A1 A2 check sp : all_sane os level -> (b = true -> forall i, In i level -> (i < length os)%nat) -> (length os < fuel)%nat -> (length os + 1 < infuel)%nat ->
  0 < A1 -> 0 < A2 -> A1 + A2 <= total (full b os) (eligible os level) ->
  exists a1 a2 a0, exact_match fuel infuel os (amount b A1) b check level sp = Some (Ret a1) /\ exact_match fuel infuel (settled os a1) (amount b A2) b check level sp = Some (Ret a2) /\
    exact_match fuel infuel os (amount b A2) b check level sp = Some (Ret a0) /\
    fold_right Rplus 0 (map ac_input a0) <= fold_right Rplus 0 (map ac_input a2) /\ - fold_right Rplus 0 (map ac_output a2) <= - fold_right Rplus 0 (map ac_output a0).
Proof.
  intros Hs Hin Hf Hi H1 H2 Hle.
  destruct (matched b fuel infuel os level A1 check sp Hs Hin Hf Hi H1 ltac:(lra)) as (a1 & lam & v & E1 & L1 & V1 & Z1 & T1 & F1).
  assert (LB : left_by b os level lam A1 v (settled os a1)).
  { constructor; try assumption; [apply settled_length|]. apply settled_get. intros i. apply F1. }
  pose proof (left_sane _ _ _ _ _ _ _ LB) as Hs1. pose proof (left_full _ _ _ _ _ _ _ LB) as Hf1.
  destruct (matched b fuel infuel (settled os a1) level A2 check sp Hs1 ltac:(rewrite settled_length; exact Hin) ltac:(rewrite settled_length; exact Hf) ltac:(rewrite settled_length; exact Hi) H2 ltac:(lra)) as (a2 & mu & w & E2 & L2 & V2 & Z2 & T2 & F2).
  set (t := fun i => - w i). set (os1 := settled os a1) in *.
  assert (TB : forall i, usable os level i -> 0 <= t i <= xo_y (getx os i) /\ payment (getx os i) (t i) <= payment (getx os1 i) (t i) /\ 0 <= payment (getx os1 i) (t i)).
  { intros i U. assert (S := Hs i U). fold (getx os i) in S. pose proof (left_bounds _ _ _ _ _ _ _ _ LB U) as B. destruct (Req_dec (xo_y (getx os i) + v i) 0) as [Z|Z].
    - assert (W : w i = 0) by (apply Z2; intro K; apply (left_usable _ _ _ _ _ _ _ _ LB) in K; tauto). unfold t. rewrite W, Ropp_0, !payment_zero. lra.
    - assert (U1 : usable os1 level i) by (apply (left_usable _ _ _ _ _ _ _ _ LB); tauto). pose proof (clamp_bounds mu _ (Hs1 i U1)) as C. fold (getx os1 i) in C. rewrite <- (V2 i U1) in C.
      rewrite (lb_get _ _ _ _ _ _ _ LB i) in * by apply U. cbn [with_balance xo_y] in C. unfold t. split; [lra|]. split; [apply payment_worse; [exact S|lra|lra|lra]|].
      rewrite <- (payment_zero (with_balance (getx os i) (xo_y (getx os i) + v i))). apply payment_mono; [apply sane_with; [exact S|lra]|lra|cbn; lra]. }
  assert (Sub : forall g : nat -> R, (forall i, w i = 0 -> g i = 0) -> total g (eligible os level) = total g (eligible os1 level)).
  { intros g G. apply total_subset; try apply eligible_nodup.
    - intros i Hi'. apply in_eligible in Hi'. apply in_eligible. apply (left_usable _ _ _ _ _ _ _ _ LB) in Hi'. apply Hi'.
    - intros i Hi' N. apply G, Z2. intro K. apply N, in_eligible. exact K. }
  assert (All : forall g : nat -> R, (forall i, w i = 0 -> g i = 0) -> total g (seq 0 (length os)) = total g (eligible os level)).
  { intros g G. apply total_subset; [apply eligible_nodup|apply seq_NoDup| |].
    - intros i Hi'. apply in_eligible in Hi' as (L & _). apply in_seq. lia.
    - intros i _ N. apply G, Z2. intro K. apply N, in_eligible. apply (left_usable _ _ _ _ _ _ _ _ LB) in K. apply K. }
  assert (Bd : forall a, In a a2 -> (ac_index a < length os)%nat) by (intros a Ha; rewrite <- (settled_length os a1); exact (in_bounds _ _ _ _ _ _ _ _ _ E2 a Ha)).
  assert (Ti : fold_right Rplus 0 (map ac_input a2) = total (fun i => payment (getx os1 i) (t i)) (eligible os level)).
  { rewrite (sum_by_order ac_input a2 (length os) Bd). rewrite (total_ext _ (fun i => payment (getx os1 i) (t i))) by (intros i _; apply F2). apply All. intros i W. unfold t. rewrite W, Ropp_0. apply payment_zero. }
  assert (To : - fold_right Rplus 0 (map ac_output a2) = total t (eligible os level)).
  { transitivity (fold_right Rplus 0 (map (fun a => - ac_output a) a2)). { clear. induction a2 as [|a l IH]; cbn [map fold_right]; [ring|]. rewrite <- IH. ring. }
    rewrite (sum_by_order (fun a => - ac_output a) a2 (length os) Bd). rewrite (total_ext _ t) by (intros i _; apply F2). apply All. intros i W. unfold t. rewrite W. ring. }
  assert (Le : total (fun i => payment (getx os i) (t i)) (eligible os level) <= total (fun i => payment (getx os1 i) (t i)) (eligible os level)) by (apply total_le; intros i Hi'; apply in_eligible in Hi'; apply TB; assumption).
  exists a1, a2. destruct b.
  - assert (TA : total t (eligible os level) = A2). { rewrite <- T2. rewrite (Sub t) by (intros i W; unfold t; rewrite W; ring). reflexivity. }
    destruct (match_optimal_target fuel infuel os level A2 check sp Hs (Hin eq_refl) Hf Hi H2) as (a0 & E0 & O0 & _ & Opt).
    { exists (eligible os level), t. split; [apply eligible_nodup|]. split; [|lra]. intros i Hi'. apply in_eligible in Hi'. split; [assumption|apply TB; assumption]. }
    exists a0. split; [exact E1|]. split; [exact E2|]. split; [exact E0|]. split.
    + rewrite Ti. eapply Rle_trans; [|exact Le]. apply Opt; [apply eligible_nodup| |lra]. intros i Hi'. apply in_eligible in Hi'. split; [assumption|apply TB; assumption].
    + rewrite To, TA. unfold rsum in O0. rewrite O0. lra.
  - assert (TA : total (fun i => payment (getx os1 i) (t i)) (eligible os level) = A2). { rewrite <- T2. rewrite (Sub (fun i => payment (getx os1 i) (t i))) by (intros i W; unfold t; rewrite W, Ropp_0; apply payment_zero). reflexivity. }
    destruct (match_optimal_src fuel infuel os level A2 check sp Hs Hf Hi H2) as (a0 & E0 & O0 & _ & Opt).
    { exists (eligible os level), (fun i => xo_y (getx os i)). split; [apply eligible_nodup|]. split.
      - intros i Hi'. apply in_eligible in Hi'. split; [assumption|]. assert (S := Hs i Hi'). fold (getx os i). destruct S as (_ & _ & _ & Y). fold (getx os i) in Y. lra.
      - assert (X : total (full false os) (eligible os level) = total (fun i => payment (getx os i) (xo_y (getx os i))) (eligible os level)) by (apply total_ext; intros i _; unfold full, serves; rewrite Ropp_involutive; reflexivity).
        change (A2 <= total (fun i => payment (getx os i) (xo_y (getx os i))) (eligible os level)). lra. }
    exists a0. split; [exact E1|]. split; [exact E2|]. split; [exact E0|]. split.
    + rewrite Ti, TA. unfold rsum in O0. rewrite O0. lra.
    + rewrite To. apply Opt; [apply eligible_nodup| |].
      * intros i Hi'. apply in_eligible in Hi'. split; [assumption|apply TB; assumption].
      * change (total (fun i => payment (getx os i) (t i)) (eligible os level) <= A2). lra.
Qed.
