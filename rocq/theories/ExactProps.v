(** Theorems about the exact router (C29-C32, C67, C68). *)
From Coq Require Import Reals Lra Lia Bool List Arith.
From Verif Require Import CurveModel CurveProofs OrderModel OrderProofs ExactModel ExactSpec ExactProofs ExactProofs2 ExactProofs3 ExactProofs4 ExactProofs6 ExactProofs7.
Import ListNotations.
Local Open Scope R_scope.

(** a book of two orders at different marginal prices (1 and 9/16) *)
Definition ex_book : list xorder := [mkX (1 / 2) 1 1 1; mkX (1 / 2) 4 1 2].
Example ex_good : good_subset ex_book [0; 1]%nat.
Proof. split; [repeat constructor; cbn; intuition congruence|]. intros i [<-|[<-|[]]]; (split; [cbn; lia|unfold sane; cbn; lra]). Qed.
Example ex_all_sane i : usable ex_book [] i -> sane (nth i ex_book (mkX 0 0 0 0)).
Proof. intros (H & _ & _). cbn in H. destruct i as [|[|i]]; [unfold sane; cbn; lra|unfold sane; cbn; lra|exfalso; lia]. Qed.
Example ex_prices : price_after (nth 0 ex_book (mkX 0 0 0 0)) 0 = 1 /\ price_after (nth 1 ex_book (mkX 0 0 0 0)) 0 = 9 / 16.
Proof. unfold price_after, depth. cbn. split; field. Qed.

(** ** C29 *)
Theorem C29_target_split os dx sub : good_subset os sub -> sub <> [] ->
  exists v, (forall i, In i sub -> amt_by_target os i dx sub = Ret (v i)) /\ total v sub = dx /\
    forall i j, In i sub -> In j sub -> price_after (nth i os (mkX 0 0 0 0)) (v i) = price_after (nth j os (mkX 0 0 0 0)) (v j).
Proof. exact (target_split os dx sub). Qed.
Print Assumptions C29_target_split.
(** taking 1 from the book of the example takes 2/3 from the better order and 1/3 from the other *)
Example C29_ex : amt_by_target ex_book 0 (-1) [0; 1]%nat = Ret (- 2 / 3) /\ amt_by_target ex_book 1 (-1) [0; 1]%nat = Ret (- 1 / 3).
Proof.
  unfold amt_by_target, xo_x. cbn [without filter Nat.eqb negb map getx nth ex_book rmap rprod rsum fold_right xo_n xo_x0 xo_y0 xo_y].
  rewrite !rsqrt_ok by lra. replace (4 * 1 * 1 * 1) with (2 * 2) by ring. replace (1 * 1 * 4 * 1) with (2 * 2) by ring. rewrite sqrt_square by lra.
  cbn [rbind rsum fold_right]. rewrite !rdiv_ok by lra. cbn [rbind]. split; f_equal; field.
Qed.

(** ** C30 *)
Theorem C30_source_split os dx sub : good_subset os sub -> sub <> [] -> 0 <= dx ->
  exists v u, (forall i, In i sub -> amt_by_src os i dx sub = Ret (v i) /\ dxdy (nth i os (mkX 0 0 0 0)) (v i) = Ret (u i) /\ 0 < depth (nth i os (mkX 0 0 0 0)) (v i)) /\ total u sub = dx /\
    forall i j, In i sub -> In j sub -> price_after (nth i os (mkX 0 0 0 0)) (v i) = price_after (nth j os (mkX 0 0 0 0)) (v j).
Proof. exact (src_split os dx sub). Qed.
Print Assumptions C30_source_split.
(** paying 5/3 into the book of the example yields 2/3 from the better order and 1/3 from the other *)
Example C30_ex : amt_by_src ex_book 0 (5 / 3) [0; 1]%nat = Ret (- 2 / 3) /\ amt_by_src ex_book 1 (5 / 3) [0; 1]%nat = Ret (- 1 / 3).
Proof.
  unfold amt_by_src, xo_x, xo_a, xo_k. cbn [without filter Nat.eqb negb map getx nth ex_book rmap rprod rsum fold_right xo_n xo_x0 xo_y0 xo_y].
  rewrite !rdiv_ok by lra. cbn [rbind]. rewrite !rsqrt_ok by lra. replace (1 * 1 * (4 * 1)) with (2 * 2) by ring. replace (4 * 1 * (1 * 1)) with (2 * 2) by ring. rewrite sqrt_square by lra.
  cbn [rbind rsum fold_right]. rewrite !rdiv_ok by lra. split; f_equal; field.
Qed.

(** ** C31 *)
(** [payment] is the cost of the first [t] tokens at the running marginal price: it vanishes at
    zero and its derivative is the reciprocal of the marginal price *)
Theorem C31_payment o : sane o -> payment o 0 = 0 /\ forall t, 0 < depth o (- t) -> derivable_pt_lim (payment o) t (/ price_after o (- t)) /\ dxdy o (- t) = Ret (payment o t).
Proof.
  intros H. split; [apply payment_zero|]. intros t Ht. split; [apply payment_derivative; assumption|]. rewrite dxdy_value by (try assumption; lra). rewrite Ropp_involutive. reflexivity.
Qed.
Print Assumptions C31_payment.
Theorem C31_equal_prices_optimal os sub t t' : good_subset os sub ->
  (forall i, In i sub -> 0 < depth (nth i os (mkX 0 0 0 0)) (- t i)) -> (forall i, In i sub -> 0 < depth (nth i os (mkX 0 0 0 0)) (- t' i)) ->
  (forall i j, In i sub -> In j sub -> price_after (nth i os (mkX 0 0 0 0)) (- t i) = price_after (nth j os (mkX 0 0 0 0)) (- t j)) ->
  total t sub <= total t' sub ->
  total (fun i => payment (nth i os (mkX 0 0 0 0)) (t i)) sub <= total (fun i => payment (nth i os (mkX 0 0 0 0)) (t' i)) sub.
Proof. exact (equal_prices_optimal os sub t t'). Qed.
Print Assumptions C31_equal_prices_optimal.
Theorem C31_equal_prices_optimal_source os sub t t' : good_subset os sub ->
  (forall i, In i sub -> 0 < depth (nth i os (mkX 0 0 0 0)) (- t i)) -> (forall i, In i sub -> 0 < depth (nth i os (mkX 0 0 0 0)) (- t' i)) ->
  (forall i j, In i sub -> In j sub -> price_after (nth i os (mkX 0 0 0 0)) (- t i) = price_after (nth j os (mkX 0 0 0 0)) (- t j)) ->
  total (fun i => payment (nth i os (mkX 0 0 0 0)) (t' i)) sub <= total (fun i => payment (nth i os (mkX 0 0 0 0)) (t i)) sub ->
  total t' sub <= total t sub.
Proof. exact (equal_prices_optimal_src os sub t t'). Qed.
Print Assumptions C31_equal_prices_optimal_source.
(** ** C67 *)
Theorem C67_match_optimal_target fuel infuel os level A check sp :
  (forall i, usable os level i -> sane (nth i os (mkX 0 0 0 0))) -> (forall i, In i level -> (i < length os)%nat) -> (length os < fuel)%nat -> (length os + 1 < infuel)%nat -> 0 < A ->
  (exists l t, NoDup l /\ (forall i, In i l -> usable os level i /\ 0 <= t i <= xo_y (nth i os (mkX 0 0 0 0))) /\ A <= total t l) ->
  exists acts, exact_match fuel infuel os (- A) true check level sp = Some (Ret acts) /\ rsum (map ac_output acts) = - A /\
    (forall a, In a acts -> - xo_y (nth (ac_index a) os (mkX 0 0 0 0)) <= ac_output a < 0) /\
    forall l t, NoDup l -> (forall i, In i l -> usable os level i /\ 0 <= t i <= xo_y (nth i os (mkX 0 0 0 0))) -> A <= total t l ->
      rsum (map ac_input acts) <= total (fun i => payment (nth i os (mkX 0 0 0 0)) (t i)) l.
Proof. exact (match_optimal_target fuel infuel os level A check sp). Qed.
Print Assumptions C67_match_optimal_target.
Theorem C67_match_optimal_source fuel infuel os level A check sp :
  (forall i, usable os level i -> sane (nth i os (mkX 0 0 0 0))) -> (length os < fuel)%nat -> (length os + 1 < infuel)%nat -> 0 < A ->
  (exists l t, NoDup l /\ (forall i, In i l -> usable os level i /\ 0 <= t i <= xo_y (nth i os (mkX 0 0 0 0))) /\ A <= total (fun i => payment (nth i os (mkX 0 0 0 0)) (t i)) l) ->
  exists acts, exact_match fuel infuel os A false check level sp = Some (Ret acts) /\ rsum (map ac_input acts) = A /\
    (forall a, In a acts -> - xo_y (nth (ac_index a) os (mkX 0 0 0 0)) <= ac_output a < 0) /\
    forall l t, NoDup l -> (forall i, In i l -> usable os level i /\ 0 <= t i <= xo_y (nth i os (mkX 0 0 0 0))) -> total (fun i => payment (nth i os (mkX 0 0 0 0)) (t i)) l <= A ->
      total t l <= - rsum (map ac_output acts).
Proof. exact (match_optimal_src fuel infuel os level A check sp). Qed.
Print Assumptions C67_match_optimal_source.
(** the book of the example can serve 1 of target, and 1/2 of source *)
Example C67_ex : exists l t, NoDup l /\ (forall i, In i l -> usable ex_book [] i /\ 0 <= t i <= xo_y (nth i ex_book (mkX 0 0 0 0))) /\ 1 <= total t l /\
  1 / 2 <= total (fun i => payment (nth i ex_book (mkX 0 0 0 0)) (t i)) l.
Proof.
  exists [0; 1]%nat, (fun _ => 1 / 2). split; [repeat constructor; cbn; intuition congruence|]. split.
  - intros i [<-|[<-|[]]]; (split; [repeat split; [cbn; lia|left; reflexivity|cbn; lra]|cbn; lra]).
  - unfold total, payment, depth. cbn. split; [lra|]. match goal with |- _ <= ?t => replace t with (2 / 3 + 16 / 15) by field end. lra.
Qed.
(** both splits of the example serve 1; the equal-price one is cheaper *)
Example C31_ex_cost : total (fun i => payment (nth i ex_book (mkX 0 0 0 0)) (if Nat.eqb i 0 then 2 / 3 else 1 / 3)) [0; 1]%nat = 5 / 3 /\
  total (fun i => payment (nth i ex_book (mkX 0 0 0 0)) (1 / 2)) [0; 1]%nat = 26 / 15.
Proof. unfold total, payment, depth. cbn. split; field. Qed.

(** ** C32 *)
Theorem C32_terminates os split x by_target check level support_partial :
  exists r, forall fuel infuel, (length os < fuel)%nat -> (length os + 1 < infuel)%nat -> match_with fuel infuel os split x by_target check level support_partial = Some r.
Proof. exact (match_terminates os split x by_target check level support_partial). Qed.
Print Assumptions C32_terminates.
Theorem C32_bounded fuel infuel os split x by_target check level support_partial acts :
  match_with fuel infuel os split x by_target check level support_partial = Some (Ret acts) ->
  NoDup (map ac_index acts) /\
  (forall a, In a acts -> usable os level (ac_index a) /\ ac_output a <> 0 /\ 0 <= xo_y (nth (ac_index a) os (mkX 0 0 0 0)) + ac_output a /\
    dxdy (nth (ac_index a) os (mkX 0 0 0 0)) (ac_output a) = Ret (ac_input a)) /\
  (support_partial = false ->
    Rabs (x / (if by_target then rsum (map ac_output acts) else rsum (map ac_input acts)) - 1) < 5 / 100 /\ (by_target = false -> x <= rsum (map ac_input acts))).
Proof. exact (match_bounded fuel infuel os split x by_target check level support_partial acts). Qed.
Print Assumptions C32_bounded.
(** ** C68 *)
Theorem C68_rejected_target fuel infuel os level A :
  (forall i, usable os level i -> sane (nth i os (mkX 0 0 0 0))) -> NoDup level -> (forall i, In i level -> (i < length os)%nat) -> 0 < A ->
  (forall l t, NoDup l -> (forall i, In i l -> usable os level i /\ 0 <= t i <= xo_y (nth i os (mkX 0 0 0 0))) -> total t l < A) ->
  exact_match fuel infuel os (- A) true true level false = Some (Raise AssertionError).
Proof. exact (target_rejected fuel infuel os level A). Qed.
Print Assumptions C68_rejected_target.
Theorem C68_rejected_source fuel infuel os level A check :
  (forall i, usable os level i -> sane (nth i os (mkX 0 0 0 0))) -> (exists i, usable os level i) -> (length os < fuel)%nat -> (length os + 1 < infuel)%nat -> 0 < A ->
  (forall l t, NoDup l -> (forall i, In i l -> usable os level i /\ 0 <= t i <= xo_y (nth i os (mkX 0 0 0 0))) -> total (fun i => payment (nth i os (mkX 0 0 0 0)) (t i)) l < A) ->
  exact_match fuel infuel os A false check level false = Some (Raise AssertionError).
Proof. exact (src_rejected fuel infuel os level A check). Qed.
Print Assumptions C68_rejected_source.
Theorem C68_drained_target fuel infuel os level A check :
  (forall i, usable os level i -> sane (nth i os (mkX 0 0 0 0))) -> (forall i, In i level -> (i < length os)%nat) -> (exists i, usable os level i) -> (length os < fuel)%nat -> (length os + 1 < infuel)%nat -> 0 < A ->
  (forall l t, NoDup l -> (forall i, In i l -> usable os level i /\ 0 <= t i <= xo_y (nth i os (mkX 0 0 0 0))) -> total t l < A) ->
  exists acts, exact_match fuel infuel os (- A) true check level true = Some (Ret acts) /\
    forall i, usable os level i -> exists a, In a acts /\ ac_index a = i /\ ac_output a = - xo_y (nth i os (mkX 0 0 0 0)).
Proof.
  intros Hs Hin Hu Hf Hi HA Hinf. apply (partial_fill true fuel infuel os level A check); try assumption; [intros; apply Hin; assumption|].
  intros l t N U. unfold serves. rewrite (total_ext _ t) by (intros; ring). apply Hinf; assumption.
Qed.
Print Assumptions C68_drained_target.
Theorem C68_drained_source fuel infuel os level A check :
  (forall i, usable os level i -> sane (nth i os (mkX 0 0 0 0))) -> (exists i, usable os level i) -> (length os < fuel)%nat -> (length os + 1 < infuel)%nat -> 0 < A ->
  (forall l t, NoDup l -> (forall i, In i l -> usable os level i /\ 0 <= t i <= xo_y (nth i os (mkX 0 0 0 0))) -> total (fun i => payment (nth i os (mkX 0 0 0 0)) (t i)) l < A) ->
  exists acts, exact_match fuel infuel os A false check level true = Some (Ret acts) /\
    forall i, usable os level i -> exists a, In a acts /\ ac_index a = i /\ ac_output a = - xo_y (nth i os (mkX 0 0 0 0)).
Proof.
  intros Hs Hu Hf Hi HA Hinf. apply (partial_fill false fuel infuel os level A check); try assumption; [discriminate|].
  intros l t N U. unfold serves. rewrite (total_ext _ (fun i => payment (nth i os (mkX 0 0 0 0)) (t i))) by (intros; rewrite Ropp_involutive; reflexivity). apply Hinf; assumption.
Qed.
Print Assumptions C68_drained_source.
(** no routing of the one-order book can serve 2 *)
Example C68_ex : usable [mkX (1 / 2) 1 1 1] [] 0 /\ sane (mkX (1 / 2) 1 1 1) /\
  forall l t, NoDup l -> (forall i, In i l -> usable [mkX (1 / 2) 1 1 1] [] i /\ 0 <= t i <= xo_y (nth i [mkX (1 / 2) 1 1 1] (mkX 0 0 0 0))) -> total t l < 2.
Proof.
  split; [repeat split; [cbn; lia|left; reflexivity|cbn; lra]|]. split; [unfold sane; cbn; lra|]. intros l t N U.
  assert (Hl : forall i, In i l -> i = 0%nat) by (intros i Hi; destruct (U i Hi) as [(H & _) _]; cbn in H; lia).
  destruct l as [|a [|b l]].
  - unfold total. cbn. lra.
  - assert (a = 0%nat) by (apply Hl; left; reflexivity). subst a. destruct (U 0%nat (or_introl eq_refl)) as [_ H]. unfold total. cbn in *. lra.
  - exfalso. inversion N as [|? ? Hn _]. apply Hn. rewrite (Hl a), (Hl b); [left; reflexivity|right; left; reflexivity|left; reflexivity].
Qed.
(** a whole match with an arbitrary split: everything is taken from the only order *)
Example C32_ex_match : match_with 3 4 [mkX (1 / 2) 1 1 1] (fun _ dx _ => Ret dx) (-1) true false [] false = Some (Ret [mkAction 0 2 (-1) (0 + 2) (0 + -1)]).
Proof.
  cbn -[Rmult Rplus Rminus Ropp Rdiv Rinv Rabs dxdy rdiv rlt rle req rsum]. rewrite !req_false by lra. cbn -[Rmult Rplus Rminus Ropp Rdiv Rinv Rabs dxdy rdiv rlt rle req rsum].
  unfold rsum. cbn [fold_right map]. rewrite (rle_true (-1 - 0)) by lra. cbn -[Rmult Rplus Rminus Ropp Rdiv Rinv Rabs dxdy rdiv rlt rle req].
  rewrite rlt_false by lra. cbn -[Rmult Rplus Rminus Ropp Rdiv Rinv Rabs dxdy rdiv rlt rle req]. rewrite (req_false (-1 - 0)) by lra. cbn -[Rmult Rplus Rminus Ropp Rdiv Rinv Rabs dxdy rdiv rlt rle req].
  unfold dxdy, getx. cbn [nth xo_n xo_x0 xo_y0 xo_y]. rewrite rdiv_ok by lra. cbn [rbind]. rewrite rdiv_ok by lra. cbn [rbind].
  replace (-1 / (-1 - 0 + 0) - 1) with 0 by (field; lra). rewrite Rabs_R0, rlt_false by lra. cbn [andb negb].
  match goal with |- context [actions 0 0 [(0%nat, ?i, ?o)]] => replace i with 2 by (field; lra); replace o with (-1) by ring end. reflexivity.
Qed.
