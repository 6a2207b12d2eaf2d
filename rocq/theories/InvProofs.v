(** Proofs about requests by target and by source to the exact router, for C162. *)
From Coq Require Import Reals Lra Lia Bool List Arith Permutation.
From Verif Require Import CurveModel CurveProofs OrderModel ExactModel ExactSpec ExactProofs ExactProofs2 ExactProofs3 ExactProofs4 ExactProofs5 ExactProofs6 SplitSpec SplitProofs SplitProofs2 SplitProofs3.
Import ListNotations.
Local Open Scope R_scope.

(** the two totals of a match *)
Lemma sums b fuel infuel os level A check sp acts v : exact_match fuel infuel os (amount b A) b check level sp = Some (Ret acts) -> (forall i, ~ usable os level i -> v i = 0) ->
  (forall i, taken acts i = - v i /\ paid acts i = payment (getx os i) (- v i)) ->
  fold_right Rplus 0 (map ac_input acts) = total (fun i => serves false (getx os i) (v i)) (eligible os level) /\
  - fold_right Rplus 0 (map ac_output acts) = total (fun i => serves true (getx os i) (v i)) (eligible os level).
Proof.
  intros E Z F. pose proof (in_bounds _ _ _ _ _ _ _ _ _ E) as Bd.
  assert (All : forall g : nat -> R, (forall i, v i = 0 -> g i = 0) -> total g (seq 0 (length os)) = total g (eligible os level)).
  { intros g G. apply total_subset; [apply eligible_nodup|apply seq_NoDup| |].
    - intros i Hi'. apply in_eligible in Hi' as (L & _). apply in_seq. lia.
    - intros i _ N. apply G, Z. intro K. apply N, in_eligible. exact K. }
  split.
  - rewrite (sum_by_order ac_input acts (length os) Bd). rewrite (total_ext _ (fun i => serves false (getx os i) (v i))) by (intros i _; apply F). apply All. intros i W. rewrite W. apply serves_zero.
  - transitivity (fold_right Rplus 0 (map (fun a => - ac_output a) acts)). { clear. induction acts as [|a l IH]; cbn [map fold_right]; [ring|]. rewrite <- IH. ring. }
    rewrite (sum_by_order (fun a => - ac_output a) acts (length os) Bd). rewrite (total_ext _ (fun i => serves true (getx os i) (v i))) by (intros i _; apply F). apply All. intros i W. rewrite W. apply serves_zero.
Qed.
Lemma serves_depth b o v : sane o -> - xo_y o <= v -> b = true \/ 0 < depth o v.
Proof. intros H L. right. rewrite <- (Ropp_involutive v). apply depth_left; [assumption|lra]. Qed.
Lemma serves_nonneg b o v : sane o -> - xo_y o <= v <= 0 -> 0 <= serves b o v.
Proof. intros H [L1 L2]. rewrite <- (serves_zero b o). apply serves_le; [assumption|apply serves_depth; assumption|assumption]. Qed.
Lemma other_positive b os level v : all_sane os level -> (forall i, usable os level i -> - xo_y (getx os i) <= v i <= 0) ->
  0 < total (fun i => serves b (getx os i) (v i)) (eligible os level) -> 0 < total (fun i => serves (negb b) (getx os i) (v i)) (eligible os level).
Proof.
  intros Hs Hv H. assert (N : forall i, In i (eligible os level) -> 0 <= serves (negb b) (getx os i) (v i)) by (intros i Hi; apply in_eligible in Hi; apply serves_nonneg; [apply Hs|apply Hv]; assumption).
  destruct (Rle_lt_or_eq_dec _ _ (total_nonneg _ _ N)) as [L|E]; [exact L|]. exfalso.
  assert (Z : forall i, In i (eligible os level) -> 0 = serves (negb b) (getx os i) (v i)) by (apply total_equal; [exact N|rewrite <- E; apply total_const0; reflexivity]).
  assert (T : total (fun i => serves b (getx os i) (v i)) (eligible os level) = 0); [|lra]. apply total_const0. intros i Hi. pose proof (Z i Hi) as Zi. apply in_eligible in Hi. assert (S := Hs i Hi). fold (getx os i) in S. destruct (Hv i Hi) as [L1 L2].
  destruct L2 as [L2|L2]; [|rewrite L2; apply serves_zero]. pose proof (serves_lt (negb b) (getx os i) (v i) 0 S (serves_depth _ _ _ S L1) L2) as P. rewrite serves_zero in P. lra.
Qed.
Lemma any_levels b os level lam mu : all_sane os level -> total (fun i => serves b (getx os i) (clamp lam (getx os i))) (eligible os level) = total (fun i => serves b (getx os i) (clamp mu (getx os i))) (eligible os level) ->
  forall i, usable os level i -> clamp lam (getx os i) = clamp mu (getx os i).
Proof.
  intros Hs E i U. destruct (Rle_lt_dec mu lam) as [L|L]; [apply (one_level b os level lam mu); assumption|]. symmetry. apply (one_level b os level mu lam); [assumption|lra|symmetry; assumption|assumption].
Qed.
(** what one request costs is the request of the other kind that is filled in the same way *)
Lemma inverse b fuel infuel os level A check sp : all_sane os level -> (forall i, In i level -> (i < length os)%nat) -> (length os < fuel)%nat -> (length os + 1 < infuel)%nat ->
  0 < A -> A <= total (full b os) (eligible os level) ->
  exists acts acts' C, exact_match fuel infuel os (amount b A) b check level sp = Some (Ret acts) /\
    C = (if b then fold_right Rplus 0 (map ac_input acts) else - fold_right Rplus 0 (map ac_output acts)) /\ 0 < C /\
    exact_match fuel infuel os (amount (negb b) C) (negb b) check level sp = Some (Ret acts') /\ forall i, taken acts' i = taken acts i /\ paid acts' i = paid acts i.
Proof.
  intros Hs Hin Hf Hi HA Hle. destruct (matched b fuel infuel os level A check sp Hs (fun _ => Hin) Hf Hi HA Hle) as (acts & lam & v & E & L & V & Z & T & F).
  destruct (sums _ _ _ _ _ _ _ _ _ _ E Z F) as [S1 S2]. set (C := total (fun i => serves (negb b) (getx os i) (v i)) (eligible os level)).
  assert (VB : forall i, usable os level i -> - xo_y (getx os i) <= v i <= 0) by (intros i U; rewrite (V i U); apply clamp_bounds; apply Hs; assumption).
  assert (CE : C = (if b then fold_right Rplus 0 (map ac_input acts) else - fold_right Rplus 0 (map ac_output acts))) by (unfold C; destruct b; cbn [negb]; congruence).
  assert (CP : 0 < C) by (apply (other_positive b os level v); [assumption|assumption|lra]).
  assert (CF : C <= total (full (negb b) os) (eligible os level)).
  { apply total_le. intros i Hi'. apply in_eligible in Hi'. unfold full. assert (S := Hs i Hi'). fold (getx os i) in S. apply serves_le; [exact S|apply serves_depth; [exact S|lra]|apply VB; assumption]. }
  destruct (matched (negb b) fuel infuel os level C check sp Hs (fun _ => Hin) Hf Hi CP CF) as (acts' & mu & w & E' & L' & W & Z' & T' & F').
  exists acts, acts', C. split; [exact E|]. split; [exact CE|]. split; [exact CP|]. split; [exact E'|].
  assert (VW : forall i, w i = v i).
  { intros i. destruct (in_dec Nat.eq_dec i (eligible os level)) as [I|I].
    - apply in_eligible in I. rewrite (W i I), (V i I). apply (any_levels (negb b) os level); [assumption| |assumption].
      transitivity C; [rewrite <- T'|unfold C]; apply total_ext; intros j J; apply in_eligible in J; [rewrite (W j J)|rewrite (V j J)]; reflexivity.
    - rewrite Z', Z by (rewrite <- in_eligible; exact I). reflexivity. }
  intros i. destruct (F i) as [-> ->]. destruct (F' i) as [-> ->]. rewrite VW. split; reflexivity.
Qed.
(** larger requests take more of every order *)
Lemma monotone b fuel infuel os level A A' check sp : all_sane os level -> (b = true -> forall i, In i level -> (i < length os)%nat) -> (length os < fuel)%nat -> (length os + 1 < infuel)%nat ->
  0 < A <= A' -> A' <= total (full b os) (eligible os level) ->
  exists acts acts', exact_match fuel infuel os (amount b A) b check level sp = Some (Ret acts) /\ exact_match fuel infuel os (amount b A') b check level sp = Some (Ret acts') /\
    forall i, 0 <= taken acts i <= taken acts' i /\ 0 <= paid acts i <= paid acts' i.
Proof.
  intros Hs Hin Hf Hi [HA HAA] Hle. destruct (matched b fuel infuel os level A check sp Hs Hin Hf Hi HA ltac:(lra)) as (acts & lam & v & E & L & V & Z & T & F).
  destruct (matched b fuel infuel os level A' check sp Hs Hin Hf Hi ltac:(lra) Hle) as (acts' & mu & w & E' & L' & W & Z' & T' & F'). exists acts, acts'. split; [exact E|]. split; [exact E'|].
  assert (X : forall i, usable os level i -> w i <= v i).
  { destruct (Rle_lt_dec mu lam) as [M|M]; [intros i U; rewrite (V i U), (W i U); apply clamp_mono; [apply Hs; assumption|assumption]|].
    assert (Y : forall i, usable os level i -> v i <= w i) by (intros i U; rewrite (V i U), (W i U); apply clamp_mono; [apply Hs; assumption|lra]).
    assert (G : total (fun i => serves b (getx os i) (w i)) (eligible os level) <= total (fun i => serves b (getx os i) (v i)) (eligible os level)).
    { apply total_le. intros i Hi'. apply in_eligible in Hi'. assert (S := Hs i Hi'). fold (getx os i) in S. apply serves_le; [exact S| |apply Y; assumption]. apply serves_depth; [exact S|]. rewrite (V i Hi'). apply clamp_bounds. exact S. }
    intros i U. rewrite (V i U), (W i U). right. symmetry. apply (any_levels b os level); [assumption| |assumption].
    transitivity A; [rewrite <- T|transitivity A'; [lra|rewrite <- T']]; apply total_ext; intros j J; apply in_eligible in J; [rewrite (V j J)|rewrite (W j J)]; reflexivity. }
  intros i. destruct (F i) as [-> ->]. destruct (F' i) as [-> ->]. destruct (in_dec Nat.eq_dec i (eligible os level)) as [I|I].
  - apply in_eligible in I. assert (S := Hs i I). fold (getx os i) in S. pose proof (X i I). pose proof (clamp_bounds lam _ S) as B. rewrite <- (V i I) in B. pose proof (clamp_bounds mu _ S) as B'. rewrite <- (W i I) in B'.
    split; [lra|]. split; [rewrite <- (payment_zero (getx os i))|]; apply payment_mono; try exact S; lra.
  - rewrite Z', Z by (rewrite <- in_eligible; exact I). rewrite Ropp_0, payment_zero. lra.
Qed.
(** a fraction of a fill costs at most that fraction *)
Lemma payment_fraction o s t : sane o -> 0 <= s <= 1 -> 0 <= t <= xo_y o -> payment o (s * t) <= s * payment o t.
Proof.
  intros H Hs Ht. assert (ST : 0 <= s * t <= t). { split; [apply Rmult_le_pos; lra|]. rewrite <- (Rmult_1_l t) at 2. apply Rmult_le_compat_r; lra. }
  pose proof (depth0_pos _ H) as D0. assert (D1 : 0 < depth o (- t)) by (apply depth_left; [assumption|lra]). assert (D2 : depth o (- t) <= depth o (- (s * t))).
  { destruct H as (N & _). unfold depth. assert (xo_n o * - t <= xo_n o * - (s * t)) by (apply Rmult_le_compat_l; lra). lra. }
  unfold payment. replace (s * (xo_x0 o * xo_y0 o * t / (depth o 0 * depth o (- t)))) with (xo_x0 o * xo_y0 o * (s * t) * / (depth o 0 * depth o (- t))) by (unfold Rdiv; ring).
  unfold Rdiv. apply Rmult_le_compat_l.
  - destruct H as (_ & X & Y & _). apply Rmult_le_pos; [apply Rlt_le, Rmult_lt_0_compat; assumption|lra].
  - apply Rinv_le_contravar; [apply Rmult_lt_0_compat; assumption|]. apply Rmult_le_compat_l; lra.
Qed.
(** larger requests are served at a worse average price *)
Lemma average b fuel infuel os level A A' check sp acts acts' : all_sane os level -> (b = true -> forall i, In i level -> (i < length os)%nat) -> (length os < fuel)%nat -> (length os + 1 < infuel)%nat ->
  0 < A <= A' -> A' <= total (full b os) (eligible os level) ->
  exact_match fuel infuel os (amount b A) b check level sp = Some (Ret acts) -> exact_match fuel infuel os (amount b A') b check level sp = Some (Ret acts') ->
  fold_right Rplus 0 (map ac_input acts) * - fold_right Rplus 0 (map ac_output acts') <= fold_right Rplus 0 (map ac_input acts') * - fold_right Rplus 0 (map ac_output acts).
Proof.
  intros Hs Hin Hf Hi [HA HAA] Hle E0 E0'.
  destruct (matched b fuel infuel os level A check sp Hs Hin Hf Hi HA ltac:(lra)) as (a & lam & v & E & L & V & Z & T & F). rewrite E0 in E. injection E as <-.
  destruct (matched b fuel infuel os level A' check sp Hs Hin Hf Hi ltac:(lra) Hle) as (a' & mu & w & E' & L' & W & Z' & T' & F'). rewrite E0' in E'. injection E' as <-.
  destruct (sums _ _ _ _ _ _ _ _ _ _ E0 Z F) as [S1 S2]. destruct (sums _ _ _ _ _ _ _ _ _ _ E0' Z' F') as [S1' S2']. rewrite S1, S1', S2, S2'.
  set (s := A / A'). assert (Hs1 : 0 < s <= 1).
  { unfold s. split; [apply Rdiv_lt_0_compat; lra|]. apply (Rmult_le_reg_r A'); [lra|]. unfold Rdiv. rewrite Rmult_assoc, Rinv_l by lra. lra. }
  assert (SA : s * A' = A) by (unfold s; field; lra).
  set (t := fun i => s * - w i).
  assert (TB : forall i, In i (eligible os level) -> usable os level i /\ 0 <= t i <= xo_y (getx os i)).
  { intros i I. apply in_eligible in I. split; [exact I|]. assert (S := Hs i I). fold (getx os i) in S. pose proof (clamp_bounds mu _ S) as B. rewrite <- (W i I) in B. unfold t. split; [apply Rmult_le_pos; lra|].
    apply Rle_trans with (1 * - w i); [apply Rmult_le_compat_r; lra|lra]. }
  pose proof (kkt os level lam v (eligible os level) t Hs L V (eligible_nodup _ _) TB) as K.
  assert (PF : total (fun i => payment (getx os i) (t i)) (eligible os level) <= s * total (fun i => payment (getx os i) (- w i)) (eligible os level)).
  { rewrite <- total_scale. apply total_le. intros i I. apply in_eligible in I. assert (S := Hs i I). fold (getx os i) in S. pose proof (clamp_bounds mu _ S) as B. rewrite <- (W i I) in B. unfold t. apply payment_fraction; [exact S|lra|lra]. }
  assert (TT : total t (eligible os level) = s * total (fun i => - w i) (eligible os level)) by (unfold t; apply total_scale). rewrite TT in K.
  change (total (fun i => serves false (getx os i) (v i)) (eligible os level)) with (total (fun i => payment (getx os i) (- v i)) (eligible os level)) in *.
  change (total (fun i => serves false (getx os i) (w i)) (eligible os level)) with (total (fun i => payment (getx os i) (- w i)) (eligible os level)) in *.
  change (total (fun i => serves true (getx os i) (v i)) (eligible os level)) with (total (fun i => - v i) (eligible os level)) in *.
  change (total (fun i => serves true (getx os i) (w i)) (eligible os level)) with (total (fun i => - w i) (eligible os level)) in *.
  set (P := total (fun i => payment (getx os i) (- v i)) (eligible os level)) in *. set (P' := total (fun i => payment (getx os i) (- w i)) (eligible os level)) in *.
  set (G := total (fun i => - v i) (eligible os level)) in *. set (G' := total (fun i => - w i) (eligible os level)) in *. set (TP := total (fun i => payment (getx os i) (t i)) (eligible os level)) in *.
  assert (GN : 0 <= G).
  { unfold G. apply total_nonneg. intros i I. apply in_eligible in I. assert (S := Hs i I). fold (getx os i) in S. pose proof (clamp_bounds lam _ S) as B. rewrite <- (V i I) in B. lra. }
  assert (PN : 0 <= P' ).
  { unfold P'. apply total_nonneg. intros i I. apply in_eligible in I. assert (S := Hs i I). fold (getx os i) in S. pose proof (clamp_bounds mu _ S) as B. rewrite <- (W i I) in B. rewrite <- (payment_zero (getx os i)). apply payment_mono; [exact S|lra|lra]. }
  assert (Q : if b then G = A else P = A) by (destruct b; exact T). assert (Q' : if b then G' = A' else P' = A') by (destruct b; exact T').
  assert (LL : 0 < lam ^ 2) by (apply pow_lt; assumption). clear T T'. rename Q into T, Q' into T'. clearbody P P' G G' TP. clear - K PF T T' SA LL GN PN HA HAA Hs1 b.
  destruct b.
  - assert (K0 : 0 <= TP - P). { replace (s * G' - G) with 0 in K by (rewrite T, T'; lra). unfold Rdiv in K. rewrite Rmult_0_l in K. exact K. }
    assert (PP : P <= s * P') by lra. rewrite T, T', <- SA. replace (P' * (s * A')) with (s * P' * A') by ring. apply Rmult_le_compat_r; lra.
  - assert (K0 : (s * G' - G) / lam ^ 2 <= 0) by (rewrite T' in PF; rewrite T in K; lra).
    assert (GG : s * G' <= G). { apply (Rmult_le_compat_r (lam ^ 2)) in K0; [|lra]. unfold Rdiv in K0. rewrite Rmult_assoc, Rinv_l in K0 by lra. lra. }
    rewrite T, T', <- SA. replace (s * A' * G') with (A' * (s * G')) by ring. apply Rmult_le_compat_l; lra.
Qed.
