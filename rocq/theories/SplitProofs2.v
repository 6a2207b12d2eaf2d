From Coq Require Import Reals Lra Lia Bool List Arith Permutation.
From Verif Require Import CurveModel CurveProofs OrderModel ExactModel ExactSpec ExactProofs ExactProofs2 ExactProofs3 ExactProofs4 ExactProofs5 ExactProofs6 SplitSpec SplitProofs.
Import ListNotations.
Local Open Scope R_scope.

Lemma total_minus f g l : total (fun i => f i - g i) l = total f l - total g l.
Proof. unfold total. induction l as [|a l IH]; cbn [map fold_right]; [ring|]. rewrite IH. ring. Qed.
(** the book left by a match at level [lam] *)
Record left_by b os level lam A (v : nat -> R) (os1 : list xorder) : Prop := {
  lb_sane : all_sane os level; lb_lam : 0 < lam;
  lb_v : forall i, usable os level i -> v i = clamp lam (getx os i); lb_0 : forall i, ~ usable os level i -> v i = 0;
  lb_A : total (fun i => serves b (getx os i) (v i)) (eligible os level) = A;
  lb_len : length os1 = length os; lb_get : forall i, (i < length os)%nat -> getx os1 i = with_balance (getx os i) (xo_y (getx os i) + v i) }.
Lemma left_usable b os level lam A v os1 i : left_by b os level lam A v os1 -> (usable os1 level i <-> usable os level i /\ xo_y (getx os i) + v i <> 0).
Proof.
  intros H. unfold usable. rewrite (lb_len _ _ _ _ _ _ _ H). fold (getx os i) (getx os1 i). split.
  - intros (L & Lv & N). rewrite (lb_get _ _ _ _ _ _ _ H i L) in N. cbn in N. split; [|exact N]. repeat split; try assumption. intro Z.
    apply N. rewrite (lb_0 _ _ _ _ _ _ _ H i); [lra|]. intros (_ & _ & K). fold (getx os i) in K. contradiction.
  - intros [(L & Lv & N) N2]. repeat split; try assumption. rewrite (lb_get _ _ _ _ _ _ _ H i L). exact N2.
Qed.
Lemma left_bounds b os level lam A v os1 i : left_by b os level lam A v os1 -> usable os level i -> - xo_y (getx os i) <= v i <= 0.
Proof. intros H U. rewrite (lb_v _ _ _ _ _ _ _ H i U). apply clamp_bounds. apply (lb_sane _ _ _ _ _ _ _ H i U). Qed.
Lemma left_sane b os level lam A v os1 : left_by b os level lam A v os1 -> all_sane os1 level.
Proof.
  intros H i U. apply (left_usable _ _ _ _ _ _ _ _ H) in U as [U _]. rewrite (lb_get _ _ _ _ _ _ _ H i) by apply U. apply sane_with; [apply (lb_sane _ _ _ _ _ _ _ H i U)|].
  pose proof (left_bounds _ _ _ _ _ _ _ _ H U). lra.
Qed.
Lemma left_full b os level lam A v os1 : left_by b os level lam A v os1 -> total (full b os1) (eligible os1 level) = total (full b os) (eligible os level) - A.
Proof.
  intros H. rewrite <- (total_subset (full b os1) (eligible os1 level) (eligible os level)).
  - rewrite <- (lb_A _ _ _ _ _ _ _ H), <- total_minus. apply total_ext. intros i Hi. apply in_eligible in Hi. unfold full. rewrite (lb_get _ _ _ _ _ _ _ H i) by apply Hi. cbn [with_balance xo_y].
    pose proof (left_bounds _ _ _ _ _ _ _ _ H Hi) as B. assert (S := lb_sane _ _ _ _ _ _ _ H i Hi). fold (getx os i) in S.
    pose proof (serves_parts b (getx os i) (v i) (- (xo_y (getx os i) + v i)) S ltac:(lra) ltac:(lra)) as E. replace (v i + - (xo_y (getx os i) + v i)) with (- xo_y (getx os i)) in E by ring. unfold with_balance in *. lra.
  - apply eligible_nodup.
  - apply eligible_nodup.
  - intros i Hi. apply in_eligible in Hi. apply in_eligible. apply (left_usable _ _ _ _ _ _ _ _ H) in Hi. apply Hi.
  - intros i Hi N. apply in_eligible in Hi. destruct (Req_dec (xo_y (getx os i) + v i) 0) as [Z|Z].
    + unfold full. rewrite (lb_get _ _ _ _ _ _ _ H i) by apply Hi. cbn [with_balance xo_y]. rewrite Z, Ropp_0. apply serves_zero.
    + exfalso. apply N. apply in_eligible. apply (left_usable _ _ _ _ _ _ _ _ H). tauto.
Qed.
(** two parts have the level of the second *)
Lemma two_levels b os level lam A1 v os1 mu A2 w : left_by b os level lam A1 v os1 -> 0 < A2 ->
  (forall i, usable os1 level i -> w i = clamp mu (getx os1 i)) -> (forall i, ~ usable os1 level i -> w i = 0) -> total (fun i => serves b (getx os1 i) (w i)) (eligible os1 level) = A2 ->
  (forall i, usable os level i -> v i + w i = clamp mu (getx os i)) /\ (forall i, ~ usable os level i -> v i + w i = 0) /\
  total (fun i => serves b (getx os i) (v i + w i)) (eligible os level) = A1 + A2.
Proof.
  intros H A2p W W0 T. assert (Lm : mu <= lam).
  { apply Rnot_lt_le. intro L. assert (Z : total (fun i => serves b (getx os1 i) (w i)) (eligible os1 level) = 0).
    { apply total_const0. intros i Hi. apply in_eligible in Hi. rewrite (W i Hi). apply (left_usable _ _ _ _ _ _ _ _ H) in Hi as [Hi N]. rewrite (lb_get _ _ _ _ _ _ _ H i) by apply Hi.
      rewrite (lb_v _ _ _ _ _ _ _ H i Hi) in *. rewrite (clamp_idle lam mu (getx os i)); [apply serves_zero|apply (lb_sane _ _ _ _ _ _ _ H i Hi)|exact L|exact N]. }
    lra. }
  assert (C : forall i, usable os level i -> v i + w i = clamp mu (getx os i)).
  { intros i U. assert (S := lb_sane _ _ _ _ _ _ _ H i U). fold (getx os i) in S. destruct (Req_dec (xo_y (getx os i) + v i) 0) as [Z|Z].
    - rewrite (W0 i) by (intro K; apply (left_usable _ _ _ _ _ _ _ _ H) in K; tauto). rewrite (lb_v _ _ _ _ _ _ _ H i U) in *.
      pose proof (clamp_mono lam mu _ S Lm). pose proof (clamp_bounds mu _ S). lra.
    - rewrite (W i) by (apply (left_usable _ _ _ _ _ _ _ _ H); tauto). rewrite (lb_get _ _ _ _ _ _ _ H i) by apply U. rewrite (lb_v _ _ _ _ _ _ _ H i U). apply clamp_parts; assumption. }
  split; [exact C|]. split.
  { intros i U. rewrite (lb_0 _ _ _ _ _ _ _ H i U), (W0 i); [ring|]. intro K. apply (left_usable _ _ _ _ _ _ _ _ H) in K. tauto. }
  rewrite <- (lb_A _ _ _ _ _ _ _ H), <- T.
  rewrite <- (total_subset (fun i => serves b (getx os1 i) (w i)) (eligible os1 level) (eligible os level)); try apply eligible_nodup.
  - rewrite <- total_plus. apply total_ext. intros i Hi. apply in_eligible in Hi. rewrite (lb_get _ _ _ _ _ _ _ H i) by apply Hi. symmetry. pose proof (left_bounds _ _ _ _ _ _ _ _ H Hi).
    assert (S := lb_sane _ _ _ _ _ _ _ H i Hi). fold (getx os i) in S. apply serves_parts; [exact S|lra|]. rewrite (C i Hi). apply clamp_bounds. exact S.
  - intros i Hi. apply in_eligible in Hi. apply in_eligible. apply (left_usable _ _ _ _ _ _ _ _ H) in Hi. apply Hi.
  - intros i Hi N. rewrite W0; [apply serves_zero|]. intro K. apply N. apply in_eligible. exact K.
Qed.
Lemma settled_get os acts v : (forall i, taken acts i = - v i) -> forall i, (i < length os)%nat -> getx (settled os acts) i = with_balance (getx os i) (xo_y (getx os i) + v i).
Proof. intros H i L. rewrite getx_settled. destruct (lt_dec i (length os)); [|contradiction]. rewrite H. f_equal. ring. Qed.
Section Parts.
Context (b check sp : bool) (fuel infuel : nat) (level : list nat).
Notation exec os A := (exact_match fuel infuel os (amount b A) b check level sp).
Lemma two_parts os A1 A2 : all_sane os level -> (b = true -> forall i, In i level -> (i < length os)%nat) -> (length os < fuel)%nat -> (length os + 1 < infuel)%nat ->
  0 < A1 -> 0 < A2 -> A1 + A2 <= total (full b os) (eligible os level) ->
  exists a1 a2 a, exec os A1 = Some (Ret a1) /\ exec (settled os a1) A2 = Some (Ret a2) /\ exec os (A1 + A2) = Some (Ret a) /\
    all_sane (settled os a1) level /\ A2 <= total (full b (settled os a1)) (eligible (settled os a1) level) /\
    forall i, taken a1 i + taken a2 i = taken a i /\ paid a1 i + paid a2 i = paid a i.
Proof.
  intros Hs Hin Hf Hi H1 H2 Hle.
  destruct (matched b fuel infuel os level A1 check sp Hs Hin Hf Hi H1 ltac:(lra)) as (a1 & lam & v & E1 & L1 & V1 & Z1 & T1 & F1).
  assert (LB : left_by b os level lam A1 v (settled os a1)).
  { constructor; try assumption; [apply settled_length|]. apply settled_get. intros i. apply F1. }
  pose proof (left_sane _ _ _ _ _ _ _ LB) as Hs1. pose proof (left_full _ _ _ _ _ _ _ LB) as Hf1.
  destruct (matched b fuel infuel (settled os a1) level A2 check sp Hs1 ltac:(rewrite settled_length; exact Hin) ltac:(rewrite settled_length; exact Hf) ltac:(rewrite settled_length; exact Hi) H2 ltac:(lra)) as (a2 & mu & w & E2 & L2 & V2 & Z2 & T2 & F2).
  destruct (matched b fuel infuel os level (A1 + A2) check sp Hs Hin Hf Hi ltac:(lra) Hle) as (a & nu & u & E3 & L3 & V3 & Z3 & T3 & F3).
  destruct (two_levels _ _ _ _ _ _ _ mu A2 w LB H2 V2 Z2 T2) as (C & C0 & CT).
  exists a1, a2, a. split; [exact E1|]. split; [exact E2|]. split; [exact E3|]. split; [exact Hs1|]. split; [lra|].
  assert (U : forall i, v i + w i = u i).
  { intros i. destruct (in_dec Nat.eq_dec i (eligible os level)) as [K|K].
    - apply in_eligible in K. rewrite (C i K), (V3 i K).
      assert (T : total (fun i => serves b (getx os i) (clamp mu (getx os i))) (eligible os level) = total (fun i => serves b (getx os i) (clamp nu (getx os i))) (eligible os level)).
      { transitivity (A1 + A2); [rewrite <- CT|rewrite <- T3]; apply total_ext; intros j Hj; apply in_eligible in Hj; [rewrite C by exact Hj|rewrite V3 by exact Hj]; reflexivity. }
      destruct (Rle_dec mu nu) as [L|L]; [symmetry; apply (one_level b os level nu mu); try assumption; symmetry; exact T|]. apply (one_level b os level mu nu); try assumption. lra.
    - assert (N : ~ usable os level i) by (intro Q; apply K, in_eligible; exact Q). rewrite (C0 i N), (Z3 i N). reflexivity. }
  intros i. destruct (F1 i) as [P1 Q1], (F2 i) as [P2 Q2], (F3 i) as [P3 Q3]. rewrite P1, P2, P3, Q1, Q2, Q3, <- U. split; [ring|].
  destruct (lt_dec i (length os)) as [Li|Li].
  - destruct (in_dec Nat.eq_dec i (eligible os level)) as [K|K].
    + apply in_eligible in K. rewrite (settled_get os a1 v) by (try assumption; intros; apply F1). pose proof (serves_parts false (getx os i) (v i) (w i) (Hs i K) ltac:(apply (left_bounds _ _ _ _ _ _ _ _ LB K)) ltac:(rewrite (C i K); apply clamp_bounds; apply (Hs i K))) as S. exact S.
    + assert (N : ~ usable os level i) by (intro Q; apply K, in_eligible; exact Q). rewrite (Z1 i N). rewrite (Z2 i) by (intro Q; apply (left_usable _ _ _ _ _ _ _ _ LB) in Q; tauto). rewrite Rplus_0_r, Ropp_0, !payment_zero. ring.
  - assert (N : ~ usable os level i) by (intros (Q & _); contradiction). rewrite (Z1 i N). rewrite (Z2 i) by (intro Q; apply (left_usable _ _ _ _ _ _ _ _ LB) in Q; tauto). rewrite Rplus_0_r, Ropp_0, !payment_zero. ring.
Qed.
Lemma settled_twice os a1 a2 a : (forall i, taken a1 i + taken a2 i = taken a i) -> settled (settled os a1) a2 = settled os a.
Proof.
  intros H. unfold settled at 1. rewrite settled_length. unfold settled at 3. apply map_ext_in. intros i Hi. apply in_seq in Hi. fold (getx (settled os a1) i) (getx os i). rewrite getx_settled.
  destruct (lt_dec i (length os)) as [L|L]; [|lia]. unfold with_balance. cbn. f_equal. rewrite <- H. ring.
Qed.
Lemma parts_of As : forall os, all_sane os level -> (b = true -> forall i, In i level -> (i < length os)%nat) -> (length os < fuel)%nat -> (length os + 1 < infuel)%nat ->
  As <> [] -> Forall (fun A => 0 < A) As -> fold_right Rplus 0 As <= total (full b os) (eligible os level) ->
  exists a, exec os (fold_right Rplus 0 As) = Some (Ret a) /\ (exists cost, in_parts fuel infuel b check level sp os As (settled os a) cost) /\
    forall os' cost, in_parts fuel infuel b check level sp os As os' cost -> os' = settled os a /\ forall i, cost i = paid a i.
Proof.
  induction As as [|A1 As IH]; intros os Hs Hin Hf Hi Ne Hp Hle; [congruence|]. inversion Hp as [|? ? P1 P2]; subst. destruct As as [|A2 As].
  - cbn [fold_right] in *. rewrite Rplus_0_r in *. destruct (matched b fuel infuel os level A1 check sp Hs Hin Hf Hi P1 Hle) as (a & _ & _ & E & _). exists a. split; [exact E|]. split.
    + eexists. eapply parts_more; [exact E|constructor].
    + intros os' cost K. inversion K as [|? ? acts ? ? c E' K']; subst. inversion K'; subst. change (request_of b A1) with (amount b A1) in E'. rewrite E in E'. injection E' as <-. split; [reflexivity|]. intros i. ring.
  - set (rest := A2 :: As) in *. assert (R0 : 0 < fold_right Rplus 0 rest).
    { unfold rest. cbn [fold_right]. inversion P2 as [|? ? Q1 Q2]; subst. assert (0 <= fold_right Rplus 0 As); [|lra]. clear - Q2. induction Q2; cbn [fold_right]; lra. }
    cbn [fold_right] in *. destruct (two_parts os A1 (fold_right Rplus 0 rest) Hs Hin Hf Hi P1 R0 Hle) as (a1 & a2 & a & E1 & E2 & E3 & Hs1 & Hle1 & F).
    exists a. split; [exact E3|].
    destruct (IH (settled os a1) Hs1 ltac:(rewrite settled_length; exact Hin) ltac:(rewrite settled_length; exact Hf) ltac:(rewrite settled_length; exact Hi) ltac:(discriminate) P2 Hle1) as (a2' & E2' & (cost & K) & Un).
    rewrite E2 in E2'. injection E2' as <-. rewrite <- (settled_twice os a1 a2 a) by (intros; apply F). split.
    + eexists. eapply parts_more; [exact E1|exact K].
    + intros os' c K'. inversion K' as [|? ? acts ? ? c' E' K'']; subst. change (request_of b A1) with (amount b A1) in E'. rewrite E1 in E'. injection E' as <-. destruct (Un _ _ K'') as [-> Hc]. split; [reflexivity|]. intros i. rewrite Hc. apply F.
Qed.
End Parts.
Lemma servable_full b os level A : all_sane os level -> servable os level b A -> A <= total (full b os) (eligible os level).
Proof.
  intros Hs (l & t & N & U & T). eapply Rle_trans; [exact T|]. destruct b.
  - eapply Rle_trans; [apply (feasible_total os level l t (fun _ u => u)); try assumption; intros; lra|]. right. apply total_ext. intros i _. unfold full, serves. ring.
  - eapply Rle_trans; [apply (feasible_total os level l t (fun i => payment (getx os i))); try assumption; intros; [apply payment_zero|apply payment_mono; [apply Hs; assumption|assumption|assumption]]|]. right. apply total_ext. intros i _. unfold full, serves. rewrite Ropp_involutive. reflexivity.
Qed.
