(** Theorems about the alpha router (C33, C69, C70). *)
From Coq Require Import Reals Lra Lia Bool List Arith Permutation.
From Verif Require Import CurveModel OrderModel OrderProofs ExactModel ExactSpec ExactProofs AlphaModel AlphaSpec AlphaProofs AlphaProofs2 AlphaProofs3.
Import ListNotations.
Local Open Scope R_scope.

(** ** C33 *)
Theorem C33_selector numbers threshold k : numbers <> [] -> (1 <= k)%nat -> (forall a, In a numbers -> 0 <= a) ->
  exists l, select numbers threshold k = Ret (Some l) /\ NoDup l /\ (forall i, In i l -> (i < length numbers)%nat) /\ length l = Nat.min k (length numbers) /\
    (threshold <= total (fun i => nth i numbers 0) l \/
     forall l', NoDup l' -> (forall i, In i l' -> (i < length numbers)%nat) -> (length l' <= k)%nat -> total (fun i => nth i numbers 0) l' <= total (fun i => nth i numbers 0) l) /\
    (threshold <= fold_right Rplus 0 (firstn k numbers) -> l = seq 0 (Nat.min k (length numbers))).
Proof. exact (select_spec numbers threshold k). Qed.
Print Assumptions C33_selector.
Theorem C33_zero numbers threshold : numbers <> [] -> select numbers threshold 0 = Ret (Some []).
Proof. exact (select_zero numbers threshold). Qed.
Print Assumptions C33_zero.
Theorem C33_empty threshold k : select [] threshold k = Raise ValueError.
Proof. exact (select_empty threshold k). Qed.
Print Assumptions C33_empty.
(** a case in which the first two orders do not reach the threshold and the window has to move *)
Example C33_ex : exists l, select [1; 2; 4] 6 2 = Ret (Some l) /\ 6 <= total (fun i => nth i [1; 2; 4] 0) l.
Proof.
  destruct (C33_selector [1; 2; 4] 6 2) as (l & E & _ & _ & _ & H & _); [discriminate|lia|intros a [<-|[<-|[<-|[]]]]; lra|].
  exists l. split; [assumption|]. destruct H as [H|H]; [assumption|].
  specialize (H [1; 2]%nat ltac:(repeat constructor; cbn; intuition lia) ltac:(cbn; intuition lia) ltac:(cbn; lia)). assert (E6 : total (fun i => nth i [1; 2; 4] 0) [1; 2]%nat = 6) by (unfold total; cbn [map fold_right nth]; ring). lra.
Qed.

(** ** C69: by target amount. The ranking is any function that permutes the orders *)
Theorem C69_target_served fuel infuel rank ords os A check k sp : (forall o, In o ords -> tradable o) -> rmap view ords = Ret os -> (forall f l, Permutation (rank f l) l) ->
  (1 <= k)%nat -> (length os < fuel)%nat -> (length os + 1 < infuel)%nat -> 0 < A ->
  (exists l, choice (length os) k l /\ A <= total (balance os) l) ->
  exists level acts, choice (length os) k level /\ alpha_by_target fuel infuel rank ords (- A) check (Some k) sp = Some (Ret acts) /\ served_target os level A acts.
Proof. exact (alpha_target_served fuel infuel rank ords os A check k sp). Qed.
Print Assumptions C69_target_served.
Theorem C69_target_rejected fuel infuel rank ords os A k : (forall o, In o ords -> tradable o) -> ords <> [] -> rmap view ords = Ret os -> (forall f l, Permutation (rank f l) l) ->
  (1 <= k)%nat -> 0 < A -> (forall l, choice (length os) k l -> total (balance os) l < A) ->
  alpha_by_target fuel infuel rank ords (- A) true (Some k) false = Some (Raise AssertionError).
Proof. exact (alpha_target_rejected fuel infuel rank ords os A k). Qed.
Print Assumptions C69_target_rejected.
(** with partial support: [T] is what all orders hold together *)
Theorem C69_target_supported fuel infuel rank ords os A check k : (forall o, In o ords -> tradable o) -> rmap view ords = Ret os -> (forall f l, Permutation (rank f l) l) ->
  (1 <= k)%nat -> (length os < fuel)%nat -> (length os + 1 < infuel)%nat -> 0 < A ->
  / 10 ^ 10 < total (balance os) (seq 0 (length os)) -> (forall l, choice (length os) k l -> total (balance os) l < A) ->
  exists level acts, choice (length os) k level /\ alpha_by_target fuel infuel rank ords (- A) check (Some k) true = Some (Ret acts) /\
    let T := total (balance os) (seq 0 (length os)) in
    ((exists l, choice (length os) k l /\ (if rlt T A then T - / 10 ^ 10 else A) <= total (balance os) l) -> T < A /\ served_target os level (T - / 10 ^ 10) acts) /\
    ((forall l, choice (length os) k l -> total (balance os) l < (if rlt T A then T - / 10 ^ 10 else A)) ->
       (forall l, choice (length os) k l -> total (balance os) l <= total (balance os) level) /\
       forall i, In i level -> balance os i <> 0 -> exists a, In a acts /\ ac_index a = i /\ ac_output a = - balance os i).
Proof. exact (alpha_target_partial fuel infuel rank ords os A check k). Qed.
Print Assumptions C69_target_supported.
(** a threshold of zero orders lifts the restriction instead of selecting nothing *)
Theorem C69_zero_threshold fuel infuel rank ords os A check sp : (forall o, In o ords -> tradable o) -> ords <> [] -> rmap view ords = Ret os -> (forall f l, Permutation (rank f l) l) -> 0 < A ->
  (sp = true -> A <= total (balance os) (seq 0 (length os))) ->
  alpha_by_target fuel infuel rank ords (- A) check (Some 0%nat) sp = exact_match fuel infuel os (- A) true check [] sp.
Proof. exact (alpha_target_zero fuel infuel rank ords os A check sp). Qed.
Print Assumptions C69_zero_threshold.

(** By target the threshold defaults to 10 orders. *)
Theorem C69_default_threshold fuel infuel rank ords x check sp :
  alpha_by_target fuel infuel rank ords x check None sp = alpha_by_target fuel infuel rank ords x check (Some 10%nat) sp.
Proof. reflexivity. Qed.
Print Assumptions C69_default_threshold.
Example C69_default_ex : alpha_by_target 10 10 (fun _ l => l) [] (-1) true None true = alpha_by_target 10 10 (fun _ l => l) [] (-1) true (Some 10%nat) true.
Proof. exact (C69_default_threshold 10 10 (fun _ l => l) [] (-1) true true). Qed.

Definition no_rank : ranking := fun _ l => l.
Lemma no_rank_perm f l : Permutation (no_rank f l) l. Proof. apply Permutation_refl. Qed.
(** three orders holding 10, 10 and 40; two of them can deliver 45 but only with the last *)
Lemma three_balances os : rmap view three_orders = Ret os -> length os = 3%nat /\ balance os 0 = 10 /\ balance os 1 = 10 /\ balance os 2 = 40.
Proof.
  intros E. destruct (book_sane three_orders os three_tradable E) as [L _]. split; [exact L|].
  destruct (absorbs_value three_orders os 0 _ three_tradable E eq_refl) as (B0 & _). destruct (absorbs_value three_orders os 1 _ three_tradable E eq_refl) as (B1 & _). destruct (absorbs_value three_orders os 2 _ three_tradable E eq_refl) as (B2 & _).
  repeat split; assumption.
Qed.
Example C69_ex : exists os level acts, rmap view three_orders = Ret os /\ choice 3 2 level /\ In 2%nat level /\ alpha_by_target 10 10 no_rank three_orders (- (45)) true (Some 2%nat) false = Some (Ret acts) /\ served_target os level 45 acts.
Proof.
  destruct three_os as (os & E & L & _). destruct (three_balances os E) as (_ & B0 & B1 & B2).
  destruct (C69_target_served 10 10 no_rank three_orders os 45 true 2 false three_tradable E no_rank_perm) as (level & acts & C & Ea & Hs); try lia; try (rewrite L; lia); [lra| |].
  - exists [1; 2]%nat. rewrite L. split; [split; [repeat constructor; cbn; intuition lia|]; split; [cbn; intuition lia|cbn; lia]|]. rewrite !total_cons, B1, B2. change (total (balance os) []) with 0. lra.
  - exists os, level, acts. rewrite L in C. split; [assumption|]. split; [assumption|]. split; [|split; assumption].
    destruct (in_dec Nat.eq_dec 2%nat level) as [Hin|Hin]; [assumption|exfalso]. destruct Hs as (Nd & Hb & Hsum & _).
    assert (Hle : forall (l : list action), NoDup (map ac_index l) -> (forall a, In a l -> (ac_index a = 0%nat \/ ac_index a = 1%nat) /\ -10 <= ac_output a < 0) -> -20 <= fold_right Rplus 0 (map ac_output l)).
    { intros l Nl Hl. destruct l as [|a [|b [|c l]]]; cbn [map fold_right].
      - lra.
      - destruct (Hl a (or_introl eq_refl)). lra.
      - destruct (Hl a (or_introl eq_refl)). destruct (Hl b (or_intror (or_introl eq_refl))). lra.
      - exfalso. destruct (Hl a (or_introl eq_refl)) as [Ha _]. destruct (Hl b (or_intror (or_introl eq_refl))) as [Hb' _]. destruct (Hl c (or_intror (or_intror (or_introl eq_refl)))) as [Hc _].
        cbn [map] in Nl. inversion Nl as [|x xs N1 N2]; subst. inversion N2 as [|y ys N3 N4]; subst. cbn in N1, N3. destruct Ha, Hb', Hc; intuition congruence. }
    specialize (Hle acts Nd). rewrite Hsum in Hle. assert (-20 <= -45); [|lra]. apply Hle. intros a Ha. destruct (Hb a Ha) as [Hl Ho]. destruct C as (_ & V & _). specialize (V _ Hl).
    assert (Hc : ac_index a = 0%nat \/ ac_index a = 1%nat) by (destruct (ac_index a) as [|[|[|n]]]; [left; reflexivity|right; reflexivity|contradiction|lia]). split; [assumption|]. destruct Hc as [Hc|Hc]; rewrite Hc in Ho; rewrite ?B0, ?B1 in Ho; lra.
Qed.
Example C69_rejected_ex : alpha_by_target 10 10 no_rank three_orders (- (51)) true (Some 2%nat) false = Some (Raise AssertionError).
Proof.
  destruct three_os as (os & E & L & _). destruct (three_balances os E) as (_ & B0 & B1 & B2).
  apply (C69_target_rejected 10 10 no_rank three_orders os 51 2 three_tradable); [discriminate|assumption|exact no_rank_perm|lia|lra|].
  intros l (N & V & Len). rewrite L in V. assert (Hb : forall i, In i l -> balance os i <= 40 /\ (i <> 2%nat -> balance os i <= 10)).
  { intros i Hi. specialize (V i Hi). destruct i as [|[|[|i]]]; [rewrite B0|rewrite B1|rewrite B2|lia]; split; intros; try lra; congruence. }
  destruct l as [|a [|b [|c l]]]; [| | |cbn in Len; lia]; rewrite ?total_cons; change (total (balance os) []) with 0; [lra|destruct (Hb a (or_introl eq_refl)); lra|].
  destruct (Hb a (or_introl eq_refl)) as [Ha Ha']. destruct (Hb b (or_intror (or_introl eq_refl))) as [Hb1 Hb'].
  destruct (Nat.eq_dec a 2) as [->|Na]; [|specialize (Ha' Na); lra]. assert (b <> 2%nat) by (inversion N as [|x xs N1 N2]; subst; cbn in N1; intuition congruence). specialize (Hb' H). lra.
Qed.

(** ** C70: by source amount *)
Theorem C70_worth ords os i o : (forall o, In o ords -> tradable o) -> rmap view ords = Ret os -> nth_error ords i = Some o ->
  balance os i = o_y o /\ absorbs os i = o_y o / ((sqrt (o_plow o) + (sqrt (o_phigh o) - sqrt (o_plow o)) * (o_y o / o_yint o)) * sqrt (o_plow o)) /\
  forall A, 0 < A -> worth os A i = if Rlt_dec (absorbs os i) A then o_y o / sqrt (o_plow o * o_phigh o) else A.
Proof. exact (absorbs_value ords os i o). Qed.
Print Assumptions C70_worth.
Theorem C70_worth_below_capacity ords os A i : (forall o, In o ords -> tradable o) -> rmap view ords = Ret os -> 0 < A -> (i < length os)%nat -> 0 <= worth os A i <= absorbs os i /\ worth os A i <= A.
Proof. exact (worth_bounds ords os A i). Qed.
Print Assumptions C70_worth_below_capacity.
Theorem C70_source_served fuel infuel rank ords os A check k sp : (forall o, In o ords -> tradable o) -> rmap view ords = Ret os -> (forall f l, Permutation (rank f l) l) ->
  (1 <= k)%nat -> (length os < fuel)%nat -> (length os + 1 < infuel)%nat -> 0 < A ->
  (exists l, choice (length os) k l /\ A <= total (worth os A) l) ->
  exists level acts, choice (length os) k level /\ alpha_by_source fuel infuel rank ords A check (Some k) sp = Some (Ret acts) /\ served_source os level A acts.
Proof. exact (alpha_source_served fuel infuel rank ords os A check k sp). Qed.
Print Assumptions C70_source_served.
Theorem C70_source_short fuel infuel rank ords os A check k : (forall o, In o ords -> tradable o) -> rmap view ords = Ret os -> (forall f l, Permutation (rank f l) l) ->
  (1 <= k)%nat -> (length os < fuel)%nat -> (length os + 1 < infuel)%nat -> 0 < A ->
  (exists i, (i < length os)%nat /\ balance os i <> 0) -> (forall l, choice (length os) k l -> total (worth os A) l < A) ->
  exists level, choice (length os) k level /\ (forall l, choice (length os) k l -> total (worth os A) l <= total (worth os A) level) /\
    (total (absorbs os) level < A -> alpha_by_source fuel infuel rank ords A check (Some k) false = Some (Raise AssertionError)) /\
    (A <= total (absorbs os) level -> exists acts, alpha_by_source fuel infuel rank ords A check (Some k) false = Some (Ret acts) /\ served_source os level A acts).
Proof. exact (alpha_source_short fuel infuel rank ords os A check k). Qed.
Print Assumptions C70_source_short.
(** with partial support the request is cut to [T], what the orders are counted for, although they
    may absorb more *)
Theorem C70_source_supported fuel infuel rank ords os A check k : (forall o, In o ords -> tradable o) -> rmap view ords = Ret os -> (forall f l, Permutation (rank f l) l) ->
  (1 <= k)%nat -> (length os < fuel)%nat -> (length os + 1 < infuel)%nat -> 0 < A ->
  let T := total (worth os A) (seq 0 (length os)) in
  / 10 ^ 10 < T -> T < A ->
  exists level acts, choice (length os) k level /\ alpha_by_source fuel infuel rank ords A check (Some k) true = Some (Ret acts) /\
    (T - / 10 ^ 10 <= total (absorbs os) level -> served_source os level (T - / 10 ^ 10) acts) /\
    (total (absorbs os) level < T - / 10 ^ 10 -> (forall l, choice (length os) k l -> total (worth os A) l <= total (worth os A) level) /\
       forall i, In i level -> balance os i <> 0 -> exists a, In a acts /\ ac_index a = i /\ ac_output a = - balance os i) /\
    ((length os <= k)%nat -> T - / 10 ^ 10 <= total (absorbs os) level).
Proof. exact (alpha_source_partial fuel infuel rank ords os A check k). Qed.
Print Assumptions C70_source_supported.
(** the naive claim (a request that k orders can absorb is served) is false for every ranking *)
Theorem C70_served_if_possible_refuted rank check : (forall f l, Permutation (rank f l) l) ->
  exists ords os A k l, (forall o, In o ords -> tradable o) /\ rmap view ords = Ret os /\ 0 < A /\ choice (length os) k l /\ A < total (absorbs os) l /\
    alpha_by_source 10 10 rank ords A check (Some k) false = Some (Raise AssertionError).
Proof. exact (source_underestimates rank check). Qed.
Print Assumptions C70_served_if_possible_refuted.
Theorem C70_no_threshold fuel infuel rank ords os A check sp : (forall o, In o ords -> tradable o) -> ords <> [] -> rmap view ords = Ret os -> (forall f l, Permutation (rank f l) l) -> 0 < A ->
  alpha_by_source fuel infuel rank ords A check None sp = Some (Raise TypeError).
Proof. exact (alpha_source_none fuel infuel rank ords os A check sp). Qed.
Print Assumptions C70_no_threshold.
(** the three orders absorb 5 + 5 + 200/23 > 18 in total, but with partial support a request of 18
    is cut to 14 less the dust *)
Example C70_ex : exists os level acts, rmap view three_orders = Ret os /\ 18 < total (absorbs os) (seq 0 3) /\
  alpha_by_source 10 10 no_rank three_orders 18 true (Some 3%nat) true = Some (Ret acts) /\ served_source os level (14 - / 10 ^ 10) acts.
Proof.
  destruct three_os as (os & E & L & A0 & A1 & A2 & _).
  destruct (C70_worth three_orders os 0 _ three_tradable E eq_refl) as (_ & _ & W0). destruct (C70_worth three_orders os 1 _ three_tradable E eq_refl) as (_ & _ & W1). destruct (C70_worth three_orders os 2 _ three_tradable E eq_refl) as (_ & _ & W2).
  cbn [an_order o_plow o_phigh o_y o_yint] in *. specialize (W0 18 ltac:(lra)). specialize (W1 18 ltac:(lra)). specialize (W2 18 ltac:(lra)).
  replace (1 * 4) with (2 * 2) in W0, W1 by ring. replace (1 * 100) with (10 * 10) in W2 by ring. rewrite sqrt_square in W0, W1, W2 by lra. rewrite A0 in W0. rewrite A1 in W1. rewrite A2 in W2.
  destruct (Rlt_dec 5 18) as [_|n]; [|lra]. destruct (Rlt_dec (200 / 23) 18) as [_|n]; [|lra].
  assert (T : total (worth os 18) (seq 0 (length os)) = 14) by (rewrite L; cbn [seq]; rewrite !total_cons, W0, W1, W2; change (total (worth os 18) []) with 0; field).
  assert (Hd : / 10 ^ 10 < 1) by (rewrite <- Rinv_1; apply Rinv_lt_contravar; [rewrite Rmult_1_l; apply pow_lt; lra|]; apply Rlt_pow_R1; [lra|lia]).
  destruct (C70_source_supported 10 10 no_rank three_orders os 18 true 3 three_tradable E no_rank_perm) as (level & acts & C & Ea & Hs & _ & Hk); try lia; try (rewrite L; lia); try rewrite T; try lra.
  rewrite T in Hs, Hk. exists os, level, acts. split; [assumption|]. split; [|split; [assumption|apply Hs, Hk; lia]].
  cbn [seq]. rewrite !total_cons, A0, A1, A2. change (total (absorbs os) []) with 0. lra.
Qed.
