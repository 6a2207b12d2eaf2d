(** Proofs about the earlier alpha router, for C163. *)
From Coq Require Import Reals Lra Lia Bool List Arith Permutation Sorted.
From Verif Require Import CurveModel CurveProofs OrderModel OrderProofs ExactModel ExactSpec ExactProofs ExactProofs4 ExactProofs5 ExactProofs6 AlphaModel AlphaSpec AlphaProofs AlphaProofs2 AlphaProofs3 LegacyModel.
From Verif Require ExactProofs7.
Import ListNotations.
Local Open Scope R_scope.

Lemma find_first (f : nat -> bool) n : forall s j, (s <= j < s + n)%nat -> f j = true -> (forall i, (s <= i < j)%nat -> f i = false) -> find f (seq s n) = Some j.
Proof.
  induction n as [|n IH]; intros s j Hj E F; [lia|]. cbn [seq find]. destruct (Nat.eq_dec s j) as [->|N]; [rewrite E; reflexivity|].
  rewrite F by lia. apply IH; [lia|assumption|]. intros i Hi. apply F. lia.
Qed.
Lemma find_nothing (f : nat -> bool) n : forall s, (forall i, (s <= i < s + n)%nat -> f i = false) -> find f (seq s n) = None.
Proof. induction n as [|n IH]; intros s F; [reflexivity|]. cbn [seq find]. rewrite F by lia. apply IH. intros i Hi. apply F. lia. Qed.
Lemma window_map {A} (d : A) k j l : (k <= S j <= length l)%nat -> window k j l = map (fun p => nth p l d) (seq (S j - k) k).
Proof.
  intros H. unfold window. apply (nth_ext _ _ d d).
  - rewrite skipn_length, firstn_length, map_length, seq_length. lia.
  - intros i Hi. rewrite skipn_length, firstn_length in Hi. rewrite (nth_indep (map _ _) d (nth 0 l d)) by (rewrite map_length, seq_length; lia).
    rewrite (map_nth (fun p => nth p l d)), seq_nth by lia. rewrite <- (firstn_skipn (S j) l) at 2. rewrite app_nth1 by (rewrite firstn_length; lia).
    rewrite <- (firstn_skipn (S j - k) (firstn (S j) l)) at 2. rewrite app_nth2 by (rewrite firstn_length, firstn_length; lia). f_equal. rewrite firstn_length, firstn_length. lia.
Qed.
Lemma window_total k j l : (k <= S j <= length l)%nat -> rsum (window k j l) = total (fun p => nth p l 0) (seq (S j - k) k).
Proof. intros H. rewrite (window_map 0) by assumption. reflexivity. Qed.
(** windows are counted from their first row *)
Lemma first_none k ranked values A n : length ranked = n -> length values = n -> 0 < A -> (1 <= k)%nat -> (forall j, (j + k <= n)%nat -> total (fun p => nth p values 0) (seq j k) < A) -> first_window k ranked values A = None.
Proof.
  intros Lr Lv HA Hk H. unfold first_window. rewrite find_nothing; [reflexivity|]. intros i Hi. unfold window_sum. destruct (Nat.ltb_spec (S i) k) as [L|L]; [apply rle_false; assumption|].
  apply rle_false. rewrite window_total by lia. apply H. lia.
Qed.
Lemma first_some k ranked values A n j : length ranked = n -> length values = n -> 0 < A -> (1 <= k)%nat -> (j + k <= n)%nat -> A <= total (fun p => nth p values 0) (seq j k) ->
  (forall i, (i < j)%nat -> total (fun p => nth p values 0) (seq i k) < A) -> first_window k ranked values A = Some (map (fun p => nth p ranked O) (seq j k)).
Proof.
  intros Lr Lv HA Hk Hj HT H. unfold first_window. rewrite (find_first _ (length ranked) 0 (j + k - 1)).
  - cbn [option_map]. rewrite (window_map O) by lia. replace (S (j + k - 1) - k)%nat with j by lia. reflexivity.
  - lia.
  - unfold window_sum. destruct (Nat.ltb_spec (S (j + k - 1)) k); [lia|]. rewrite window_total by lia. replace (S (j + k - 1) - k)%nat with j by lia. apply rle_true. assumption.
  - intros i Hi. unfold window_sum. destruct (Nat.ltb_spec (S i) k) as [L|L]; [apply rle_false; assumption|]. apply rle_false. rewrite window_total by lia. apply H. lia.
Qed.
Lemma window_choice ranked n k j : Permutation ranked (seq 0 n) -> (1 <= k)%nat -> (j + k <= n)%nat -> choice n k (map (fun p => nth p ranked O) (seq j k)) /\ map (fun p => nth p ranked O) (seq j k) <> [].
Proof.
  intros P Hk Hj. split.
  - apply ranked_level; [exact P|apply seq_NoDup|intros i Hi; apply in_seq in Hi; lia|rewrite seq_length; lia].
  - destruct k; [lia|]. discriminate.
Qed.
Lemma ranked_in ranked n p : Permutation ranked (seq 0 n) -> (p < n)%nat -> (nth p ranked O < n)%nat.
Proof.
  intros P Hp. assert (I : In (nth p ranked O) (seq 0 n)). { rewrite <- P. apply nth_In. rewrite (Permutation_length P), seq_length. exact Hp. } apply in_seq in I. lia.
Qed.
Lemma level_total (f : nat -> R) ranked j k : total f (map (fun p => nth p ranked O) (seq j k)) = total (fun p => f (nth p ranked O)) (seq j k).
Proof. unfold total. rewrite map_map. reflexivity. Qed.

Section Legacy.
Context (fuel infuel : nat) (rank : ranking) (ords : list order) (os : list xorder) (A : R) (k : nat).
Hypothesis T : forall o, In o ords -> tradable o.
Hypothesis E : rmap view ords = Ret os.
Hypothesis P : forall f l, Permutation (rank f l) l.
Hypothesis Hk : (1 <= k)%nat.
Hypothesis HA : 0 < A.
Lemma legacy_sane i : (i < length os)%nat -> sane (getx os i).
Proof. intros Hi. destruct (book_sane ords os T E) as [_ H]. destruct (H i Hi) as (o & _ & _ & _ & S & _). exact S. Qed.

Lemma legacy_target check : exists hs ranked, rmap (fun o => hyp_target o (- A)) ords = Ret hs /\ ranked = rank (fun i => nth i hs 0) (seq 0 (length os)) /\ Permutation ranked (seq 0 (length os)) /\
  let counted p := balance os (nth (nth p ranked O) ranked O) in
  let level j := map (fun p => nth p ranked O) (seq j k) in
  ((forall j, (j + k <= length os)%nat -> total counted (seq j k) < A) -> legacy_by_target fuel infuel rank ords (- A) check (Some k) = Some (Raise IndexError)) /\
  forall j, (j + k <= length os)%nat -> A <= total counted (seq j k) -> (forall i, (i < j)%nat -> total counted (seq i k) < A) ->
    legacy_by_target fuel infuel rank ords (- A) check (Some k) = exact_match fuel infuel os (- A) true check (level j) false.
Proof.
  destruct (rmap_total (fun o => hyp_target o (- A)) ords) as (hs & Eh); [intros o Ho; apply hyp_target_ok; [apply T|]; assumption|].
  set (ranked := rank (fun i => nth i hs 0) (seq 0 (length os))). exists hs, ranked. split; [exact Eh|]. split; [reflexivity|]. assert (Pr : Permutation ranked (seq 0 (length os))) by apply P. split; [exact Pr|].
  assert (Lr : length ranked = length os) by (rewrite (Permutation_length Pr), seq_length; reflexivity).
  unfold legacy_by_target. rewrite E. cbn [rbind]. rewrite Eh. cbn [rbind]. fold (indexes os) in ranked. unfold indexes in *. fold ranked. unfold windowed. rewrite Rabs_Ropp, Rabs_right by lra.
  set (values := map (fun i => nth i (map (fun i => xo_y (getx os i)) ranked) 0) ranked).
  assert (Lv : length values = length os) by (unfold values; rewrite map_length; exact Lr).
  assert (V : forall p, (p < length os)%nat -> nth p values 0 = balance os (nth (nth p ranked O) ranked O)).
  { intros p Hp. unfold values. rewrite (nth_map_total _ _ O) by lia. rewrite (nth_map_total _ _ O) by (rewrite Lr; apply ranked_in; assumption). reflexivity. }
  assert (VT : forall j, (j + k <= length os)%nat -> total (fun p => nth p values 0) (seq j k) = total (fun p => balance os (nth (nth p ranked O) ranked O)) (seq j k)).
  { intros j Hj. apply total_ext. intros p Hp. apply in_seq in Hp. apply V. lia. }
  split.
  - intros H. rewrite (first_none k ranked values A (length os)); try assumption; [reflexivity|]. intros j Hj. rewrite VT by assumption. apply H. assumption.
  - intros j Hj HT Hb. rewrite (first_some k ranked values A (length os) j); try assumption; [reflexivity|rewrite VT by assumption; exact HT|]. intros i Hi. rewrite VT by lia. apply Hb. assumption.
Qed.
Lemma legacy_source check : exists hs ranked, rmap (fun o => hyp_source o A) ords = Ret hs /\ ranked = rank (fun i => nth i hs 0) (seq 0 (length os)) /\ Permutation ranked (seq 0 (length os)) /\
  let counted p := worth os A (nth p ranked O) in
  let level j := map (fun p => nth p ranked O) (seq j k) in
  ((forall j, (j + k <= length os)%nat -> total counted (seq j k) < A) -> legacy_by_source fuel infuel rank ords A check (Some k) = Some (Raise IndexError)) /\
  forall j, (j + k <= length os)%nat -> A <= total counted (seq j k) -> (forall i, (i < j)%nat -> total counted (seq i k) < A) ->
    legacy_by_source fuel infuel rank ords A check (Some k) = exact_match fuel infuel os A false check (level j) false.
Proof.
  destruct (source_values ords os A T E HA) as (hs & vs & Eh & Ev & Hv).
  set (ranked := rank (fun i => nth i hs 0) (seq 0 (length os))). exists hs, ranked. split; [exact Eh|]. split; [reflexivity|]. assert (Pr : Permutation ranked (seq 0 (length os))) by apply P. split; [exact Pr|].
  assert (Lr : length ranked = length os) by (rewrite (Permutation_length Pr), seq_length; reflexivity).
  unfold legacy_by_source. rewrite E. cbn [rbind]. rewrite Eh. cbn [rbind]. rewrite Ev. cbn [rbind]. unfold indexes in *. fold ranked. unfold windowed. rewrite Rabs_right by lra.
  set (values := map (fun i => nth i vs 0) ranked).
  assert (Lv : length values = length os) by (unfold values; rewrite map_length; exact Lr).
  assert (VT : forall j, (j + k <= length os)%nat -> total (fun p => nth p values 0) (seq j k) = total (fun p => worth os A (nth p ranked O)) (seq j k)).
  { intros j Hj. apply total_ext. intros p Hp. apply in_seq in Hp. unfold values. rewrite (nth_map_total _ _ O) by lia. apply Hv. apply ranked_in; [assumption|lia]. }
  split.
  - intros H. rewrite (first_none k ranked values A (length os)); try assumption; [reflexivity|]. intros j Hj. rewrite VT by assumption. apply H. assumption.
  - intros j Hj HT Hb. rewrite (first_some k ranked values A (length os) j); try assumption; [reflexivity|rewrite VT by assumption; exact HT|]. intros i Hi. rewrite VT by lia. apply Hb. assumption.
Qed.
Lemma level_rejected level : choice (length os) k level -> level <> [] -> total (balance os) level < A -> exact_match fuel infuel os (- A) true true level false = Some (Raise AssertionError).
Proof.
  intros C Hne H. apply ExactProofs7.target_rejected; [|apply C|apply C|assumption|].
  - intros i (Hi & _). apply legacy_sane. exact Hi.
  - intros l t N U. apply Rle_lt_trans with (total (balance os) level); [|exact H]. apply Rle_trans with (total (balance os) l); [apply total_le; intros i Hi; apply U; assumption|].
    apply total_incl_le; [exact N| |].
    + intros i Hi. destruct (U i Hi) as [Hu _]. apply chosen_usable in Hu; [tauto|assumption].
    + intros i Hi. destruct C as (_ & V & _). destruct (legacy_sane i (V i Hi)) as (_ & _ & _ & Hy). exact Hy.
Qed.
End Legacy.
