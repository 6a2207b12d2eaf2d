(** Theorems about the earlier alpha router (C163): carbon/routers/alpha_router_orig.py. *)
From Coq Require Import Reals Lra Lia Bool List Arith Permutation Sorted.
From Verif Require Import CurveModel CurveProofs OrderModel OrderProofs ExactModel ExactSpec ExactProofs AlphaModel AlphaSpec AlphaProofs AlphaProofs2 AlphaProofs3 LegacyModel LegacyProofs ExactProofs4 ExactProofs5 ExactProofs6.
Import ListNotations.
Local Open Scope R_scope.

(** ** C163 *)
(** by target amount: the router looks for the first [k] neighbours in the ranking that it counts
    [A] for, but the balances it counts are those of other orders: for position [p] of the ranking the
    balance of the order that is ranked at the position given by the number of the order ranked [p] *)
Theorem C163_target fuel infuel rank ords os A k check : (forall o, In o ords -> tradable o) -> rmap view ords = Ret os -> (forall f l, Permutation (rank f l) l) -> (1 <= k)%nat -> 0 < A ->
  (length os < fuel)%nat -> (length os + 1 < infuel)%nat ->
  exists hs ranked, rmap (fun o => hyp_target o (- A)) ords = Ret hs /\ ranked = rank (fun i => nth i hs 0) (seq 0 (length os)) /\
  let counted p := balance os (nth (nth p ranked O) ranked O) in
  let level j := map (fun p => nth p ranked O) (seq j k) in
  ((forall j, (j + k <= length os)%nat -> total counted (seq j k) < A) -> legacy_by_target fuel infuel rank ords (- A) check (Some k) = Some (Raise IndexError)) /\
  forall j, (j + k <= length os)%nat -> A <= total counted (seq j k) -> (forall i, (i < j)%nat -> total counted (seq i k) < A) ->
    (A <= total (balance os) (level j) -> exists acts, legacy_by_target fuel infuel rank ords (- A) check (Some k) = Some (Ret acts) /\ served_target os (level j) A acts) /\
    (total (balance os) (level j) < A -> legacy_by_target fuel infuel rank ords (- A) true (Some k) = Some (Raise AssertionError)).
Proof.
  intros T E P Hk HA Hf Hi. destruct (legacy_target fuel infuel rank ords os A k T E P Hk HA check) as (hs & ranked & Eh & Er & Pr & HN & HS).
  destruct (legacy_target fuel infuel rank ords os A k T E P Hk HA true) as (hs' & ranked' & Eh' & Er' & _ & _ & HS'). rewrite Eh in Eh'. injection Eh' as <-. rewrite <- Er in Er'. subst ranked'.
  exists hs, ranked. split; [exact Eh|]. split; [exact Er|]. cbv zeta in *. split; [exact HN|]. intros j Hj HT Hb.
  destruct (window_choice ranked (length os) k j Pr Hk Hj) as [C Ne]. split.
  - intros Hl. rewrite (HS j Hj HT Hb). apply level_served_target; try assumption; [|apply C|apply C]. intros i Hi'. apply (legacy_sane ords os T E). exact Hi'.
  - intros Hl. rewrite (HS' j Hj HT Hb). apply (level_rejected fuel infuel ords os A k T E HA); assumption.
Qed.
Print Assumptions C163_target.
(** by source amount the rows are aligned, and what is found is served *)
Theorem C163_source fuel infuel rank ords os A k check : (forall o, In o ords -> tradable o) -> rmap view ords = Ret os -> (forall f l, Permutation (rank f l) l) -> (1 <= k)%nat -> 0 < A ->
  (length os < fuel)%nat -> (length os + 1 < infuel)%nat ->
  exists hs ranked, rmap (fun o => hyp_source o A) ords = Ret hs /\ ranked = rank (fun i => nth i hs 0) (seq 0 (length os)) /\
  let level j := map (fun p => nth p ranked O) (seq j k) in
  ((forall j, (j + k <= length os)%nat -> total (worth os A) (level j) < A) -> legacy_by_source fuel infuel rank ords A check (Some k) = Some (Raise IndexError)) /\
  forall j, (j + k <= length os)%nat -> A <= total (worth os A) (level j) -> (forall i, (i < j)%nat -> total (worth os A) (level i) < A) ->
    exists acts, legacy_by_source fuel infuel rank ords A check (Some k) = Some (Ret acts) /\ served_source os (level j) A acts.
Proof.
  intros T E P Hk HA Hf Hi. destruct (legacy_source fuel infuel rank ords os A k T E P Hk HA check) as (hs & ranked & Eh & Er & Pr & HN & HS).
  exists hs, ranked. split; [exact Eh|]. split; [exact Er|]. cbv zeta in *. split.
  - intros H. apply HN. intros j Hj. rewrite <- level_total. apply H. exact Hj.
  - intros j Hj HT Hb. destruct (window_choice ranked (length os) k j Pr Hk Hj) as [C Ne]. rewrite (HS j Hj); [|rewrite <- level_total; exact HT|intros i Hi'; rewrite <- level_total; apply Hb; exact Hi'].
    apply level_served_source; try assumption; [|apply C|apply C|].
    + intros i Hi'. apply (legacy_sane ords os T E). exact Hi'.
    + apply Rle_trans with (total (worth os A) (map (fun p => nth p ranked O) (seq j k))); [exact HT|]. apply (worth_total ords os A); try assumption. apply C.
Qed.
Print Assumptions C163_source.
(** with fewer orders than the threshold, which is 10 by target if it is not given, nothing is ever served *)
Theorem C163_few_orders fuel infuel rank ords os A k check : (forall o, In o ords -> tradable o) -> rmap view ords = Ret os -> (forall f l, Permutation (rank f l) l) -> 0 < A -> (length os < k)%nat ->
  legacy_by_target fuel infuel rank ords (- A) check (Some k) = Some (Raise IndexError) /\ legacy_by_source fuel infuel rank ords A check (Some k) = Some (Raise IndexError) /\
  ((length os < 10)%nat -> legacy_by_target fuel infuel rank ords (- A) check None = Some (Raise IndexError)).
Proof.
  intros T E P HA Hk. split; [|split].
  - destruct (legacy_target fuel infuel rank ords os A k T E P ltac:(lia) HA check) as (hs & ranked & _ & _ & _ & HN & _). apply HN. intros j Hj. lia.
  - destruct (legacy_source fuel infuel rank ords os A k T E P ltac:(lia) HA check) as (hs & ranked & _ & _ & _ & HN & _). apply HN. intros j Hj. lia.
  - intros H10. change (legacy_by_target fuel infuel rank ords (- A) check None) with (legacy_by_target fuel infuel rank ords (- A) check (Some 10%nat)).
    destruct (legacy_target fuel infuel rank ords os A 10 T E P ltac:(lia) HA check) as (hs & ranked & _ & _ & _ & HN & _). apply HN. intros j Hj. lia.
Qed.
Print Assumptions C163_few_orders.
(** by source the threshold has to be given *)
Theorem C163_no_threshold fuel infuel rank ords os A check : (forall o, In o ords -> tradable o) -> rmap view ords = Ret os -> 0 < A -> legacy_by_source fuel infuel rank ords A check None = Some (Raise ValueError).
Proof. intros T E HA. destruct (source_values ords os A T E HA) as (hs & vs & Eh & Ev & _). unfold legacy_by_source. rewrite E. cbn [rbind]. rewrite Eh. cbn [rbind]. rewrite Ev. reflexivity. Qed.
Print Assumptions C163_no_threshold.
(** with as many orders as the threshold the misalignment does no harm: what all orders hold is delivered *)
Lemma all_window ranked n : length ranked = n -> map (fun p => nth p ranked O) (seq 0 n) = ranked.
Proof. intros <-. apply (nth_ext _ _ O O); [rewrite map_length, seq_length; reflexivity|]. intros i Hi. rewrite map_length, seq_length in Hi. rewrite (nth_indep _ O (nth 0 ranked O)) by (rewrite map_length, seq_length; exact Hi). rewrite (map_nth (fun p => nth p ranked O)), seq_nth by exact Hi. reflexivity. Qed.
Theorem C163_all fuel infuel rank ords os A check : (forall o, In o ords -> tradable o) -> ords <> [] -> rmap view ords = Ret os -> (forall f l, Permutation (rank f l) l) -> 0 < A ->
  (length os < fuel)%nat -> (length os + 1 < infuel)%nat ->
  (A <= total (balance os) (seq 0 (length os)) -> exists level acts, Permutation level (seq 0 (length os)) /\ legacy_by_target fuel infuel rank ords (- A) check (Some (length os)) = Some (Ret acts) /\ served_target os level A acts) /\
  (total (balance os) (seq 0 (length os)) < A -> legacy_by_target fuel infuel rank ords (- A) check (Some (length os)) = Some (Raise IndexError)).
Proof.
  intros T Ne E P HA Hf Hi. assert (L : length os = length ords) by apply (book_sane ords os T E). assert (Hn : (1 <= length os)%nat) by (rewrite L; destruct ords; [congruence|cbn; lia]).
  destruct (C163_target fuel infuel rank ords os A (length os) check T E P Hn HA Hf Hi) as (hs & ranked & Eh & Er & HN & HS).
  assert (Pr : Permutation ranked (seq 0 (length os))) by (rewrite Er; apply P). assert (Lr : length ranked = length os) by (rewrite (Permutation_length Pr), seq_length; reflexivity).
  assert (EL : map (fun p => nth p ranked O) (seq 0 (length os)) = ranked) by (apply all_window; exact Lr).
  assert (Er1 : total (balance os) ranked = total (balance os) (seq 0 (length os))) by (apply total_perm; exact Pr).
  assert (EC : total (fun p => balance os (nth (nth p ranked O) ranked O)) (seq 0 (length os)) = total (balance os) (seq 0 (length os))).
  { rewrite <- (level_total (fun q => balance os (nth q ranked O)) ranked 0 (length os)), EL. rewrite (total_perm (fun q => balance os (nth q ranked O)) _ _ Pr). rewrite <- (level_total (balance os) ranked 0 (length os)), EL. exact Er1. }
  cbv zeta in *. split.
  - intros H. destruct (HS 0%nat) as [HS1 _]; [lia|rewrite EC; exact H|intros i Hi'; lia|]. rewrite EL in HS1. destruct HS1 as (acts & Ea & Sv); [rewrite Er1; exact H|]. exists ranked, acts. split; [exact Pr|]. split; [exact Ea|exact Sv].
  - intros H. apply HN. intros j Hj. replace j with 0%nat by lia. rewrite EC. exact H.
Qed.
Print Assumptions C163_all.
(** a cheap order of 1 and an expensive one of 10: 5 are refused although one order could deliver them,
    whichever way the (descending) sort is done *)
Definition two_orders : list order := [an_order 1 4 10 10; an_order 100 400 1 1].
Lemma two_tradable o : In o two_orders -> tradable o.
Proof. intros [<-|[<-|[]]]; unfold tradable, an_order; cbn [o_plow o_phigh o_adj o_B o_S o_yint o_y]; repeat split; lra. Qed.
Lemma sq (a b : R) : 0 <= b -> a = b * b -> sqrt a = b. Proof. intros H ->. apply sqrt_square. exact H. Qed.
Lemma two_hyp : rmap (fun o => hyp_target o (- (5))) two_orders = Ret [-5 * 10 ^ 2 / (20 * 25); -5 * 1 ^ 2 / (20 * 70)].
Proof.
  unfold two_orders, an_order, hyp_target. cbn [rmap o_B o_S o_yint o_y]. rewrite (sq 1 1), (sq 4 2), (sq 100 10), (sq 400 20) by lra.
  rewrite !rdiv_ok by lra. cbn [rbind]. repeat f_equal; lra.
Qed.
Theorem C163_served_if_possible_refuted rank : (forall f l, Permutation (rank f l) l) -> (forall f l, StronglySorted (fun i j => f j <= f i) (rank f l)) ->
  exists ords os A, (forall o, In o ords -> tradable o) /\ rmap view ords = Ret os /\ 0 < A < balance os 0 /\ legacy_by_target 10 10 rank ords (- A) true (Some 1%nat) = Some (Raise AssertionError).
Proof.
  intros P St. destruct (rmap_total view two_orders) as (os & E); [intros o Ho; pose proof (two_tradable o Ho) as (H1 & H2 & _ & _ & _ & H3 & _); destruct (view_sane o H1 H2 H3) as (x & Ex & _); exists x; assumption|].
  destruct (book_sane two_orders os two_tradable E) as [L _]. cbn in L. destruct (absorbs_value two_orders os 0 _ two_tradable E eq_refl) as (B0 & _). destruct (absorbs_value two_orders os 1 _ two_tradable E eq_refl) as (B1 & _).
  cbn [an_order o_y] in B0, B1. exists two_orders, os, 5. split; [exact two_tradable|]. split; [exact E|]. split; [lra|].
  destruct (C163_target 10 10 rank two_orders os 5 1 true two_tradable E P) as (hs & ranked & Eh & Er & _ & HS); try lia; try lra. rewrite L in Er, HS.
  pose proof two_hyp as Eh2. rewrite Eh in Eh2. assert (Ehs : hs = [-5 * 10 ^ 2 / (20 * 25); -5 * 1 ^ 2 / (20 * 70)]) by congruence. clear Eh Eh2. rewrite Ehs in Er. set (f := fun i => nth i [-5 * 10 ^ 2 / (20 * 25); -5 * 1 ^ 2 / (20 * 70)] 0) in Er.
  assert (ranked = [1; 0]%nat) as ->.
  { pose proof (P f (seq 0 2)) as P2. pose proof (St f (seq 0 2)) as S2. rewrite <- Er in P2, S2. cbn in P2. apply Permutation_sym, Permutation_length_2_inv in P2. destruct P2 as [->| ->]; [|reflexivity]. exfalso.
    inversion S2 as [|a l S3 F]; subst a l. inversion F as [|a l H _]; subst a l. unfold f in H. cbn [nth] in H. lra. }
  cbv zeta in HS. destruct (HS 0%nat) as [_ H]; [lia| | |].
  - cbn [seq nth]. rewrite total_cons. change (total _ []) with 0. rewrite B0. lra.
  - intros i Hi. lia.
  - apply H. cbn [seq map nth]. rewrite total_cons, B1. change (total (balance os) []) with 0. lra.
Qed.
Print Assumptions C163_served_if_possible_refuted.
(** the three orders of C69: 45 can be taken from all three *)
Example C163_ex : exists acts, legacy_by_target 10 10 (fun _ l => l) three_orders (- (45)) true (Some 3%nat) = Some (Ret acts) /\ legacy_by_target 10 10 (fun _ l => l) three_orders (- (45)) true None = Some (Raise IndexError).
Proof.
  destruct three_os as (os & E & L & _ & _ & _ & _ & _ & _ & B0). destruct (absorbs_value three_orders os 1 _ three_tradable E eq_refl) as (B1 & _). destruct (absorbs_value three_orders os 2 _ three_tradable E eq_refl) as (B2 & _). cbn [an_order o_y] in B1, B2.
  destruct (C163_all 10 10 (fun _ l => l) three_orders os 45 true three_tradable) as [H _]; try lia; try lra; [discriminate|exact E|intros; apply Permutation_refl|].
  rewrite L in H. destruct H as (level & acts & _ & Ea & _); [unfold total; cbn [seq map fold_right]; rewrite B0, B1, B2; lra|]. exists acts. split; [exact Ea|].
  apply (C163_few_orders 10 10 (fun _ l => l) three_orders os 45 4 true three_tradable E); [intros; apply Permutation_refl|lra|lia|lia].
Qed.
