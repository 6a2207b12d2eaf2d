(** Theorems about the number of orders an alpha trade may use (C167). *)
From Coq Require Import Reals Lra Lia Bool List Arith Permutation Sorted.
From Verif Require Import CurveModel CurveSpec CurveProofs OrderModel OrderProofs ExactModel ExactSpec ExactProofs ExactProofs2 ExactProofs6 AlphaModel AlphaSpec AlphaProofs AlphaProofs2 AlphaProofs3 ThreshSpec ThreshProofs ThreshProofs2.
Import ListNotations.
Local Open Scope R_scope.

(** ** C167 *)
(** against the exact router over all orders: never cheaper, and as cheap if all orders are allowed *)
Theorem C167_exact_target fuel infuel rank ords os A check k sp : (forall o, In o ords -> tradable o) -> rmap view ords = Ret os -> (forall f l, Permutation (rank f l) l) -> (1 <= k)%nat -> (length os < fuel)%nat -> (length os + 1 < infuel)%nat -> 0 < A ->
  (exists l, choice (length os) k l /\ A <= total (balance os) l) ->
  exists acts best, alpha_by_target fuel infuel rank ords (- A) check (Some k) sp = Some (Ret acts) /\ exact_match fuel infuel os (- A) true check [] sp = Some (Ret best) /\
    received acts = A /\ received best = A /\ paid best <= paid acts /\ ((length os <= k)%nat -> paid best = paid acts).
Proof. exact (exact_target fuel infuel rank ords os A check k sp). Qed.
Print Assumptions C167_exact_target.
Theorem C167_exact_source fuel infuel rank ords os A check k sp : (forall o, In o ords -> tradable o) -> rmap view ords = Ret os -> (forall f l, Permutation (rank f l) l) -> (1 <= k)%nat -> (length os < fuel)%nat -> (length os + 1 < infuel)%nat -> 0 < A ->
  (exists l, choice (length os) k l /\ A <= total (worth os A) l) ->
  exists acts best, alpha_by_source fuel infuel rank ords A check (Some k) sp = Some (Ret acts) /\ exact_match fuel infuel os A false check [] sp = Some (Ret best) /\
    paid acts = A /\ paid best = A /\ received acts <= received best /\ ((length os <= k)%nat -> received acts = received best).
Proof. exact (exact_source fuel infuel rank ords os A check k sp). Qed.
Print Assumptions C167_exact_source.
(** By target the orders are ranked by what a trader would get back for returning the amount to
    them ([topped]: what they would charge if they held that much more), cheapest first. If the
    first k hold the amount, exactly these are used, and a larger k never costs more. *)
Theorem C167_first_target rank ords os A : (forall o, In o ords -> tradable o) -> ords <> [] -> rmap view ords = Ret os -> (forall f l, Permutation (rank f l) l) -> (forall f l, StronglySorted (fun i j => f j <= f i) (rank f l)) -> 0 < A ->
  exists ranked, Permutation ranked (seq 0 (length os)) /\ ascending (fun i => payment (topped (nth i os (mkX 0 0 0 0)) A) A) ranked /\
    forall fuel infuel check k sp, (1 <= k)%nat -> (length os < fuel)%nat -> (length os + 1 < infuel)%nat -> A <= total (balance os) (firstn k ranked) ->
    exists acts, alpha_by_target fuel infuel rank ords (- A) check (Some k) sp = Some (Ret acts) /\ served_target os (firstn k ranked) A acts /\
      forall k', (k <= k')%nat -> exists acts', alpha_by_target fuel infuel rank ords (- A) check (Some k') sp = Some (Ret acts') /\ paid acts' <= paid acts.
Proof. exact (first_target rank ords os A). Qed.
Print Assumptions C167_first_target.
(** By source they are ranked by what the amount buys, most first. *)
Theorem C167_first_source rank ords os A : (forall o, In o ords -> tradable o) -> ords <> [] -> rmap view ords = Ret os -> (forall f l, Permutation (rank f l) l) -> (forall f l, StronglySorted (fun i j => f j <= f i) (rank f l)) -> 0 < A ->
  exists ranked h, Permutation ranked (seq 0 (length os)) /\ (forall i, (i < length os)%nat -> payment (nth i os (mkX 0 0 0 0)) (h i) = A) /\ ascending (fun i => - h i) ranked /\
    forall fuel infuel check k sp, (1 <= k)%nat -> (length os < fuel)%nat -> (length os + 1 < infuel)%nat -> A <= total (worth os A) (firstn k ranked) ->
    exists acts, alpha_by_source fuel infuel rank ords A check (Some k) sp = Some (Ret acts) /\ served_source os (firstn k ranked) A acts /\
      forall k', (k <= k')%nat -> exists acts', alpha_by_source fuel infuel rank ords A check (Some k') sp = Some (Ret acts') /\ received acts <= received acts'.
Proof. exact (first_source rank ords os A). Qed.
Print Assumptions C167_first_source.
(** with a single order by source, the best of the orders that can take the whole amount is used *)
Theorem C167_single_source fuel infuel rank ords os A check sp : (forall o, In o ords -> tradable o) -> rmap view ords = Ret os -> (forall f l, Permutation (rank f l) l) -> (forall f l, StronglySorted (fun i j => f j <= f i) (rank f l)) -> (length os < fuel)%nat -> (length os + 1 < infuel)%nat -> 0 < A ->
  (exists i, (i < length os)%nat /\ A <= absorbs os i) ->
  exists i acts, (i < length os)%nat /\ alpha_by_source fuel infuel rank ords A check (Some 1%nat) sp = Some (Ret acts) /\ served_source os [i] A acts /\
    forall j t, (j < length os)%nat -> A <= absorbs os j -> 0 <= t <= balance os j -> payment (nth j os (mkX 0 0 0 0)) t <= A -> t <= received acts.
Proof.
  intros T E P D Hf Hi HA (i & Hl & Ha). apply source_one; try assumption. exists i. split; [exact Hl|]. rewrite worth_full by assumption. lra.
Qed.
Print Assumptions C167_single_source.

(** ** by target the best single order is not always used, and a larger k can cost more *)
Lemma payment_value o x t : tradable o -> view o = Ret x ->
  let r := sqrt (o_plow o) + (sqrt (o_phigh o) - sqrt (o_plow o)) * (o_y o / o_yint o) in let r' := sqrt (o_plow o) + (sqrt (o_phigh o) - sqrt (o_plow o)) * ((o_y o - t) / o_yint o) in
  0 < r' -> payment x t = t / (r * r').
Proof.
  intros T Ev r r' Hr'. destruct (tradable_rate o T) as (Hz & HW & Hr). pose proof (tradable_zmax o T) as Ez. destruct T as (H & Ha & _).
  destruct (view_curve true o x t H Ha Ev) as [_ Hc]. unfold cost, rate, seen in Hc. cbn [c_B c_S c_yint] in Hc. rewrite Ez in Hc. fold r r' in Hc. fold r in Hr. rewrite Hc by lra. reflexivity.
Qed.
Lemma served_single os i A acts : 0 < A -> served_target os [i] A acts -> paid acts = payment (nth i os (mkX 0 0 0 0)) A.
Proof.
  intros HA (N & H & Ho & _). destruct (acts_routing os acts (fun j => In j [i]) N H) as (R1 & R2 & R3). assert (Rc : received acts = A) by (unfold received; rewrite Ho; ring). rewrite Rc in R2. rewrite <- R3. clear R3.
  destruct (map ac_index acts) as [|a l] eqn:El; [unfold total in R2; cbn in R2; lra|]. destruct (R1 a (or_introl eq_refl)) as ([<-|[]] & _). destruct l as [|b l].
  - rewrite total_cons in R2 |- *. change (total (taken acts) []) with 0 in R2. change (total _ []) with 0. rewrite Rplus_0_r in R2 |- *. rewrite R2. reflexivity.
  - exfalso. destruct (R1 b (or_intror (or_introl eq_refl))) as ([<-|[]] & _). inversion N as [|? ? N1 _]; subst. apply N1. left. reflexivity.
Qed.
Lemma target_one rank ords os A : (forall o, In o ords -> tradable o) -> ords <> [] -> rmap view ords = Ret os -> (forall f l, Permutation (rank f l) l) -> (forall f l, StronglySorted (fun i j => f j <= f i) (rank f l)) -> 0 < A -> (exists i, (i < length os)%nat /\ A <= balance os i) ->
  exists i, (i < length os)%nat /\ A <= balance os i /\ (forall j, (j < length os)%nat -> A <= balance os j -> payment (topped (nth i os (mkX 0 0 0 0)) A) A <= payment (topped (nth j os (mkX 0 0 0 0)) A) A) /\
    forall fuel infuel check, (length os < fuel)%nat -> (length os + 1 < infuel)%nat -> exists acts, alpha_by_target fuel infuel rank ords (- A) check (Some 1%nat) false = Some (Ret acts) /\ served_target os [i] A acts.
Proof.
  intros T Hne E P D HA (i0 & Hi0 & Hb0). destruct (book_sane ords os T E) as [L H].
  assert (Hs : forall i, (i < length os)%nat -> sane (getx os i)) by (intros i Hi'; destruct (H i Hi') as (o & _ & _ & _ & Hs & _); exact Hs).
  assert (Hpos : forall i, (i < length os)%nat -> 0 <= balance os i) by (intros i Hi'; apply (Hs i Hi')).
  destruct (target_level rank ords os A T Hne E P HA) as (ranked & Pr & Asc & Hr). specialize (Asc D).
  assert (Hin : forall i, In i ranked -> (i < length os)%nat) by (intros i Hi'; assert (H0 : In i (seq 0 (length os))) by (rewrite <- Pr; assumption); apply in_seq in H0; lia).
  destruct (select_one (map (balance os) ranked) A) as (p & Ep & Hp & Ht & Hb).
  { intros v Hv. apply in_map_iff in Hv. destruct Hv as (i & <- & Hi'). apply Hpos, Hin. exact Hi'. }
  { exists (balance os i0). split; [|exact Hb0]. apply in_map. apply (Permutation_in _ (Permutation_sym Pr)). apply in_seq. lia. }
  rewrite map_length in Hp. rewrite (nth_map_total (balance os) ranked O) in Ht by exact Hp. set (i := nth p ranked O) in *. assert (Hi1 : (i < length os)%nat) by (apply Hin, nth_In; exact Hp).
  exists i. split; [exact Hi1|]. split; [exact Ht|]. split.
  - intros j Hj Hbj. assert (Hjr : In j ranked) by (apply (Permutation_in _ (Permutation_sym Pr)); apply in_seq; lia). apply (In_nth _ _ O) in Hjr. destruct Hjr as (q & Hq & Eq). destruct (Nat.lt_trichotomy q p) as [Hlt|[->|Hgt]].
    + exfalso. specialize (Hb q Hlt). rewrite (nth_map_total (balance os) ranked O), Eq in Hb by exact Hq. lra.
    + unfold i. rewrite Eq. lra.
    + destruct (nth_split ranked O Hp) as (a & b & Er & La). fold i in Er. apply (Asc a b i j Er). rewrite <- Eq, Er. rewrite app_nth2 by lia. destruct (q - length a)%nat as [|m] eqn:Em'; [lia|]. cbn [nth]. apply nth_In. rewrite Er, app_length in Hq. cbn in Hq. lia.
  - intros fuel infuel check Hf Hi. destruct (Hr fuel infuel check 1%nat false (le_n 1) ltac:(discriminate)) as (ps & Es & Ea). assert (ps = [p]) by congruence. subst ps. cbn [map] in Ea. fold i in Ea.
    destruct (level_served_target fuel infuel os [i] A check false Hs ltac:(discriminate) ltac:(repeat constructor; intros []) ltac:(intros k [<-|[]]; exact Hi1) Hf Hi HA) as (acts & Em & Sv); [rewrite total_cons; change (total (balance os) []) with 0; lra|].
    exists acts. split; [rewrite Ea; exact Em|exact Sv].
Qed.
Lemma sqv (a b : R) : 0 <= b -> a = b * b -> sqrt a = b. Proof. intros H ->. apply sqrt_square. exact H. Qed.
(** an order that is deep and cheap, and one whose price runs away as it is drained *)
Definition deep : order := an_order 1 4 100 100.
Definition steep : order := an_order 1 9 20 10.
Definition small : order := an_order 1 9 5 5.
Lemma deep_tradable : tradable deep. Proof. unfold tradable, deep, an_order; cbn [o_plow o_phigh o_adj o_B o_S o_yint o_y]; repeat split; lra. Qed.
Lemma steep_tradable : tradable steep. Proof. unfold tradable, steep, an_order; cbn [o_plow o_phigh o_adj o_B o_S o_yint o_y]; repeat split; lra. Qed.
Lemma small_tradable : tradable small. Proof. unfold tradable, small, an_order; cbn [o_plow o_phigh o_adj o_B o_S o_yint o_y]; repeat split; lra. Qed.
Lemma deep_payment x t : view deep = Ret x -> t < 200 -> payment x t = t / (2 * (2 - t / 100)).
Proof.
  intros E Ht. rewrite (payment_value deep x t deep_tradable E); unfold deep, an_order; cbn [o_plow o_phigh o_y o_yint]; rewrite ?sqrt_1, ?(sqv 4 2) by lra; [f_equal; f_equal; lra|lra].
Qed.
Lemma steep_payment x t : view steep = Ret x -> t < 20 -> payment x t = t / (2 * (2 - t / 10)).
Proof.
  intros E Ht. rewrite (payment_value steep x t steep_tradable E); unfold steep, an_order; cbn [o_plow o_phigh o_y o_yint]; rewrite ?sqrt_1, ?(sqv 9 3) by lra; [f_equal; f_equal; lra|lra].
Qed.
Lemma small_payment x t : view small = Ret x -> t < 15 / 2 -> payment x t = t / (3 * (3 - 2 * t / 5)).
Proof.
  intros E Ht. rewrite (payment_value small x t small_tradable E); unfold small, an_order; cbn [o_plow o_phigh o_y o_yint]; rewrite ?sqrt_1, ?(sqv 9 3) by lra; [f_equal; f_equal; lra|lra].
Qed.
Lemma deep_values x : view deep = Ret x -> payment x 10 = 50 / 19 /\ payment x (- (10)) = - (50 / 21).
Proof. intros E. rewrite !(deep_payment x) by (assumption || lra). split; field. Qed.
Lemma steep_values x : view steep = Ret x -> payment x 10 = 5 /\ payment x (- (10)) = - (5 / 3).
Proof. intros E. rewrite !(steep_payment x) by (assumption || lra). split; field. Qed.
Lemma small_values x : view small = Ret x -> payment x 5 = 5 / 3 /\ payment x (- (10)) = - (10 / 21).
Proof. intros E. rewrite !(small_payment x) by (assumption || lra). split; field. Qed.
Theorem C167_single_target_refuted rank check : (forall f l, Permutation (rank f l) l) -> (forall f l, StronglySorted (fun i j => f j <= f i) (rank f l)) ->
  exists ords os A acts j, (forall o, In o ords -> tradable o) /\ rmap view ords = Ret os /\ 0 < A <= balance os j /\ alpha_by_target 10 10 rank ords (- A) check (Some 1%nat) false = Some (Ret acts) /\ received acts = A /\
    payment (nth j os (mkX 0 0 0 0)) A < paid acts.
Proof.
  intros P D. assert (T : forall o, In o [deep; steep] -> tradable o) by (intros o [<-|[<-|[]]]; [exact deep_tradable|exact steep_tradable]).
  destruct (rmap_total view [deep; steep]) as (os & E); [intros o Ho; pose proof (T o Ho) as (H1 & H2 & _ & _ & _ & H3 & _); destruct (view_sane o H1 H2 H3) as (x & Ex & _); exists x; assumption|].
  destruct (book_sane _ os T E) as [L H]. cbn in L. destruct (H 0%nat) as (o0 & E0 & _ & V0 & _ & Y0); [lia|]. destruct (H 1%nat) as (o1 & E1 & _ & V1 & _ & Y1); [lia|]. cbn in E0, E1. assert (o0 = deep) by congruence. assert (o1 = steep) by congruence. subst o0 o1. cbn in Y0, Y1.
  destruct (target_one rank [deep; steep] os 10 T) as (i & Hi & Hbi & Hmin & Hserve); try assumption; [discriminate|lra|exists 0%nat; split; [lia|]; unfold balance; fold (getx os 0); lra|].
  destruct (Hserve 10%nat 10%nat check) as (acts & Ea & Sv); try lia. exists [deep; steep], os, 10, acts, 0%nat. split; [exact T|]. split; [exact E|]. split; [unfold balance; fold (getx os 0); lra|]. split; [exact Ea|].
  split; [destruct Sv as (_ & _ & Ho & _); unfold received; rewrite Ho; ring|]. rewrite (served_single os i 10 acts) by (try assumption; lra). fold (getx os 0). fold (getx os i).
  assert (i = 1%nat) as ->.
  { destruct i as [|[|i]]; [exfalso|reflexivity|lia]. specialize (Hmin 1%nat ltac:(lia) ltac:(unfold balance; fold (getx os 1); lra)). rewrite !topped_payment in Hmin. fold (getx os 0) in Hmin. fold (getx os 1) in Hmin.
    rewrite (proj2 (deep_values _ V0)), (proj2 (steep_values _ V1)) in Hmin. lra. }
  rewrite (proj1 (deep_values _ V0)), (proj1 (steep_values _ V1)). lra.
Qed.
Print Assumptions C167_single_target_refuted.
Theorem C167_more_orders_refuted rank check : (forall f l, Permutation (rank f l) l) -> (forall f l, StronglySorted (fun i j => f j <= f i) (rank f l)) ->
  exists ords A k acts acts', (forall o, In o ords -> tradable o) /\ alpha_by_target 10 10 rank ords (- A) check (Some k) false = Some (Ret acts) /\ alpha_by_target 10 10 rank ords (- A) check (Some (S k)) false = Some (Ret acts') /\
    received acts = A /\ received acts' = A /\ paid acts < paid acts'.
Proof.
  intros P D. set (book := [small; small; deep]). assert (T : forall o, In o book -> tradable o) by (intros o [<-|[<-|[<-|[]]]]; [exact small_tradable|exact small_tradable|exact deep_tradable]).
  destruct (rmap_total view book) as (os & E); [intros o Ho; pose proof (T o Ho) as (H1 & H2 & _ & _ & _ & H3 & _); destruct (view_sane o H1 H2 H3) as (x & Ex & _); exists x; assumption|].
  destruct (book_sane _ os T E) as [L H]. cbn in L. destruct (H 0%nat) as (o0 & E0 & _ & V0 & _ & Y0); [lia|]. destruct (H 1%nat) as (o1 & E1 & _ & V1 & _ & Y1); [lia|]. destruct (H 2%nat) as (o2 & E2 & _ & V2 & _ & Y2); [lia|]. cbn in E0, E1, E2.
  assert (o0 = small) by congruence. assert (o1 = small) by congruence. assert (o2 = deep) by congruence. subst o0 o1 o2. cbn in Y0, Y1, Y2.
  destruct (target_one rank book os 10 T) as (i & Hi & Hbi & _ & Hserve); try assumption; [discriminate|lra|exists 2%nat; split; [lia|]; unfold balance; fold (getx os 2); lra|].
  assert (i = 2%nat) as ->. { destruct i as [|[|[|i]]]; [exfalso|exfalso|reflexivity|lia]; unfold balance in Hbi; [fold (getx os 0) in Hbi|fold (getx os 1) in Hbi]; lra. }
  destruct (Hserve 10%nat 10%nat check) as (acts & Ea & Sv); try lia.
  destruct (C167_first_target rank book os 10 T) as (ranked & Pr & Asc & Hf); try assumption; [discriminate|lra|]. rewrite L in Pr. cbn [seq] in Pr.
  assert (F : payment (topped (nth 0 os (mkX 0 0 0 0)) 10) 10 < payment (topped (nth 2 os (mkX 0 0 0 0)) 10) 10 /\ payment (topped (nth 1 os (mkX 0 0 0 0)) 10) 10 < payment (topped (nth 2 os (mkX 0 0 0 0)) 10) 10).
  { rewrite !topped_payment. fold (getx os 0) (getx os 1) (getx os 2). rewrite (proj2 (small_values _ V0)), (proj2 (small_values _ V1)), (proj2 (deep_values _ V2)). lra. }
  destruct ranked as [|a [|b [|c [|d r]]]]; try (apply Permutation_length in Pr; cbn in Pr; lia).
  assert (Nr : NoDup [a; b; c]) by (apply (Permutation_NoDup (Permutation_sym Pr)); repeat constructor; cbn; intuition congruence).
  assert (Hr : forall q, In q [a; b; c] -> q = 0%nat \/ q = 1%nat \/ q = 2%nat) by (intros q Hq; apply (Permutation_in _ Pr) in Hq; cbn in Hq; intuition lia).
  assert (Hab : (a = 0%nat \/ a = 1%nat) /\ (b = 0%nat \/ b = 1%nat) /\ a <> b).
  { assert (a <> b) by (inversion Nr as [|? ? N1 _]; subst; cbn in N1; intuition). assert (b <> c) by (inversion Nr as [|? ? _ N2]; subst; inversion N2 as [|? ? N3 _]; subst; cbn in N3; intuition). assert (a <> c) by (inversion Nr as [|? ? N1 _]; subst; cbn in N1; intuition).
    pose proof (Hr a ltac:(cbn; tauto)) as Ha. pose proof (Hr b ltac:(cbn; tauto)) as Hb. pose proof (Hr c ltac:(cbn; tauto)) as Hc.
    pose proof (Asc [] [b; c] a c eq_refl ltac:(cbn; tauto)) as Sac. pose proof (Asc [a] [c] b c eq_refl ltac:(cbn; tauto)) as Sbc. cbv beta in Sac, Sbc. destruct F as [F0 F1].
    repeat split; [destruct Ha as [->|[->| ->]]; [left; reflexivity|right; reflexivity|]|destruct Hb as [->|[->| ->]]; [left; reflexivity|right; reflexivity|]|assumption]; exfalso; destruct Hc as [->|[->| ->]]; try lra; congruence. }
  assert (B01 : forall q, q = 0%nat \/ q = 1%nat -> balance os q = 5) by (intros q [->| ->]; unfold balance; [exact Y0|exact Y1]).
  destruct Hab as (Ha & Hb & Nab). destruct (Hf 10%nat 10%nat check 2%nat false) as (acts' & Ea' & Sv' & _); try lia; [cbn [firstn]; rewrite !total_cons, (B01 a Ha), (B01 b Hb); change (total (balance os) []) with 0; lra|]. cbn [firstn] in Sv'.
  exists book, 10, 1%nat, acts, acts'. split; [exact T|]. split; [exact Ea|]. split; [exact Ea'|]. split; [destruct Sv as (_ & _ & Ho & _); unfold received; rewrite Ho; ring|]. split; [destruct Sv' as (_ & _ & Ho & _); unfold received; rewrite Ho; ring|].
  rewrite (served_single os 2 10 acts) by (try assumption; lra). fold (getx os 2). rewrite (proj1 (deep_values _ V2)).
  destruct Sv' as (N & Hacts & Ho & _). destruct (acts_routing os acts' (fun q => In q [a; b]) N Hacts) as (R1 & R2 & R3). assert (Rc : received acts' = 10) by (unfold received; rewrite Ho; ring). rewrite Rc in R2. rewrite <- R3. clear R3.
  assert (Hin : forall q, In q (map ac_index acts') -> (q = 0%nat \/ q = 1%nat) /\ taken acts' q <= 5) by (intros q Hq; destruct (R1 q Hq) as ([<-|[<-|[]]] & Hq1 & _); rewrite ?(B01 a Ha), ?(B01 b Hb) in Hq1; split; try assumption; lra).
  assert (P5 : forall q, q = 0%nat \/ q = 1%nat -> payment (nth q os (mkX 0 0 0 0)) 5 = 5 / 3) by (intros q [->| ->]; [exact (proj1 (small_values _ V0))|exact (proj1 (small_values _ V1))]).
  destruct (map ac_index acts') as [|q [|q' [|q'' l]]]; rewrite ?total_cons in R2; try change (total (taken acts') []) with 0 in R2.
  - lra.
  - destruct (Hin q (or_introl eq_refl)). lra.
  - destruct (Hin q (or_introl eq_refl)) as [Hq Hq1]. destruct (Hin q' (or_intror (or_introl eq_refl))) as [Hq' Hq1']. assert (taken acts' q = 5) by lra. assert (taken acts' q' = 5) by lra. rewrite !total_cons, H0, H1, (P5 q Hq), (P5 q' Hq'). change (total _ []) with 0. lra.
  - exfalso. destruct (Hin q (or_introl eq_refl)) as [Hq _]. destruct (Hin q' (or_intror (or_introl eq_refl))) as [Hq' _]. destruct (Hin q'' (or_intror (or_intror (or_introl eq_refl)))) as [Hq'' _].
    inversion N as [|? ? N1 N2]; subst. inversion N2 as [|? ? N3 _]; subst. cbn in N1, N3. destruct Hq, Hq', Hq''; subst; intuition.
Qed.
Print Assumptions C167_more_orders_refuted.

(** there is such a ranking: insertion *)
Fixpoint put_desc (f : nat -> R) (a : nat) (l : list nat) : list nat := match l with [] => [a] | b :: l' => if rle (f b) (f a) then a :: b :: l' else b :: put_desc f a l' end.
Definition by_desc : ranking := fun f l => fold_right (put_desc f) [] l.
Lemma put_perm f a l : Permutation (put_desc f a l) (a :: l).
Proof. induction l as [|b l IH]; cbn [put_desc]; [apply Permutation_refl|]. destruct (rle (f b) (f a)); [apply Permutation_refl|]. apply Permutation_trans with (b :: a :: l); [apply perm_skip; exact IH|apply perm_swap]. Qed.
Lemma by_desc_perm f l : Permutation (by_desc f l) l.
Proof. unfold by_desc. induction l as [|a l IH]; [apply Permutation_refl|]. cbn [fold_right]. apply Permutation_trans with (1 := put_perm f a _). apply perm_skip. exact IH. Qed.
Lemma by_desc_sorted f l : StronglySorted (fun i j => f j <= f i) (by_desc f l).
Proof.
  unfold by_desc. induction l as [|a l IH]; [constructor|]. cbn [fold_right]. revert IH. generalize (fold_right (put_desc f) [] l). clear l. intros l Hs. induction Hs as [|b l Hs IH F]; cbn [put_desc]; [repeat constructor|].
  destruct (rle (f b) (f a)) eqn:Er.
  - apply rle_spec in Er. constructor; [constructor; assumption|]. constructor; [exact Er|]. apply Forall_forall. intros c Hc. rewrite Forall_forall in F. specialize (F c Hc). cbv beta in F. lra.
  - apply rle_nspec in Er. constructor; [exact IH|]. apply Forall_forall. intros c Hc. apply (Permutation_in _ (put_perm f a l)) in Hc. destruct Hc as [<-|Hc]; [lra|]. rewrite Forall_forall in F. apply F. exact Hc.
Qed.
(** the three orders of C69: two of them deliver 45, not as cheaply as three; 4 paid to the best order alone *)
Example C167_ex : exists os acts best, rmap view three_orders = Ret os /\ alpha_by_target 10 10 by_desc three_orders (- (45)) true (Some 2%nat) false = Some (Ret acts) /\ exact_match 10 10 os (- (45)) true true [] false = Some (Ret best) /\ paid best <= paid acts /\
  exists i acts', alpha_by_source 10 10 by_desc three_orders 4 true (Some 1%nat) false = Some (Ret acts') /\ served_source os [i] 4 acts'.
Proof.
  destruct three_os as (os & E & L & A0 & _ & _ & _ & _ & _ & B0). destruct (absorbs_value three_orders os 1 _ three_tradable E eq_refl) as (B1 & _). destruct (absorbs_value three_orders os 2 _ three_tradable E eq_refl) as (B2 & _). cbn [an_order o_y] in B1, B2.
  destruct (C167_exact_target 10 10 by_desc three_orders os 45 true 2 false three_tradable E by_desc_perm) as (acts & best & Ea & Eb & _ & _ & Hle & _); try lia; try lra.
  { exists [1; 2]%nat. split; [split; [repeat constructor; cbn; intuition lia|]; split; [intros i [<-|[<-|[]]]; lia|cbn; lia]|]. rewrite !total_cons, B1, B2. change (total (balance os) []) with 0. lra. }
  destruct (C167_single_source 10 10 by_desc three_orders os 4 true false three_tradable E by_desc_perm by_desc_sorted) as (i & acts' & _ & Ea' & Sv & _); try lia; try lra; [exists 0%nat; split; [lia|lra]|].
  exists os, acts, best. split; [exact E|]. split; [exact Ea|]. split; [exact Eb|]. split; [exact Hle|]. exists i, acts'. split; assumption.
Qed.
(** the first of them holds the whole of 10 *)
Example C167_first_ex : exists ranked acts, Permutation ranked [0; 1; 2]%nat /\ alpha_by_target 10 10 by_desc three_orders (- (10)) true (Some 1%nat) false = Some (Ret acts) /\ exists os, served_target os (firstn 1 ranked) 10 acts.
Proof.
  destruct three_os as (os & E & L & A0 & _ & _ & _ & _ & _ & B0). destruct (absorbs_value three_orders os 1 _ three_tradable E eq_refl) as (B1 & _). destruct (absorbs_value three_orders os 2 _ three_tradable E eq_refl) as (B2 & _). cbn [an_order o_y] in B1, B2.
  destruct (C167_first_target by_desc three_orders os 10 three_tradable) as (ranked & Pr & _ & H); [discriminate|exact E|exact by_desc_perm|exact by_desc_sorted|lra|]. rewrite L in Pr. cbn [seq] in Pr.
  destruct (H 10%nat 10%nat true 1%nat false) as (acts & Ea & Sv & _); try lia; [|exists ranked, acts; split; [exact Pr|]; split; [exact Ea|]; exists os; exact Sv].
  destruct ranked as [|a r]; [apply Permutation_length in Pr; cbn in Pr; lia|]. cbn [firstn]. rewrite total_cons. change (total (balance os) []) with 0. assert (Ha : In a [0; 1; 2]%nat) by (apply (Permutation_in _ Pr); left; reflexivity). destruct Ha as [<-|[<-|[<-|[]]]]; lra.
Qed.
