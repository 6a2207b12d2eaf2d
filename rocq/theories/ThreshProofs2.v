(** The alpha router against the exact router, and a single order. *)
From Coq Require Import Reals Lra Lia Bool List Arith Permutation Sorted.
From Verif Require Import CurveModel CurveSpec CurveProofs OrderModel OrderProofs ExactModel ExactSpec ExactProofs ExactProofs2 ExactProofs3 ExactProofs4 ExactProofs5 ExactProofs6 AlphaModel AlphaSpec AlphaProofs AlphaProofs2 AlphaProofs3 ThreshSpec ThreshProofs.
Import ListNotations.
Local Open Scope R_scope.

(** ** a list of actions as a routing *)
Definition taken (acts : list action) (i : nat) : R := match find (fun a => Nat.eqb (ac_index a) i) acts with Some a => - ac_output a | None => 0 end.
Lemma taken_in acts a : NoDup (map ac_index acts) -> In a acts -> taken acts (ac_index a) = - ac_output a.
Proof.
  unfold taken. induction acts as [|b acts IH]; intros N Ha; [destruct Ha|]. cbn [map] in N. inversion N as [|? ? N1 N2]; subst. cbn [find]. destruct (Nat.eqb_spec (ac_index b) (ac_index a)) as [Eb|Eb].
  - destruct Ha as [->|Ha]; [reflexivity|]. exfalso. apply N1. rewrite Eb. apply in_map. exact Ha.
  - destruct Ha as [->|Ha]; [congruence|]. apply IH; assumption.
Qed.
Lemma taken_total acts (F : nat -> R -> R) : NoDup (map ac_index acts) -> total (fun i => F i (taken acts i)) (map ac_index acts) = fold_right Rplus 0 (map (fun a => F (ac_index a) (- ac_output a)) acts).
Proof.
  intros N. unfold total. f_equal. rewrite map_map. apply map_ext_in. intros a Ha. rewrite taken_in by assumption. reflexivity.
Qed.
Lemma sum_ext {B} (f g : B -> R) l : (forall a, In a l -> f a = g a) -> fold_right Rplus 0 (map f l) = fold_right Rplus 0 (map g l).
Proof. intros H. f_equal. apply map_ext_in. exact H. Qed.
Lemma sum_opp {B} (f : B -> R) l : fold_right Rplus 0 (map (fun a => - f a) l) = - fold_right Rplus 0 (map f l).
Proof. induction l as [|a l IH]; cbn [map fold_right]; [ring|rewrite IH; ring]. Qed.
Lemma acts_routing os acts (inside : nat -> Prop) : NoDup (map ac_index acts) -> (forall a, In a acts -> inside (ac_index a) /\ - balance os (ac_index a) <= ac_output a < 0 /\ ac_input a = payment (nth (ac_index a) os (mkX 0 0 0 0)) (- ac_output a)) ->
  (forall i, In i (map ac_index acts) -> inside i /\ 0 <= taken acts i <= balance os i /\ 0 < taken acts i) /\ total (taken acts) (map ac_index acts) = received acts /\
  total (fun i => payment (nth i os (mkX 0 0 0 0)) (taken acts i)) (map ac_index acts) = paid acts.
Proof.
  intros N H. split; [|split].
  - intros i Hi. apply in_map_iff in Hi. destruct Hi as (a & <- & Ha). destruct (H a Ha) as (H1 & H2 & _). rewrite taken_in by assumption. split; [exact H1|]. lra.
  - pose proof (taken_total acts (fun _ t => t) N) as E. cbv beta in E. change (total (taken acts) (map ac_index acts)) with (total (fun i => taken acts i) (map ac_index acts)). rewrite E. unfold received. apply sum_opp.
  - rewrite (taken_total acts (fun i t => payment (nth i os (mkX 0 0 0 0)) t) N). unfold paid. apply sum_ext. intros a Ha. symmetry. apply H. exact Ha.
Qed.
(** the actions of the exact router without restriction *)
Lemma exact_acts fuel infuel os x bt check sp acts : (forall i, (i < length os)%nat -> sane (getx os i)) -> exact_match fuel infuel os x bt check [] sp = Some (Ret acts) ->
  (forall a, In a acts -> - xo_y (nth (ac_index a) os (mkX 0 0 0 0)) <= ac_output a < 0) ->
  NoDup (map ac_index acts) /\ forall a, In a acts -> (ac_index a < length os)%nat /\ - balance os (ac_index a) <= ac_output a < 0 /\ ac_input a = payment (nth (ac_index a) os (mkX 0 0 0 0)) (- ac_output a).
Proof.
  intros Hs E B. destruct (match_bounded _ _ _ _ _ _ _ _ _ _ E) as (Nd & Hb & _). split; [exact Nd|]. intros a Ha. destruct (Hb a Ha) as ((Hu & _) & _ & Hy & Hx). split; [exact Hu|]. split; [apply B; exact Ha|]. apply action_price; try assumption. apply Hs. exact Hu.
Qed.
Lemma nz_routing os l t : NoDup l -> (forall i, In i l -> (i < length os)%nat /\ 0 <= t i <= balance os i) ->
  NoDup (nz os l) /\ (forall i, In i (nz os l) -> usable os [] i /\ 0 <= t i <= xo_y (nth i os (mkX 0 0 0 0))) /\ total t (nz os l) = total t l /\
  total (fun i => payment (nth i os (mkX 0 0 0 0)) (t i)) (nz os l) = total (fun i => payment (nth i os (mkX 0 0 0 0)) (t i)) l.
Proof.
  intros N H. assert (Z : forall i, In i l -> xo_y (getx os i) = 0 -> t i = 0) by (intros i Hi Hz; destruct (H i Hi) as [_ Ht]; unfold balance in Ht; unfold getx in Hz; lra).
  split; [apply NoDup_filter; exact N|]. split; [|split].
  - intros i Hi. apply in_nz in Hi. destruct Hi as [Hi Hz]. destruct (H i Hi) as [Hl Ht]. split; [|exact Ht]. split; [exact Hl|]. split; [left; reflexivity|exact Hz].
  - apply nz_total. exact Z.
  - apply nz_total. intros i Hi Hz. rewrite Z by assumption. apply payment_zero.
Qed.

(** ** against the exact router *)
Lemma exact_target fuel infuel rank ords os A check k sp : (forall o, In o ords -> tradable o) -> rmap view ords = Ret os -> (forall f l, Permutation (rank f l) l) -> (1 <= k)%nat -> (length os < fuel)%nat -> (length os + 1 < infuel)%nat -> 0 < A ->
  (exists l, choice (length os) k l /\ A <= total (balance os) l) ->
  exists acts best, alpha_by_target fuel infuel rank ords (- A) check (Some k) sp = Some (Ret acts) /\ exact_match fuel infuel os (- A) true check [] sp = Some (Ret best) /\
    received acts = A /\ received best = A /\ paid best <= paid acts /\ ((length os <= k)%nat -> paid best = paid acts).
Proof.
  intros T E P Hk Hf Hi HA (l & C & HT). destruct (book_sane ords os T E) as [L H].
  assert (Hs : forall i, (i < length os)%nat -> sane (getx os i)) by (intros i Hi'; destruct (H i Hi') as (o & _ & _ & _ & Hs & _); exact Hs).
  assert (Hpos : forall i, (i < length os)%nat -> 0 <= balance os i) by (intros i Hi'; apply (Hs i Hi')).
  assert (Hlen : (1 <= length os)%nat). { destruct l as [|i l]; [unfold total in HT; cbn in HT; lra|]. destruct C as (_ & V & _). specialize (V i (or_introl eq_refl)). lia. }
  assert (Hne : ords <> []) by (intros ->; cbn in L; lia).
  pose proof (choice_total (balance os) _ k l Hpos C) as Hall.
  destruct (target_level rank ords os A T Hne E P HA) as (ranked & Pr & _ & Hr). destruct (Hr fuel infuel check k sp Hk ltac:(intros _; lra)) as (ps & Es & Ea).
  destruct (level_facts (length os) k ranked (balance os) A ps Pr Hlen Hk Hpos Es) as (Cl & Hl & Hperm & Hsum & _). set (level := map (fun p => nth p ranked O) ps) in *.
  destruct (level_served_target fuel infuel os level A check sp Hs Hl (proj1 Cl) (proj1 (proj2 Cl)) Hf Hi HA) as (acts & Em & Nd & Hacts & Hout & Hopt); [apply Hsum; exists l; split; assumption|].
  destruct (acts_routing os acts (fun i => In i level) Nd Hacts) as (R1 & R2 & R3).
  destruct (nz_routing os l (balance os)) as (Nz & Uz & Tz & _); [apply C|intros i Hi'; destruct C as (_ & V & _); specialize (V i Hi'); split; [exact V|]; specialize (Hpos i V); lra|].
  destruct (match_optimal_target fuel infuel os [] A check sp) as (best & Eb & Bo & Bb & Bopt); try assumption; [intros i (Hi' & _); apply Hs; exact Hi'|intros i []|exists (nz os l), (balance os); split; [exact Nz|]; split; [exact Uz|rewrite Tz; exact HT]|].
  destruct (exact_acts _ _ _ _ _ _ _ _ Hs Eb Bb) as (Nb & Hb). destruct (acts_routing os best (fun i => (i < length os)%nat) Nb Hb) as (Q1 & Q2 & Q3).
  assert (Ra : received acts = A) by (unfold received; rewrite Hout; ring). assert (Rb : received best = A) by (unfold received; unfold rsum in Bo; rewrite Bo; ring).
  exists acts, best. split; [rewrite Ea; exact Em|]. split; [exact Eb|]. split; [exact Ra|]. split; [exact Rb|].
  assert (Hle : paid best <= paid acts).
  { rewrite <- R3. apply Bopt; [exact Nd| |rewrite R2, Ra; lra]. intros i Hi'. destruct (R1 i Hi') as (H1 & H2 & H3). destruct Cl as (_ & V & _). split; [|exact H2]. split; [apply V; exact H1|]. split; [left; reflexivity|]. unfold balance in H2. lra. }
  split; [exact Hle|]. intros Hk'. apply Rle_antisym; [exact Hle|]. rewrite <- Q3. apply Hopt; [|rewrite Q2, Rb; lra]. split; [exact Nb|]. intros i Hi'. destruct (Q1 i Hi') as (H1 & H2 & _). split; [|exact H2]. apply (Permutation_in _ (Permutation_sym (Hperm Hk'))). apply in_seq. lia.
Qed.
Lemma exact_source fuel infuel rank ords os A check k sp : (forall o, In o ords -> tradable o) -> rmap view ords = Ret os -> (forall f l, Permutation (rank f l) l) -> (1 <= k)%nat -> (length os < fuel)%nat -> (length os + 1 < infuel)%nat -> 0 < A ->
  (exists l, choice (length os) k l /\ A <= total (worth os A) l) ->
  exists acts best, alpha_by_source fuel infuel rank ords A check (Some k) sp = Some (Ret acts) /\ exact_match fuel infuel os A false check [] sp = Some (Ret best) /\
    paid acts = A /\ paid best = A /\ received acts <= received best /\ ((length os <= k)%nat -> received acts = received best).
Proof.
  intros T E P Hk Hf Hi HA (l & C & HT). destruct (book_sane ords os T E) as [L H].
  assert (Hs : forall i, (i < length os)%nat -> sane (getx os i)) by (intros i Hi'; destruct (H i Hi') as (o & _ & _ & _ & Hs & _); exact Hs).
  assert (Hb0 : forall i, (i < length os)%nat -> 0 <= balance os i) by (intros i Hi'; apply (Hs i Hi')).
  assert (Hpos : forall i, (i < length os)%nat -> 0 <= worth os A i) by (intros i Hi'; apply (worth_bounds ords); assumption).
  assert (Hlen : (1 <= length os)%nat). { destruct l as [|i l]; [unfold total in HT; cbn in HT; lra|]. destruct C as (_ & V & _). specialize (V i (or_introl eq_refl)). lia. }
  assert (Hne : ords <> []) by (intros ->; cbn in L; lia).
  pose proof (choice_total (worth os A) _ k l Hpos C) as Hall.
  destruct (source_level rank ords os A T Hne E P HA) as (ranked & h & Pr & _ & _ & Hr). destruct (Hr fuel infuel check k sp Hk ltac:(intros _; lra)) as (ps & Es & Ea).
  destruct (level_facts (length os) k ranked (worth os A) A ps Pr Hlen Hk Hpos Es) as (Cl & Hl & Hperm & Hsum & _). set (level := map (fun p => nth p ranked O) ps) in *.
  pose proof (worth_total ords os A level T E HA (proj1 (proj2 Cl))) as Hw. pose proof (worth_total ords os A l T E HA (proj1 (proj2 C))) as Hwl.
  destruct (level_served_source fuel infuel os level A check sp Hs Hl (proj1 Cl) (proj1 (proj2 Cl)) Hf Hi HA) as (acts & Em & Nd & Hacts & Hin & Hopt); [apply Rle_trans with (2 := Hw); apply Hsum; exists l; split; assumption|].
  destruct (acts_routing os acts (fun i => In i level) Nd Hacts) as (R1 & R2 & R3).
  destruct (nz_routing os l (balance os)) as (Nz & Uz & _ & Tz); [apply C|intros i Hi'; destruct C as (_ & V & _); specialize (V i Hi'); split; [exact V|]; specialize (Hb0 i V); lra|].
  destruct (match_optimal_src fuel infuel os [] A check sp) as (best & Eb & Bo & Bb & Bopt); try assumption; [intros i (Hi' & _); apply Hs; exact Hi'|exists (nz os l), (balance os); split; [exact Nz|]; split; [exact Uz|rewrite Tz; apply Rle_trans with (1 := HT); exact Hwl]|].
  destruct (exact_acts _ _ _ _ _ _ _ _ Hs Eb Bb) as (Nb & Hb). destruct (acts_routing os best (fun i => (i < length os)%nat) Nb Hb) as (Q1 & Q2 & Q3).
  assert (Ra : paid acts = A) by exact Hin. assert (Rb : paid best = A) by exact Bo.
  exists acts, best. split; [rewrite Ea; exact Em|]. split; [exact Eb|]. split; [exact Ra|]. split; [exact Rb|].
  assert (Hle : received acts <= received best).
  { rewrite <- R2. apply Bopt; [exact Nd| |rewrite R3, Ra; lra]. intros i Hi'. destruct (R1 i Hi') as (H1 & H2 & H3). destruct Cl as (_ & V & _). split; [|exact H2]. split; [apply V; exact H1|]. split; [left; reflexivity|]. unfold balance in H2. lra. }
  split; [exact Hle|]. intros Hk'. apply Rle_antisym; [exact Hle|]. rewrite <- Q2. apply Hopt; [|rewrite Q3, Rb; lra]. split; [exact Nb|]. intros i Hi'. destruct (Q1 i Hi') as (H1 & H2 & _). split; [|exact H2]. apply (Permutation_in _ (Permutation_sym (Hperm Hk'))). apply in_seq. lia.
Qed.

(** ** when the best-ranked orders suffice *)
Lemma served_within_target os level level' A acts acts' : served_target os level A acts -> served_target os level' A acts' -> (forall i, In i level -> In i level') -> paid acts' <= paid acts.
Proof.
  intros (N & H & Ho & _) (_ & _ & _ & O') I. destruct (acts_routing os acts (fun i => In i level) N H) as (R1 & R2 & R3). rewrite <- R3. apply O'.
  - split; [exact N|]. intros i Hi. destruct (R1 i Hi) as (H1 & H2 & _). split; [apply I; exact H1|exact H2].
  - rewrite R2. unfold received. rewrite Ho. lra.
Qed.
Lemma served_within_source os level level' A acts acts' : served_source os level A acts -> served_source os level' A acts' -> (forall i, In i level -> In i level') -> received acts <= received acts'.
Proof.
  intros (N & H & Ho & _) (_ & _ & _ & O') I. destruct (acts_routing os acts (fun i => In i level) N H) as (R1 & R2 & R3). rewrite <- R2. apply O'.
  - split; [exact N|]. intros i Hi. destruct (R1 i Hi) as (H1 & H2 & _). split; [apply I; exact H1|exact H2].
  - rewrite R3. unfold paid. rewrite Ho. lra.
Qed.
Lemma firstn_more {B} (l : list B) k k' i : (k <= k')%nat -> In i (firstn k l) -> In i (firstn k' l).
Proof. revert k k'. induction l as [|a l IH]; intros [|k] [|k'] Hk Hi; cbn in Hi |- *; try contradiction; try lia. destruct Hi as [->|Hi]; [left; reflexivity|right; apply (IH k); [lia|exact Hi]]. Qed.
Lemma firstn_total (f : nat -> R) l k k' : (forall i, In i l -> 0 <= f i) -> (k <= k')%nat -> total f (firstn k l) <= total f (firstn k' l).
Proof.
  revert k k'. induction l as [|a l IH]; intros [|k] [|k'] H Hk; cbn [firstn]; try lia; try (unfold total; cbn; lra).
  - change (total f []) with 0. apply total_nonneg. intros i [<-|Hi]; apply H; [left; reflexivity|right; clear - Hi; revert l Hi; induction k' as [|k' IH]; intros [|b l] Hi; cbn in Hi; try contradiction; destruct Hi as [->|Hi]; [left; reflexivity|right; apply IH; exact Hi]].
  - rewrite !total_cons. assert (total f (firstn k l) <= total f (firstn k' l)) by (apply IH; [intros; apply H; right; assumption|lia]). lra.
Qed.
Lemma first_target rank ords os A : (forall o, In o ords -> tradable o) -> ords <> [] -> rmap view ords = Ret os -> (forall f l, Permutation (rank f l) l) -> (forall f l, StronglySorted (fun i j => f j <= f i) (rank f l)) -> 0 < A ->
  exists ranked, Permutation ranked (seq 0 (length os)) /\ ascending (fun i => payment (topped (nth i os (mkX 0 0 0 0)) A) A) ranked /\
    forall fuel infuel check k sp, (1 <= k)%nat -> (length os < fuel)%nat -> (length os + 1 < infuel)%nat -> A <= total (balance os) (firstn k ranked) ->
    exists acts, alpha_by_target fuel infuel rank ords (- A) check (Some k) sp = Some (Ret acts) /\ served_target os (firstn k ranked) A acts /\
      forall k', (k <= k')%nat -> exists acts', alpha_by_target fuel infuel rank ords (- A) check (Some k') sp = Some (Ret acts') /\ paid acts' <= paid acts.
Proof.
  intros T Hne E P D HA. destruct (book_sane ords os T E) as [L H].
  assert (Hs : forall i, (i < length os)%nat -> sane (getx os i)) by (intros i Hi'; destruct (H i Hi') as (o & _ & _ & _ & Hs & _); exact Hs).
  assert (Hpos : forall i, (i < length os)%nat -> 0 <= balance os i) by (intros i Hi'; apply (Hs i Hi')).
  assert (Hlen : (1 <= length os)%nat) by (rewrite L; destruct ords; [congruence|cbn; lia]).
  destruct (target_level rank ords os A T Hne E P HA) as (ranked & Pr & Asc & Hr). exists ranked. split; [exact Pr|]. split; [apply Asc; exact D|]. intros fuel infuel check k sp Hk Hf Hi HT.
  assert (Hin : forall i, In i ranked -> (i < length os)%nat) by (intros i Hi'; assert (H0 : In i (seq 0 (length os))) by (rewrite <- Pr; assumption); apply in_seq in H0; lia).
  assert (Serve : forall k', (k <= k')%nat -> exists acts, alpha_by_target fuel infuel rank ords (- A) check (Some k') sp = Some (Ret acts) /\ served_target os (firstn k' ranked) A acts).
  { intros k' Hk'. assert (HT' : A <= total (balance os) (firstn k' ranked)) by (apply Rle_trans with (1 := HT); apply firstn_total; [intros; apply Hpos, Hin; assumption|exact Hk']).
    assert (Hall : A <= total (balance os) (seq 0 (length os))). { rewrite <- (total_perm _ _ _ Pr). rewrite <- (firstn_all ranked). apply Rle_trans with (1 := HT'). destruct (Nat.le_ge_cases k' (length ranked)); [apply firstn_total; [intros; apply Hpos, Hin; assumption|assumption]|rewrite (firstn_all2 ranked) by assumption; rewrite firstn_all; lra]. }
    destruct (Hr fuel infuel check k' sp ltac:(lia) ltac:(intros _; exact Hall)) as (ps & Es & Ea). destruct (level_facts (length os) k' ranked (balance os) A ps Pr Hlen ltac:(lia) Hpos Es) as (Cl & Hl & _ & _ & Hw).
    rewrite (Hw HT') in Ea, Cl, Hl. destruct (level_served_target fuel infuel os (firstn k' ranked) A check sp Hs Hl (proj1 Cl) (proj1 (proj2 Cl)) Hf Hi HA HT') as (acts & Em & Sv). exists acts. split; [rewrite Ea; exact Em|exact Sv]. }
  destruct (Serve k (le_n k)) as (acts & E1 & S1). exists acts. split; [exact E1|]. split; [exact S1|]. intros k' Hk'. destruct (Serve k' Hk') as (acts' & E2 & S2). exists acts'. split; [exact E2|]. apply (served_within_target os _ _ A acts acts' S1 S2). intros i. apply firstn_more. exact Hk'.
Qed.
Lemma first_source rank ords os A : (forall o, In o ords -> tradable o) -> ords <> [] -> rmap view ords = Ret os -> (forall f l, Permutation (rank f l) l) -> (forall f l, StronglySorted (fun i j => f j <= f i) (rank f l)) -> 0 < A ->
  exists ranked h, Permutation ranked (seq 0 (length os)) /\ (forall i, (i < length os)%nat -> payment (nth i os (mkX 0 0 0 0)) (h i) = A) /\ ascending (fun i => - h i) ranked /\
    forall fuel infuel check k sp, (1 <= k)%nat -> (length os < fuel)%nat -> (length os + 1 < infuel)%nat -> A <= total (worth os A) (firstn k ranked) ->
    exists acts, alpha_by_source fuel infuel rank ords A check (Some k) sp = Some (Ret acts) /\ served_source os (firstn k ranked) A acts /\
      forall k', (k <= k')%nat -> exists acts', alpha_by_source fuel infuel rank ords A check (Some k') sp = Some (Ret acts') /\ received acts <= received acts'.
Proof.
  intros T Hne E P D HA. destruct (book_sane ords os T E) as [L H].
  assert (Hs : forall i, (i < length os)%nat -> sane (getx os i)) by (intros i Hi'; destruct (H i Hi') as (o & _ & _ & _ & Hs & _); exact Hs).
  assert (Hpos : forall i, (i < length os)%nat -> 0 <= worth os A i) by (intros i Hi'; apply (worth_bounds ords); assumption).
  assert (Hlen : (1 <= length os)%nat) by (rewrite L; destruct ords; [congruence|cbn; lia]).
  destruct (source_level rank ords os A T Hne E P HA) as (ranked & h & Pr & Hh & Asc & Hr). exists ranked, h. split; [exact Pr|]. split; [exact Hh|]. split; [apply Asc; exact D|]. intros fuel infuel check k sp Hk Hf Hi HT.
  assert (Hin : forall i, In i ranked -> (i < length os)%nat) by (intros i Hi'; assert (H0 : In i (seq 0 (length os))) by (rewrite <- Pr; assumption); apply in_seq in H0; lia).
  assert (Serve : forall k', (k <= k')%nat -> exists acts, alpha_by_source fuel infuel rank ords A check (Some k') sp = Some (Ret acts) /\ served_source os (firstn k' ranked) A acts).
  { intros k' Hk'. assert (HT' : A <= total (worth os A) (firstn k' ranked)) by (apply Rle_trans with (1 := HT); apply firstn_total; [intros; apply Hpos, Hin; assumption|exact Hk']).
    assert (Hall : A <= total (worth os A) (seq 0 (length os))). { rewrite <- (total_perm _ _ _ Pr). rewrite <- (firstn_all ranked). apply Rle_trans with (1 := HT'). destruct (Nat.le_ge_cases k' (length ranked)); [apply firstn_total; [intros; apply Hpos, Hin; assumption|assumption]|rewrite (firstn_all2 ranked) by assumption; rewrite firstn_all; lra]. }
    destruct (Hr fuel infuel check k' sp ltac:(lia) ltac:(intros _; exact Hall)) as (ps & Es & Ea). destruct (level_facts (length os) k' ranked (worth os A) A ps Pr Hlen ltac:(lia) Hpos Es) as (Cl & Hl & _ & _ & Hw).
    rewrite (Hw HT') in Ea, Cl, Hl. pose proof (worth_total ords os A (firstn k' ranked) T E HA (proj1 (proj2 Cl))) as Hww.
    destruct (level_served_source fuel infuel os (firstn k' ranked) A check sp Hs Hl (proj1 Cl) (proj1 (proj2 Cl)) Hf Hi HA ltac:(lra)) as (acts & Em & Sv). exists acts. split; [rewrite Ea; exact Em|exact Sv]. }
  destruct (Serve k (le_n k)) as (acts & E1 & S1). exists acts. split; [exact E1|]. split; [exact S1|]. intros k' Hk'. destruct (Serve k' Hk') as (acts' & E2 & S2). exists acts'. split; [exact E2|]. apply (served_within_source os _ _ A acts acts' S1 S2). intros i. apply firstn_more. exact Hk'.
Qed.

(** ** a single order *)
Lemma first_reaching (numbers : list R) thr : (exists v, In v numbers /\ thr <= v) -> exists p, (p < length numbers)%nat /\ thr <= nth p numbers 0 /\ forall q, (q < p)%nat -> nth q numbers 0 < thr.
Proof.
  induction numbers as [|a numbers IH]; intros (v & Hv & Ht); [destruct Hv|]. destruct (Rle_dec thr a) as [Ha|Ha].
  - exists 0%nat. split; [cbn; lia|]. split; [exact Ha|]. intros q Hq. lia.
  - destruct IH as (p & Hp & H1 & H2); [destruct Hv as [->|Hv]; [contradiction|exists v; split; assumption]|]. exists (S p). split; [cbn; lia|]. split; [exact H1|]. intros [|q] Hq; cbn [nth]; [lra|apply H2; lia].
Qed.
Lemma enum_step numbers j : (j < length numbers)%nat -> enumerate j (skipn j numbers) = (j, nth j numbers 0) :: enumerate (S j) (skipn (S j) numbers).
Proof.
  intros Hj. assert (E : skipn j numbers = nth j numbers 0 :: skipn (S j) numbers) by (revert j Hj; induction numbers as [|a numbers IH]; intros [|j] Hj; cbn in Hj |- *; try lia; [reflexivity|apply IH; lia]). rewrite E. reflexivity.
Qed.
Lemma loop_one numbers thr mf mv p : (p < length numbers)%nat -> thr <= nth p numbers 0 -> (forall q, (q < p)%nat -> nth q numbers 0 < thr) -> (forall v, In v numbers -> v <= mv) ->
  forall m j i, (p - j = m)%nat -> (j <= p)%nat -> (i <= j)%nat -> (forall q, (q <= j)%nat -> nth q numbers 0 <= nth i numbers 0) ->
  select_loop (length numbers) 1 thr mf mv true (enumerate j (skipn j numbers)) [(i, nth i numbers 0)] = Ret (Some [p]).
Proof.
  intros Hp Ht Hb Hmv. induction m as [|m IH]; intros j i Hm Hj Hi Hmax.
  - assert (j = p) by lia. subst j. assert (i = p). { destruct (Nat.eq_dec i p) as [|Hne]; [assumption|exfalso]. specialize (Hb i ltac:(lia)). specialize (Hmax p (le_n p)). lra. } subst i.
    rewrite enum_step by exact Hp. cbn [select_loop negb andb]. unfold sum_me. cbn [map snd rsum fold_right]. rewrite rle_true by (unfold rsum; cbn; lra). unfold assertion_checks. rewrite rle_true by (unfold rsum; cbn; lra). reflexivity.
  - assert (Hip : nth i numbers 0 < thr) by (apply Hb; lia). rewrite enum_step by lia. cbn [select_loop negb andb]. unfold sum_me. cbn [map snd]. rewrite rle_false by (unfold rsum; cbn; lra).
    replace (Nat.ltb (j + 1) (length numbers)) with true by (symmetry; apply Nat.ltb_lt; lia). unfold min_item. cbn [map rmin_of filter snd]. rewrite (req_true _ _ eq_refl). cbn [rbind].
    assert (Eg : get_i ((j, nth j numbers 0) :: enumerate (S j) (skipn (S j) numbers)) (j + 1) = Ret (S j, nth (S j) numbers 0)).
    { unfold get_i. cbn [filter fst]. replace (Nat.eqb j (j + 1)) with false by (symmetry; apply Nat.eqb_neq; lia). rewrite enum_step by lia. cbn [filter fst]. replace (Nat.eqb (S j) (j + 1)) with true by (symmetry; apply Nat.eqb_eq; lia). reflexivity. }
    rewrite Eg. cbn [rbind snd]. rewrite rle_false by (assert (nth p numbers 0 <= mv) by (apply Hmv, nth_In; exact Hp); lra).
    destruct (Rlt_dec (nth i numbers 0) (nth (S j) numbers 0)) as [Hlt|Hge].
    + rewrite rlt_true by exact Hlt. cbn [remove_row fst snd]. rewrite Nat.eqb_refl, (req_true _ _ eq_refl). cbn [andb app]. apply IH; try lia. intros q Hq. destruct (Nat.eq_dec q (S j)) as [->|Hq']; [lra|]. specialize (Hmax q ltac:(lia)). lra.
    + rewrite rlt_false by lra. apply IH; try lia. intros q Hq. destruct (Nat.eq_dec q (S j)) as [->|Hq']; [lra|apply Hmax; lia].
Qed.
Lemma select_one numbers thr : (forall v, In v numbers -> 0 <= v) -> (exists v, In v numbers /\ thr <= v) ->
  exists p, select numbers thr 1 = Ret (Some [p]) /\ (p < length numbers)%nat /\ thr <= nth p numbers 0 /\ forall q, (q < p)%nat -> nth q numbers 0 < thr.
Proof.
  intros P Hex. destruct (first_reaching numbers thr Hex) as (p & Hp & Ht & Hb). exists p. split; [|split; [exact Hp|split; assumption]].
  unfold select. assert (Hne : numbers <> []) by (intros ->; cbn in Hp; lia). assert (Hiv : enumerate 0 numbers <> []) by (destruct numbers; [congruence|discriminate]).
  destruct (max_item_spec _ Hiv) as (mx & -> & _ & Hmx). cbn [rbind]. fold (maxfill numbers 1).
  assert (Hmf : thr <= maxfill numbers 1).
  { apply Rle_trans with (1 := Ht). replace (nth p numbers 0) with (rsum (map (fun i => nth i numbers 0) [p])) by (unfold rsum; cbn; ring). apply maxfill_upper; [apply Forall_forall; exact P|repeat constructor; intros []|intros i [<-|[]]; exact Hp|cbn; lia]. }
  rewrite rle_true by exact Hmf. pose proof (loop_one numbers thr (maxfill numbers 1) (snd mx) p Hp Ht Hb) as Hl. specialize (Hl ltac:(intros v Hv; rewrite <- (enum_snd numbers 0) in Hv; apply in_map_iff in Hv; destruct Hv as (r & <- & Hr); apply Hmx; exact Hr) p 0%nat 0%nat ltac:(lia) ltac:(lia) ltac:(lia)).
  assert (E1 : firstn 1 (enumerate 0 numbers) = [(0%nat, nth 0 numbers 0)]) by (destruct numbers; [congruence|reflexivity]). rewrite E1. change (enumerate 0 numbers) with (enumerate 0 (skipn 0 numbers)). apply Hl. intros q Hq. replace q with 0%nat by lia. lra.
Qed.
Lemma worth_full os A i : 0 < A -> (A <= absorbs os i -> worth os A i = A).
Proof. intros HA H. unfold worth. destruct (Rlt_dec (absorbs os i) A); [lra|reflexivity]. Qed.
Lemma source_one fuel infuel rank ords os A check sp : (forall o, In o ords -> tradable o) -> rmap view ords = Ret os -> (forall f l, Permutation (rank f l) l) -> (forall f l, StronglySorted (fun i j => f j <= f i) (rank f l)) -> (length os < fuel)%nat -> (length os + 1 < infuel)%nat -> 0 < A ->
  (exists i, (i < length os)%nat /\ A <= worth os A i) ->
  exists i acts, (i < length os)%nat /\ alpha_by_source fuel infuel rank ords A check (Some 1%nat) sp = Some (Ret acts) /\ served_source os [i] A acts /\
    forall j t, (j < length os)%nat -> A <= absorbs os j -> 0 <= t <= balance os j -> payment (nth j os (mkX 0 0 0 0)) t <= A -> t <= received acts.
Proof.
  intros T E P D Hf Hi HA (i0 & Hi0 & Hw0). destruct (book_sane ords os T E) as [L H].
  assert (Hs : forall i, (i < length os)%nat -> sane (getx os i)) by (intros i Hi'; destruct (H i Hi') as (o & _ & _ & _ & Hs & _); exact Hs).
  assert (Hpos : forall i, (i < length os)%nat -> 0 <= worth os A i) by (intros i Hi'; apply (worth_bounds ords); assumption).
  assert (Hne : ords <> []) by (intros ->; cbn in L; lia).
  destruct (source_level rank ords os A T Hne E P HA) as (ranked & h & Pr & Hh & Asc & Hr). specialize (Asc D).
  assert (Hin : forall i, In i ranked -> (i < length os)%nat) by (intros i Hi'; assert (H0 : In i (seq 0 (length os))) by (rewrite <- Pr; assumption); apply in_seq in H0; lia).
  assert (Lr : length ranked = length os) by (rewrite (Permutation_length Pr), seq_length; reflexivity).
  assert (Hall : A <= total (worth os A) (seq 0 (length os))).
  { apply Rle_trans with (total (worth os A) [i0]); [rewrite total_cons; unfold total; cbn; lra|]. apply (choice_total (worth os A) _ 1 [i0] Hpos). split; [repeat constructor; intros []|]. split; [intros i [<-|[]]; exact Hi0|cbn; lia]. }
  destruct (Hr fuel infuel check 1%nat sp (le_n 1) ltac:(intros _; exact Hall)) as (ps & Es & Ea).
  destruct (select_one (map (worth os A) ranked) A) as (p & Ep & Hp & Ht & Hb).
  { intros v Hv. apply in_map_iff in Hv. destruct Hv as (i & <- & Hi'). apply Hpos, Hin. exact Hi'. }
  { exists (worth os A i0). split; [|exact Hw0]. apply in_map. apply (Permutation_in _ (Permutation_sym Pr)). apply in_seq. lia. }
  assert (ps = [p]) by congruence. subst ps. cbn [map] in Ea. rewrite map_length in Hp. rewrite (nth_map_total (worth os A) ranked O) in Ht by exact Hp.
  set (i := nth p ranked O) in *. assert (Hi1 : (i < length os)%nat) by (apply Hin, nth_In; exact Hp). destruct (worth_bounds ords os A i T E HA Hi1) as ((_ & Hwa) & _).
  destruct (level_served_source fuel infuel os [i] A check sp Hs ltac:(discriminate) ltac:(repeat constructor; intros []) ltac:(intros k [<-|[]]; exact Hi1) Hf Hi HA) as (acts & Em & Sv); [rewrite total_cons; change (total (absorbs os) []) with 0; lra|].
  exists i, acts. split; [exact Hi1|]. split; [rewrite Ea; exact Em|]. split; [exact Sv|]. intros j t Hj Hja Ht' Hpay.
  assert (Hle : forall k, (k < length os)%nat -> A <= absorbs os k -> h k <= balance os k).
  { intros k Hk Hka. destruct (Rle_dec (h k) (balance os k)) as [|Hn]; [assumption|exfalso]. specialize (Hh k Hk). destruct (H k Hk) as (o & Eo & To & Ev & _). destruct (hyp_source_value o _ A To Ev HA) as (h' & E1 & E2). destruct (view_worth o _ A To Ev HA) as (h2 & E3 & Hh2 & Hiff & _). assert (h2 = h') by congruence. subst h2.
    assert (Hlt : ~ xo_y (getx os k) < h') by (rewrite Hiff; unfold absorbs, balance in Hka; unfold getx; lra).
    (* both amounts cost A: h k beyond the balance cannot, unless the curve is left *)
    destruct (Req_dec (h k) h') as [Eq|Nq]; [unfold balance in Hn; unfold getx in Hlt; lra|]. 
    unfold payment in Hh, E2. fold (getx os k) in Hh. set (o' := getx os k) in *. pose proof (Hs k Hk) as So. fold o' in So. pose proof (depth0_pos o' So) as D0. pose proof So as ((Hn0 & _) & Hx0 & Hy0 & _).
    assert (HK : 0 < xo_x0 o' * xo_y0 o') by (apply Rmult_lt_0_compat; assumption).
    assert (Inj : forall u, xo_x0 o' * xo_y0 o' * u / (depth o' 0 * depth o' (- u)) = A -> u * (xo_x0 o' * xo_y0 o' + A * depth o' 0 * xo_n o') = A * depth o' 0 * depth o' 0).
    { intros u Hu. destruct (Req_dec (depth o' (- u)) 0) as [Z0|Z0]; [rewrite Z0, Rmult_0_r in Hu; unfold Rdiv in Hu; rewrite Rinv_0, Rmult_0_r in Hu; lra|].
      assert (Hm : xo_x0 o' * xo_y0 o' * u = A * (depth o' 0 * depth o' (- u))) by (rewrite <- Hu; field; split; lra). rewrite (depth_shift o' (- u)) in Hm. lra. }
    pose proof (Inj _ Hh) as I1. pose proof (Inj _ E2) as I2. apply Nq. apply (Rmult_eq_reg_r (xo_x0 o' * xo_y0 o' + A * depth o' 0 * xo_n o')); [lra|]. assert (0 < A * depth o' 0 * xo_n o') by (repeat apply Rmult_lt_0_compat; lra). lra. }
  assert (Hrank : h j <= h i).
  { assert (Hjr : In j ranked) by (apply (Permutation_in _ (Permutation_sym Pr)); apply in_seq; lia). apply (In_nth _ _ O) in Hjr. destruct Hjr as (q & Hq & Eq). destruct (Nat.lt_trichotomy q p) as [Hlt|[->|Hgt]].
    - exfalso. specialize (Hb q Hlt). rewrite (nth_map_total (worth os A) ranked O), Eq in Hb by exact Hq. rewrite worth_full in Hb by assumption. lra.
    - unfold i. rewrite Eq. lra.
    - destruct (nth_split ranked O Hp) as (a & b & Er & La). fold i in Er. assert (Hjb : In j b). { rewrite <- Eq, Er. rewrite app_nth2 by lia. destruct (q - length a)%nat as [|m] eqn:Em'; [lia|]. cbn [nth]. apply nth_In. rewrite Er, app_length in Hq. cbn in Hq. lia. }
      specialize (Asc a b i j Er Hjb). cbv beta in Asc. lra. }
  assert (Htj : t <= h j). { destruct (Rle_dec t (h j)) as [|Hn]; [assumption|exfalso]. assert (payment (getx os j) (h j) < payment (getx os j) t) by (apply payment_lt; [apply Hs; exact Hj|lra|apply Ht']). specialize (Hh j Hj). unfold getx in H0. lra. }
  assert (Hhi : h i <= received acts).
  { destruct Sv as (_ & _ & _ & O). specialize (O [i] (fun _ => h i)). unfold received. rewrite !total_cons in O. change (total (fun _ => h i) []) with 0 in O. change (total (fun i1 => payment (nth i1 os (mkX 0 0 0 0)) (h i)) []) with 0 in O. rewrite Hh in O by exact Hi1.
    assert (Hp0 : 0 <= h i). { destruct (Rle_dec 0 (h i)) as [|Hn]; [assumption|exfalso]. assert (payment (getx os i) (h i) < payment (getx os i) 0) by (apply payment_lt; [apply Hs; exact Hi1|lra|apply (Hs i Hi1)]). rewrite payment_zero in H0. specialize (Hh i Hi1). unfold getx in H0. lra. }
    assert (h i + 0 <= - fold_right Rplus 0 (map ac_output acts)); [|lra]. apply O; [|lra]. split; [repeat constructor; intros []|]. intros k [<-|[]]. split; [left; reflexivity|]. split; [exact Hp0|]. apply Hle; [exact Hi1|]. lra. }
  lra.
Qed.
