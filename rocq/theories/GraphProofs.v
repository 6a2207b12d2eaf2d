(** Cycles, sub-cycles and run_arbitrage_cycle. *)
From Coq Require Import Reals Lra Bool String List ZArith Arith Lia Permutation.
From Verif Require Import CurveModel CurveProofs GraphModel GraphSpec.
Import ListNotations.
Local Open Scope R_scope.

(** ** iteration *)
Lemma match_ne {A B} (d : list A) (x y : B) : d <> [] -> match d with [] => x | _ :: _ => y end = y.
Proof. destruct d; congruence. Qed.
Lemma iter_run {A} (d : list A) (s : Z) m ix : d <> [] -> (ix mod Z.of_nat (List.length d) = s mod Z.of_nat (List.length d))%Z ->
  exists l, iter_all_n (S m) (mkIter d (ix - 1) (Z.of_nat m + 1)) = Ret l /\ List.length l = m /\
  forall j, (j < m)%nat -> nth_error l j = nth_error d (Z.to_nat ((s + Z.of_nat j) mod Z.of_nat (List.length d))).
Proof.
  intros Hd. set (n := Z.of_nat (List.length d)). assert (Hn : (0 < n)%Z) by (destruct d; [congruence|unfold n; cbn [List.length]; lia]).
  revert s ix. induction m as [|m IH]; intros s ix E.
  - exists []. split; [reflexivity|]. split; [reflexivity|]. intros; lia.
  - specialize (IH (s + 1)%Z (ix mod n + 1)%Z).
    destruct IH as (l & El & Ll & Hl).
    { fold n. rewrite <- (Z.add_mod_idemp_l s 1 n) by lia. rewrite <- E. reflexivity. }
    remember (S m) as m' eqn:Em. cbn [iter_all_n]. unfold iter_next. cbn [it_counter it_data it_ix].
    destruct (Z.eqb_spec (Z.of_nat m' + 1 - 1) 0) as [X|_]; [exfalso; lia|]. rewrite (match_ne d) by exact Hd. fold n.
    replace (ix - 1 + 1)%Z with ix by ring.
    assert (R : (0 <= ix mod n < n)%Z) by (apply Z.mod_pos_bound; lia).
    destruct (nth_error d (Z.to_nat (ix mod n))) as [a|] eqn:Ea.
    2:{ apply nth_error_None in Ea. unfold n in *. lia. }
    replace (Z.of_nat m' + 1 - 1)%Z with (Z.of_nat m + 1)%Z by lia. 
    replace (ix mod n + 1 - 1)%Z with (ix mod n)%Z in El by ring.
    subst m'. rewrite El. exists (a :: l). split; [reflexivity|]. split; [cbn; lia|].
    intros [|j] Hj; [cbn [nth_error]; rewrite <- Ea; do 2 f_equal; rewrite E; f_equal; cbn; lia|]. cbn [nth_error]. rewrite Hl by lia. do 2 f_equal. f_equal. lia.
Qed.
Lemma iter_all_spec {A} (d : list A) (s : Z) : d <> [] ->
  exists l, iter_all (iter_new d s) = Ret l /\ List.length l = S (List.length d) /\
  forall j, (j <= List.length d)%nat -> nth_error l j = nth_error d (Z.to_nat ((s + Z.of_nat j) mod Z.of_nat (List.length d))).
Proof.
  intros Hd. destruct (iter_run d s (S (List.length d)) s Hd eq_refl) as (l & E & L & N). exists l. split; [|split; [exact L|]].
  - unfold iter_all, iter_new. cbn [it_counter]. rewrite <- E. f_equal; [lia|]. f_equal. lia.
  - intros j Hj. apply N. lia.
Qed.
Lemma iter_next_ok {A} (d : list A) (s : Z) : d <> [] -> exists r, iter_next (iter_new d s) = Ret r.
Proof.
  intros Hd. unfold iter_next, iter_new. cbn [it_counter it_data it_ix]. rewrite (proj2 (Z.eqb_neq _ _)) by lia.
  destruct d as [|a d]; [congruence|]. set (n := Z.of_nat (List.length (a :: d))). assert (0 < n)%Z by (cbn in *; lia).
  assert (R : (0 <= (s - 1 + 1) mod n < n)%Z) by (apply Z.mod_pos_bound; lia).
  destruct (nth_error (a :: d) (Z.to_nat ((s - 1 + 1) mod n))) eqn:E; [eexists; reflexivity|]. apply nth_error_None in E. unfold n in *. lia.
Qed.

Lemma nth_ext_le {A} (l l' : list A) : List.length l = List.length l' -> (forall j, (j < List.length l)%nat -> nth_error l j = nth_error l' j) -> l = l'.
Proof.
  revert l'. induction l as [|a l IH]; intros [|b l'] L H; try discriminate; [reflexivity|]. cbn in L.
  pose proof (H 0%nat ltac:(cbn; lia)) as H0. cbn in H0. f_equal; [congruence|]. apply IH; [lia|]. intros j Hj. apply (H (S j)). cbn. lia.
Qed.
Lemma rotate_length {A} n (l : list A) : List.length (rotate n l) = List.length l.
Proof. unfold rotate. rewrite app_length, skipn_length, firstn_length. lia. Qed.
Lemma rotate_nth {A} n (l : list A) j : (n <= List.length l)%nat -> (j < List.length l)%nat ->
  nth_error (rotate n l) j = nth_error l ((n + j) mod List.length l).
Proof.
  intros Hn Hj. unfold rotate. destruct (Nat.lt_ge_cases (n + j) (List.length l)) as [L|L].
  - rewrite nth_error_app1 by (rewrite skipn_length; lia). rewrite Nat.mod_small by lia. 
    revert n Hn L. clear Hj. induction l as [|a l IH]; intros n Hn L; [cbn in L; lia|]. destruct n; [reflexivity|]. cbn [skipn]. cbn in Hn, L. rewrite IH by lia. reflexivity.
  - rewrite nth_error_app2 by (rewrite skipn_length; lia). rewrite skipn_length.
    replace ((n + j) mod List.length l)%nat with (n + j - List.length l)%nat.
    + replace (j - (List.length l - n))%nat with (n + j - List.length l)%nat by lia. set (q := (n + j - List.length l)%nat) in *.
      assert (Hq : (q < n)%nat) by (unfold q; lia). clearbody q. clear L Hj Hn j. revert n q Hq. induction l as [|a l IH]; intros n q Hq; [destruct q, n; try lia; reflexivity|].
      destruct n; [lia|]. destruct q; [reflexivity|]. cbn. apply IH. lia.
    + apply (Nat.mod_unique _ _ 1); lia.
Qed.

(** the items are the rotation, closed with its first item *)
Lemma items_rotate {A} (d : list A) (n : nat) a : nth_error d n = Some a -> 
  iter_all (iter_new d (Z.of_nat n)) = Ret (rotate n d ++ [a]) /\ hd_error (rotate n d) = Some a.
Proof.
  intros Ha. assert (Hn : (n < List.length d)%nat) by (apply nth_error_Some; congruence). assert (Hd : d <> []) by (destruct d; [cbn in Hn; lia|discriminate]).
  destruct (iter_all_spec d (Z.of_nat n) Hd) as (l & E & L & N). split.
  - rewrite E. f_equal. apply nth_ext_le; [rewrite L, app_length, rotate_length; cbn; lia|]. intros j Hj. rewrite L in Hj. rewrite N by lia.
    rewrite <- Nat2Z.inj_add, <- Nat2Z.inj_mod, Nat2Z.id. destruct (Nat.eq_dec j (List.length d)) as [->|Hj'].
    + rewrite nth_error_app2 by (rewrite rotate_length; lia). rewrite rotate_length, Nat.sub_diag. cbn [nth_error].
      rewrite <- Ha. f_equal. replace (n + List.length d)%nat with (n + 1 * List.length d)%nat by lia. rewrite Nat.mod_add by lia. apply Nat.mod_small. lia.
    + rewrite nth_error_app1 by (rewrite rotate_length; lia). rewrite rotate_nth by lia. reflexivity.
  - pose proof (rotate_nth n d 0 ltac:(lia) ltac:(lia)) as H. rewrite Nat.add_0_r, Nat.mod_small, Ha in H by lia. destruct (rotate n d); [discriminate|exact H].
Qed.

Lemma index_of_spec {A} (eqb : A -> A -> bool) (Heq : forall a b, eqb a b = true <-> a = b) v l :
  (exists n, index_of eqb v l = Ret n /\ nth_error l n = Some v /\ (forall m, (m < n)%nat -> nth_error l m <> Some v)) \/ (index_of eqb v l = Raise ValueError /\ ~ In v l).
Proof.
  induction l as [|a l IH]; [right; split; [reflexivity|intros []]|]. cbn [index_of]. destruct (eqb a v) eqn:E.
  - apply Heq in E. subst. left. exists 0%nat. split; [reflexivity|]. split; [reflexivity|]. intros; lia.
  - assert (Hav : a <> v) by (intros ->; rewrite (proj2 (Heq v v) eq_refl) in E; discriminate).
    destruct IH as [(n & -> & N & M)|[-> N]].
    + left. exists (S n). split; [reflexivity|]. split; [exact N|]. intros [|m] Hm; [cbn; congruence|]. apply M. lia.
    + right. split; [reflexivity|]. intros [->|H]; [congruence|auto].
Qed.

(** ** the sub-cycle test *)
Lemma skip_to_spec {A} (eqb : A -> A -> bool) (Heq : forall a b, eqb a b = true <-> a = b) v l :
  match skip_to eqb v l with Some r => exists b, l = b ++ v :: r /\ ~ In v b | None => ~ In v l end.
Proof.
  induction l as [|a l IH]; [intros []|]. cbn [skip_to]. destruct (eqb a v) eqn:E.
  - apply Heq in E. subst. exists []. split; [reflexivity|intros []].
  - assert (Hav : a <> v) by (intros ->; rewrite (proj2 (Heq v v) eq_refl) in E; discriminate). destruct (skip_to eqb v l) as [r|].
    + destruct IH as (b & -> & N). exists (a :: b). split; [reflexivity|]. intros [H|H]; [congruence|auto].
    + intros [H|H]; [congruence|auto].
Qed.
Lemma subseq_app_l {A} (s l b : list A) : subseq s l -> subseq s (b ++ l).
Proof. intros H. induction b; [exact H|]. cbn. apply sub_skip. exact IHb. Qed.
Lemma subseq_app_r {A} (s l b : list A) : subseq s l -> subseq s (l ++ b).
Proof. induction 1; cbn; [apply sub_nil|apply sub_take; assumption|apply sub_skip; assumption]. Qed.
Lemma subseq_app {A} (s l s' l' : list A) : subseq s l -> subseq s' l' -> subseq (s ++ s') (l ++ l').
Proof. induction 1; cbn; intros H'; [apply subseq_app_l; exact H'|apply sub_take; auto|apply sub_skip; auto]. Qed.
Lemma subseq_refl {A} (l : list A) : subseq l l. Proof. induction l; constructor; assumption. Qed.
Lemma subseq_in {A} (s l : list A) a : subseq s l -> In a s -> In a l.
Proof. induction 1; cbn; [tauto| |]; intuition. Qed.
Lemma subseq_len {A} (s l : list A) : subseq s l -> (List.length s <= List.length l)%nat.
Proof. induction 1; cbn; lia. Qed.
Lemma subseq_trans {A} (l m n : list A) : subseq l m -> subseq m n -> subseq l n.
Proof.
  intros H1 H2. revert l H1. induction H2 as [n|a m n H2 IH|a m n H2 IH]; intros l H1.
  - inversion H1; subst. apply sub_nil.
  - inversion H1; subst; [apply sub_nil|apply sub_take; auto|apply sub_skip; auto].
  - apply sub_skip. auto.
Qed.
Lemma subseq_same_len {A} (s l : list A) : subseq s l -> List.length s = List.length l -> s = l.
Proof.
  induction 1 as [l|a s l H IH|a s l H IH]; cbn; intros E; [destruct l; [reflexivity|discriminate]|f_equal; auto|].
  apply subseq_len in H. lia.
Qed.
(** a match of the head after [b] without it *)
Lemma subseq_head {A} (v : A) s b r : ~ In v b -> subseq (v :: s) (b ++ v :: r) -> subseq s r.
Proof.
  induction b as [|a b IH]; cbn [app]; intros N H.
  - inversion H; subst; [assumption|]. apply (subseq_trans _ (v :: s)); [apply sub_skip, subseq_refl|]. assumption.
  - inversion H; subst; [exfalso; apply N; left; reflexivity|]. apply IH; [intros X; apply N; right; exact X|assumption].
Qed.
Lemma consume_spec {A} (eqb : A -> A -> bool) (Heq : forall a b, eqb a b = true <-> a = b) s : forall l, consume eqb s l = true <-> subseq s l.
Proof.
  induction s as [|v s IH]; intros l; [split; [constructor|reflexivity]|]. cbn [consume].
  pose proof (skip_to_spec eqb Heq v l) as H. destruct (skip_to eqb v l) as [r|].
  - destruct H as (b & -> & N). rewrite IH. split; [intros H; apply subseq_app_l, sub_take; exact H|apply subseq_head; exact N].
  - split; [discriminate|]. intros S. exfalso. apply H. apply (subseq_in _ _ _ S). left. reflexivity.
Qed.
Lemma subseq_snoc {A} (s l : list A) v : subseq (s ++ [v]) (l ++ [v]) <-> subseq s l.
Proof.
  split; [|intros H; apply subseq_app; [exact H|apply subseq_refl]]. revert s.
  induction l as [|a l IH]; intros s H.
  - destruct s as [|b s]; [constructor|]. apply subseq_len in H. rewrite !app_length in H. cbn in H. lia.
  - destruct s as [|b s]; [constructor|]. cbn in H. inversion H; subst; [apply sub_take, IH; assumption|apply sub_skip, (IH (b :: s)); assumption].
Qed.

Lemma rotate_0 {A} (l : list A) : rotate 0 l = l. Proof. unfold rotate. cbn. apply app_nil_r. Qed.
Lemma subcycle_first {A} (eqb : A -> A -> bool) (Heq : forall a b, eqb a b = true <-> a = b) v s other :
  is_subcycle eqb (v :: s) other = Ret true <->
  exists n, nth_error other n = Some v /\ (forall m, (m < n)%nat -> nth_error other m <> Some v) /\ subseq (v :: s) (rotate n other).
Proof.
  unfold is_subcycle. destruct (Nat.ltb_spec (List.length other) (List.length (v :: s))) as [L|L].
  { split; [discriminate|]. intros (n & _ & _ & H). apply subseq_len in H. rewrite rotate_length in H. lia. }
  cbn [cycle_items rbind]. destruct (index_of_spec eqb Heq v other) as [(n & -> & N & M)|[-> N]]; cbn [rbind].
  - destruct (items_rotate other n v N) as [E _]. rewrite E. cbn [rbind].
    destruct (items_rotate (v :: s) 0 v eq_refl) as [E' _]. change (Z.of_nat 0) with 0%Z in E'. rewrite E'. cbn [rbind]. rewrite rotate_0.
    assert (X : Ret (consume eqb ((v :: s) ++ [v]) (rotate n other ++ [v])) = Ret true <-> subseq (v :: s) (rotate n other)).
    { rewrite <- (subseq_snoc (v :: s) (rotate n other) v), <- (consume_spec eqb Heq). split; [intros [= H]; exact H|intros ->; reflexivity]. }
    rewrite X. split; [intros H; exists n; auto|]. intros (n' & N' & M' & H). replace n with n'; [exact H|].
    destruct (Nat.lt_trichotomy n n') as [T|[T|T]]; [exfalso; exact (M' n T N)|auto|exfalso; exact (M n' T N')].
  - split; [discriminate|]. intros (n & H & _). exfalso. apply N. apply nth_error_In in H. exact H.
Qed.
Lemma subcycle_total {A} (eqb : A -> A -> bool) (Heq : forall a b, eqb a b = true <-> a = b) self other : exists b, is_subcycle eqb self other = Ret b.
Proof.
  unfold is_subcycle. destruct (Nat.ltb _ _); [eexists; reflexivity|]. destruct self as [|v s]; [eexists; reflexivity|].
  cbn [cycle_items rbind]. destruct (index_of_spec eqb Heq v other) as [(n & -> & N & M)|[-> N]]; cbn [rbind]; [|eexists; reflexivity].
  destruct (items_rotate other n v N) as [E _]. rewrite E. cbn [rbind].
  destruct (items_rotate (v :: s) 0 v eq_refl) as [E' _]. change (Z.of_nat 0) with 0%Z in E'. rewrite E'. eexists; reflexivity.
Qed.

Lemma rotate_split {A} (b r : list A) v : rotate (List.length b) (b ++ v :: r) = v :: r ++ b.
Proof. unfold rotate. rewrite skipn_app, skipn_all, Nat.sub_diag, firstn_app, firstn_all, Nat.sub_diag. cbn. rewrite app_nil_r. reflexivity. Qed.
Lemma nth_mid {A} (b r : list A) v : nth_error (b ++ v :: r) (List.length b) = Some v.
Proof. rewrite nth_error_app2, Nat.sub_diag by lia. reflexivity. Qed.
(** for a cycle without repeated nodes any rotation will do *)
Lemma subcycle_rotation {A} (eqb : A -> A -> bool) (Heq : forall a b, eqb a b = true <-> a = b) self other : self <> [] -> NoDup other ->
  is_subcycle eqb self other = Ret true <-> exists n, (n <= List.length other)%nat /\ subseq self (rotate n other).
Proof.
  intros Hs ND. destruct self as [|v s]; [congruence|]. rewrite subcycle_first by exact Heq. split.
  - intros (n & N & _ & H). exists n. split; [|exact H]. apply Nat.lt_le_incl, nth_error_Some. congruence.
  - intros (n & Hn & H). assert (Hv : In v other).
    { pose proof (subseq_in _ _ v H (or_introl eq_refl)) as X. unfold rotate in X. apply in_app_or in X.
      rewrite <- (firstn_skipn n other). apply in_or_app. tauto. }
    apply in_split in Hv as (b & r & ->). apply NoDup_remove in ND as [_ ND].
    assert (Nb : ~ In v b) by (intros X; apply ND, in_or_app; auto). assert (Nr : ~ In v r) by (intros X; apply ND, in_or_app; auto).
    exists (List.length b). split; [apply nth_mid|]. split.
    { intros m Hm X. rewrite nth_error_app1 in X by exact Hm. apply nth_error_In in X. contradiction. }
    rewrite rotate_split. apply sub_take.
    unfold rotate in H. rewrite skipn_app, firstn_app in H. destruct (Nat.le_gt_cases n (List.length b)) as [C|C].
    + replace (n - List.length b)%nat with 0%nat in H by lia. cbn [skipn firstn] in H. rewrite app_nil_r, <- app_assoc in H.
      apply subseq_head in H; [|intros X; apply Nb; rewrite <- (firstn_skipn n b); apply in_or_app; auto].
      apply (subseq_trans _ _ _ H). apply subseq_app; [apply subseq_refl|]. rewrite <- (firstn_skipn n b) at 2. apply subseq_app_r, subseq_refl.
    + rewrite skipn_all2, firstn_all2 in H by lia. cbn [app] in H. replace (n - List.length b)%nat with (S (n - List.length b - 1)) in H by lia. cbn [skipn firstn] in H.
      rewrite app_assoc in H. apply subseq_head in H.
      * apply (subseq_trans _ _ _ H). apply subseq_app_r. rewrite <- (firstn_skipn (n - List.length b - 1) r) at 2. apply subseq_app_r, subseq_refl.
      * intros X. apply in_app_or in X as [X|X]; [|contradiction]. apply Nr. rewrite <- (firstn_skipn (n - List.length b - 1) r). apply in_or_app. auto.
Qed.
Lemma rotate_app {A} (a b : list A) : rotate (List.length a) (a ++ b) = b ++ a.
Proof. unfold rotate. rewrite skipn_app, skipn_all, Nat.sub_diag, firstn_app, firstn_all, Nat.sub_diag. cbn. rewrite app_nil_r. reflexivity. Qed.
Lemma rotate_iff {A} (l r : list A) : (exists n, (n <= List.length l)%nat /\ r = rotate n l) <-> exists a b, l = a ++ b /\ r = b ++ a.
Proof.
  split.
  - intros (n & _ & ->). exists (firstn n l), (skipn n l). split; [symmetry; apply firstn_skipn|reflexivity].
  - intros (a & b & -> & ->). exists (List.length a). split; [rewrite app_length; lia|]. symmetry. apply rotate_app.
Qed.
Lemma rot_trans {A} (l a b c d : list A) : l = a ++ b -> b ++ a = c ++ d -> exists e f, l = e ++ f /\ d ++ c = f ++ e.
Proof.
  intros -> H. apply app_eq_app in H as (x & [[-> ->]|[-> ->]]).
  - exists (a ++ c), x. rewrite <- !app_assoc. split; reflexivity.
  - exists x, (d ++ b). rewrite <- !app_assoc. split; reflexivity.
Qed.
Lemma subseq_split {A} (m1 m2 l : list A) : subseq (m1 ++ m2) l -> exists l1 l2, l = l1 ++ l2 /\ subseq m1 l1 /\ subseq m2 l2.
Proof.
  revert m1. induction l as [|a l IH]; intros m1 H.
  - exists [], []. inversion H as [? E| |]; subst. symmetry in E. apply app_eq_nil in E as [-> ->]. split; [reflexivity|split; constructor].
  - destruct m1 as [|b m1]; [exists [], (a :: l); split; [reflexivity|split; [constructor|exact H]]|]. cbn in H. inversion H; subst.
    + destruct (IH m1) as (l1 & l2 & -> & H1' & H2'); [assumption|]. exists (a :: l1), l2. split; [reflexivity|]. split; [apply sub_take; exact H1'|exact H2'].
    + destruct (IH (b :: m1)) as (l1 & l2 & -> & H1' & H2'); [assumption|]. exists (a :: l1), l2. split; [reflexivity|]. split; [apply sub_skip; exact H1'|exact H2'].
Qed.
Lemma subcycle_trans {A} (eqb : A -> A -> bool) (Heq : forall a b, eqb a b = true <-> a = b) c1 c2 c3 : c1 <> [] -> NoDup c2 -> NoDup c3 ->
  is_subcycle eqb c1 c2 = Ret true -> is_subcycle eqb c2 c3 = Ret true -> is_subcycle eqb c1 c3 = Ret true.
Proof.
  intros H1 N2 N3. assert (H2 : is_subcycle eqb c1 c2 = Ret true -> c2 <> []).
  { intros E ->. rewrite subcycle_rotation in E by assumption. destruct E as (n & _ & E). apply subseq_len in E. rewrite rotate_length in E. destruct c1; [congruence|cbn in E; lia]. }
  intros E1 E2. specialize (H2 E1). rewrite subcycle_rotation in E1, E2 |- * by assumption. destruct E1 as (n & Hn & E1). destruct E2 as (m & Hm & E2).
  rewrite <- (firstn_skipn n c2) in E2. apply subseq_split in E2 as (l1 & l2 & E & S1 & S2).
  unfold rotate in E. destruct (rot_trans c3 (firstn m c3) (skipn m c3) l1 l2) as (e & f & F1 & F2); [symmetry; apply firstn_skipn|exact E|].
  exists (List.length e). split; [rewrite F1, app_length; lia|]. rewrite F1, rotate_app, <- F2. apply (subseq_trans _ _ _ E1). apply subseq_app; assumption.
Qed.
Lemma subcycle_antisym {A} (eqb : A -> A -> bool) (Heq : forall a b, eqb a b = true <-> a = b) c1 c2 : c1 <> [] -> NoDup c1 -> NoDup c2 ->
  is_subcycle eqb c1 c2 = Ret true -> is_subcycle eqb c2 c1 = Ret true -> exists n, (n <= List.length c2)%nat /\ c1 = rotate n c2.
Proof.
  intros H1 N1 N2 E1 E2. assert (H2 : c2 <> []).
  { intros ->. rewrite subcycle_rotation in E1 by assumption. destruct E1 as (n & _ & E). apply subseq_len in E. rewrite rotate_length in E. destruct c1; [congruence|cbn in E; lia]. }
  rewrite subcycle_rotation in E1, E2 by assumption. destruct E1 as (n & Hn & E1). destruct E2 as (m & Hm & E2).
  exists n. split; [exact Hn|]. apply subseq_same_len; [exact E1|]. apply subseq_len in E1. apply subseq_len in E2. rewrite rotate_length in *. lia.
Qed.

(** the pairs of a rotation *)
Lemma cycle_pairs_spec {A} (eqb : A -> A -> bool) (d : list A) (s : Z) : d <> [] ->
  exists l, cycle_pairs eqb d (Some s) None = Ret l /\ List.length l = List.length d /\
  forall j, (j < List.length d)%nat -> exists a b, nth_error l j = Some (a, b) /\
    nth_error d (Z.to_nat ((s + Z.of_nat j) mod Z.of_nat (List.length d))) = Some a /\ nth_error d (Z.to_nat ((s + Z.of_nat (S j)) mod Z.of_nat (List.length d))) = Some b.
Proof.
  intros Hd. destruct (iter_all_spec d s Hd) as (l & E & L & N). destruct (iter_next_ok d s Hd) as [r Er].
  exists (pair_up l). unfold cycle_pairs. cbn [cycle_items rbind]. rewrite Er. cbn [rbind]. rewrite E. cbn [rbind]. split; [reflexivity|].
  assert (T : List.length (tl l) = List.length d) by (destruct l; cbn in *; lia).
  split; [unfold pair_up; rewrite combine_length; lia|].
  assert (C : forall j (u v : list A) a b, nth_error u j = Some a -> nth_error v j = Some b -> nth_error (combine u v) j = Some (a, b)).
  { induction j; intros [|x u] [|y v] a b; cbn; try discriminate; [congruence|apply IHj]. }
  intros j Hj. pose proof (N j ltac:(lia)) as N1. pose proof (N (S j) ltac:(lia)) as N2.
  destruct (nth_error l j) as [a|] eqn:Ea; [|apply nth_error_None in Ea; lia].
  destruct (nth_error l (S j)) as [b|] eqn:Eb; [|apply nth_error_None in Eb; lia].
  exists a, b. split; [|split; congruence]. apply C; [exact Ea|]. destruct l; [discriminate|exact Eb].
Qed.
Lemma cycle_pairs_val {A} (eqb : A -> A -> bool) (Heq : forall a b, eqb a b = true <-> a = b) (d : list A) v :
  (In v d -> exists n, (n < List.length d)%nat /\ nth_error d n = Some v /\ cycle_pairs eqb d None (Some v) = cycle_pairs eqb d (Some (Z.of_nat n)) None) /\
  (~ In v d -> cycle_pairs eqb d None (Some v) = Raise ValueError).
Proof.
  unfold cycle_pairs. cbn [cycle_items]. destruct (index_of_spec eqb Heq v d) as [(n & -> & N & M)|[-> N]]; cbn [rbind]; split; intros H; try contradiction; try reflexivity.
  - exists n. split; [apply nth_error_Some; congruence|]. split; [exact N|reflexivity].
  - exfalso. apply H. eapply nth_error_In. exact N.
Qed.
(** they start from different nodes if the cycle has no repetition *)
Lemma pair_up_fst {A} (l : list A) : map fst (pair_up l) = firstn (List.length l - 1) l.
Proof.
  unfold pair_up. destruct l as [|a l]; [reflexivity|]. cbn [tl List.length]. rewrite Nat.sub_succ, Nat.sub_0_r.
  revert a. induction l as [|b l IH]; intros a; [reflexivity|]. cbn [combine map fst List.length firstn]. f_equal. apply (IH b).
Qed.
Lemma NoDup_rotate {A} n (l : list A) : NoDup l -> NoDup (rotate n l).
Proof.
  intros H. rewrite <- (firstn_skipn n l) in H. unfold rotate.
  apply (Permutation_NoDup (Permutation_app_comm _ _) H).
Qed.
Lemma cycle_pairs_nodup {A} (eqb : A -> A -> bool) (d : list A) (n : nat) l : (n < List.length d)%nat -> NoDup d ->
  cycle_pairs eqb d (Some (Z.of_nat n)) None = Ret l -> NoDup (map fst l).
Proof.
  intros Hn ND. destruct (nth_error d n) as [a|] eqn:Ea; [|apply nth_error_None in Ea; lia]. destruct (items_rotate d n a Ea) as [E _].
  assert (Hd : d <> []) by (destruct d; [cbn in Hn; lia|discriminate]). destruct (iter_next_ok d (Z.of_nat n) Hd) as [r Er].
  unfold cycle_pairs. cbn [cycle_items rbind]. rewrite Er. cbn [rbind]. rewrite E. cbn [rbind]. intros [= <-].
  rewrite pair_up_fst, app_length, Nat.add_sub, firstn_app, firstn_all, Nat.sub_diag. cbn. rewrite app_nil_r. apply NoDup_rotate. exact ND.
Qed.
