(** Proofs about shared variables: comparisons, rounding and copies. *)
From Coq Require Import ZArith QArith Qpower Qround Qabs List Bool Lia Lqa.
From Verif Require Import SvModel.
Import ListNotations.
Local Open Scope Q_scope.

(** the object [x] finally stands for the number [a] *)
Inductive holds (h : heap) : nat -> num -> Prop :=
| holds_num x a : nth_error h x = Some (CNum a) -> holds h x a
| holds_ref x i a : nth_error h x = Some (CRef i) -> holds h i a -> holds h x a.

Lemma rel_num_number r v a : rel_num r v a = num_rel r (number v) a.
Proof. induction v as [n|v IH]; [reflexivity|exact IH]. Qed.
Lemma num_swapped r a b : num_rel (swapped r) a b = num_rel r b a.
Proof. destruct r; cbn; try reflexivity. destruct (Qeq_bool (val a) (val b)) eqn:E; symmetry.
  - apply Qeq_bool_iff. apply Qeq_bool_iff in E. symmetry. exact E.
  - destruct (Qeq_bool (val b) (val a)) eqn:F; [|reflexivity]. apply Qeq_bool_iff in F. symmetry in F. apply Qeq_bool_iff in F. congruence.
Qed.
Lemma sv_rel_number r v w : sv_rel r v w = num_rel r (number v) (number w).
Proof.
  induction v as [n|v IH]; [|exact IH]. cbn [sv_rel number]. destruct w as [m|w]; [reflexivity|]. rewrite rel_num_number. apply num_swapped.
Qed.
Lemma sv_ne_number v w : sv_ne v w = negb (num_rel Eq (number v) (number w)).
Proof.
  destruct v as [n|v]; cbn [sv_ne number].
  - destruct w as [m|w]; [reflexivity|]. rewrite rel_num_number. f_equal. apply (num_swapped Eq).
  - rewrite sv_rel_number. reflexivity.
Qed.
Lemma negb_le a b : negb (Qle_bool a b) = true <-> b < a.
Proof.
  split; intros H.
  - apply Qnot_le_lt. intros C. apply Qle_bool_iff in C. rewrite C in H. discriminate.
  - destruct (Qle_bool a b) eqn:E; [|reflexivity]. apply Qle_bool_iff in E. exfalso. apply (Qlt_not_le _ _ H E).
Qed.

Lemma number_map f v : number (sv_map f v) = f (number v).
Proof. induction v as [n|v IH]; [reflexivity|exact IH]. Qed.

Lemma half_even_near q : Qabs (q - inject_Z (half_even q)) <= 1 # 2.
Proof.
  unfold half_even. pose proof (Qfloor_le q) as L. pose proof (Qlt_floor q) as U. rewrite inject_Z_plus in U. change (inject_Z 1) with 1 in U.
  apply Qabs_Qle_condition. destruct (Qcompare (q - inject_Z (Qfloor q)) (1 # 2)) eqn:E.
  - apply Qeq_alt in E. destruct (Z.even (Qfloor q)); [|rewrite inject_Z_plus; change (inject_Z 1) with 1]; lra.
  - apply Qlt_alt in E. lra.
  - apply Qgt_alt in E. rewrite inject_Z_plus. change (inject_Z 1) with 1. lra.
Qed.
Lemma half_even_tie q : Qabs (q - inject_Z (half_even q)) == 1 # 2 -> Z.even (half_even q) = true.
Proof.
  unfold half_even. pose proof (Qfloor_le q) as L. pose proof (Qlt_floor q) as U. rewrite inject_Z_plus in U. change (inject_Z 1) with 1 in U.
  destruct (Qcompare (q - inject_Z (Qfloor q)) (1 # 2)) eqn:E.
  - intros _. destruct (Z.even (Qfloor q)) eqn:V; [exact V|]. rewrite Z.even_add, V. reflexivity.
  - apply Qlt_alt in E. intros H. rewrite Qabs_pos in H by lra. lra.
  - apply Qgt_alt in E. rewrite inject_Z_plus. change (inject_Z 1) with 1. intros H. rewrite Qabs_neg in H by lra. lra.
Qed.

Lemma put_same h x c : (x < List.length h)%nat -> nth_error (put h x c) x = Some c.
Proof. revert x. induction h as [|d h IH]; intros [|x] H; cbn in *; try lia; [reflexivity|]. apply IH. lia. Qed.
Lemma put_other h x c y : x <> y -> nth_error (put h x c) y = nth_error h y.
Proof. revert x y. induction h as [|d h IH]; intros [|x] [|y] H; cbn; try reflexivity; try congruence. apply IH. congruence. Qed.
Lemma holds_fun h x a b : holds h x a -> holds h x b -> a = b.
Proof. induction 1 as [x a E|x i a E H IH]; intros K; inversion K as [? ? E'|? ? ? E' K']; subst; rewrite E in E'; try congruence. injection E' as <-. apply IH, K'. Qed.

(** the end of the chain of an object *)
Inductive ends (h : heap) : nat -> nat -> Prop :=
| ends_num x a : nth_error h x = Some (CNum a) -> ends h x x
| ends_ref x i e : nth_error h x = Some (CRef i) -> ends h i e -> ends h x e.
Lemma ends_holds h x a : holds h x a <-> exists e, ends h x e /\ nth_error h e = Some (CNum a).
Proof.
  split.
  - induction 1 as [x a E|x i a E H (e & A & B)]; [exists x; split; [econstructor; exact E|exact E]|exists e; split; [econstructor 2; eassumption|exact B]].
  - intros (e & A & B). induction A as [x a' E|x i e E H IH]; [constructor; exact B|econstructor 2; [exact E|apply IH, B]].
Qed.
Lemma ends_content h x e : ends h x e -> exists a, nth_error h e = Some (CNum a).
Proof. induction 1; eauto. Qed.
Lemma ends_put h e a b x : nth_error h e = Some (CNum a) -> ends h x e -> ends (put h e (CNum b)) x e.
Proof.
  intros He. assert (L : (e < List.length h)%nat) by (apply nth_error_Some; rewrite He; discriminate).
  induction 1 as [x a' E|x i e E H IH]; [econstructor; apply put_same; exact L|].
  econstructor 2; [|apply IH; assumption]. rewrite put_other; [exact E|]. intros ->. congruence.
Qed.
Lemma ends_put_other h e a b x y : nth_error h e = Some (CNum a) -> ends h x y -> ends (put h e (CNum b)) x y.
Proof.
  intros He. assert (L : (e < List.length h)%nat) by (apply nth_error_Some; rewrite He; discriminate).
  induction 1 as [x a' E|x i y E H IH].
  - destruct (Nat.eq_dec e x) as [->|N]; [econstructor; apply put_same; exact L|econstructor; rewrite put_other by exact N; exact E].
  - econstructor 2; [|exact IH]. rewrite put_other; [exact E|]. intros ->. congruence.
Qed.
Lemma add_num_spec fuel h x n h' : add_num fuel h x n = Some h' ->
  exists e a, ends h x e /\ nth_error h e = Some (CNum a) /\ h' = put h e (CNum (num_add a n)).
Proof.
  revert x. induction fuel as [|fuel IH]; intros x; cbn [add_num]; [discriminate|]. destruct (nth_error h x) as [[m|i]|] eqn:E; [| |discriminate].
  - intros [= <-]. exists x, m. split; [econstructor; exact E|]. split; [exact E|reflexivity].
  - intros H. destruct (IH i H) as (e & a & A & B & C). exists e, a. split; [econstructor 2; eassumption|]. split; [exact B|exact C].
Qed.
Lemma ends_fun h x e e' : ends h x e -> ends h x e' -> e = e'.
Proof. induction 1 as [x a E|x i e E H IH]; intros K; inversion K as [? ? E'|? ? ? E' K']; subst; try congruence. rewrite E in E'. injection E' as <-. apply IH, K'. Qed.
(** adding a number to an object changes exactly the objects with the same end *)
Lemma add_num_reads fuel h x n h' y v : add_num fuel h x n = Some h' -> holds h y v ->
  (forall e, ends h x e -> ends h y e -> holds h' y (num_add v n)) /\ (forall e e', ends h x e -> ends h y e' -> e <> e' -> holds h' y v).
Proof.
  intros A H. destruct (add_num_spec _ _ _ _ _ A) as (e & a & X & B & ->). apply ends_holds in H. destruct H as (e1 & Y & V).
  assert (L : (e < List.length h)%nat) by (apply nth_error_Some; rewrite B; discriminate). split.
  - intros e2 X2 Y2. pose proof (ends_fun _ _ _ _ X X2) as E1. pose proof (ends_fun _ _ _ _ Y Y2) as E2. subst. rewrite B in V. injection V as <-.
    apply ends_holds. exists e2. split; [apply (ends_put _ _ a); assumption|apply put_same; exact L].
  - intros e2 e3 X2 Y2 N. pose proof (ends_fun _ _ _ _ X X2) as E1. pose proof (ends_fun _ _ _ _ Y Y2) as E2. subst.
    apply ends_holds. exists e3. split; [apply (ends_put_other _ _ a); assumption|rewrite put_other by exact N; exact V].
Qed.
Lemma ends_app h t x e : ends h x e -> ends (h ++ t) x e.
Proof.
  induction 1 as [x a E|x i e E H IH].
  - econstructor. rewrite nth_error_app1; [exact E|apply nth_error_Some; rewrite E; discriminate].
  - econstructor 2; [|exact IH]. rewrite nth_error_app1; [exact E|apply nth_error_Some; rewrite E; discriminate].
Qed.
Lemma holds_app h t x a : holds h x a -> holds (h ++ t) x a.
Proof.
  rewrite !ends_holds. intros (e & A & B). exists e. split; [apply ends_app, A|]. rewrite nth_error_app1; [exact B|apply nth_error_Some; rewrite B; discriminate].
Qed.
Lemma nth_last {A} (h : list A) c : nth_error (h ++ [c]) (List.length h) = Some c.
Proof. rewrite nth_error_app2, Nat.sub_diag by lia. reflexivity. Qed.
Lemma ends_lt h x e : ends h x e -> (x < List.length h)%nat /\ (e < List.length h)%nat.
Proof. induction 1 as [x a E|x i e E H [A B]]; split; try (apply nth_error_Some; rewrite E; discriminate). exact B. Qed.

Lemma plus_content_extends fuel h y n h' c : plus_content fuel h y n = Some (h', c) -> exists t, h' = h ++ t.
Proof.
  revert y h' c. induction fuel as [|fuel IH]; intros y h' c; cbn [plus_content]; [discriminate|]. destruct (nth_error h y) as [[m|j]|]; [| |discriminate].
  - intros [= <- <-]. exists []. symmetry. apply app_nil_r.
  - destruct (plus_content fuel h j n) as [[h1 c1]|] eqn:E; [|discriminate]. intros [= <- <-]. destruct (IH _ _ _ E) as [t ->]. exists (t ++ [c1]). symmetry. apply app_assoc.
Qed.
Lemma plus_content_holds fuel h y n h' c v : plus_content fuel h y n = Some (h', c) -> holds h y v ->
  exists e, ends (h' ++ [c]) (List.length h') e /\ nth_error (h' ++ [c]) e = Some (CNum (num_add v n)) /\ (List.length h <= e)%nat.
Proof.
  revert y h' c. induction fuel as [|fuel IH]; intros y h' c; cbn [plus_content]; [discriminate|]. intros P H. inversion H as [? ? E|? i ? E H']; subst; rewrite E in P.
  - injection P as <- <-. exists (List.length h). split; [econstructor; apply nth_last|]. split; [apply nth_last|lia].
  - destruct (plus_content fuel h i n) as [[h1 c1]|] eqn:P1; [|discriminate]. injection P as <- <-. destruct (IH _ _ _ P1 H') as (e & A & B & C). exists e. split; [|split; [|exact C]].
    + econstructor 2; [apply nth_last|]. apply ends_app. exact A.
    + rewrite nth_error_app1; [exact B|apply nth_error_Some; rewrite B; discriminate].
Qed.
Lemma ends_put_last h x c m : nth_error h x = Some (CNum m) -> forall y e', ends h y e' -> e' <> x -> ends (put h x c) y e'.
Proof.
  intros E y e'. induction 1 as [y a F|y i e' F H IH]; intros N.
  - econstructor. rewrite put_other by congruence. exact F.
  - econstructor 2; [|apply IH, N]. rewrite put_other; [exact F|]. intros ->. congruence.
Qed.
(** adding a shared variable to a plain one in place: the value is the sum, in a new inner object *)
Lemma add_var_plain fuel h x y m v h' : nth_error h x = Some (CNum m) -> holds h y v -> add_var fuel h x y = Some h' ->
  exists i, nth_error h' x = Some (CRef i) /\ (List.length h <= i)%nat /\ holds h' x (num_add v m).
Proof.
  intros X Y. destruct fuel as [|fuel]; cbn [add_var]; [discriminate|]. rewrite X. destruct (plus_content fuel h y m) as [[h1 c]|] eqn:P; [|discriminate]. intros [= <-].
  destruct (plus_content_extends _ _ _ _ _ _ P) as [t T]. destruct (plus_content_holds _ _ _ _ _ _ _ P Y) as (e & A & B & C).
  assert (L : (x < List.length h)%nat) by (apply nth_error_Some; rewrite X; discriminate).
  assert (X1 : nth_error (h1 ++ [c]) x = Some (CNum m)) by (subst h1; rewrite <- app_assoc, nth_error_app1 by exact L; exact X).
  exists (List.length h1). assert (Q : nth_error (put (h1 ++ [c]) x (CRef (List.length h1))) x = Some (CRef (List.length h1))) by (apply put_same; subst h1; rewrite !app_length; lia).
  split; [exact Q|]. split; [subst h1; rewrite app_length; lia|]. econstructor 2; [exact Q|]. apply ends_holds. exists e. split.
  - apply (ends_put_last _ _ _ m); [exact X1|exact A|lia].
  - rewrite put_other by lia. exact B.
Qed.
Lemma val_add a b : val (num_add a b) == val a + val b.
Proof. destruct a, b; cbn [num_add val]; try reflexivity. rewrite inject_Z_plus. reflexivity. Qed.
Lemma pow10_ne d : ~ (10 ^ d == 0).
Proof. intros C. pose proof (Qpower_0_lt 10 d ltac:(reflexivity)) as P. rewrite C in P. discriminate. Qed.
Lemma round_near q d : let r := inject_Z (half_even (q * (10 ^ d))) * (10 ^ (- d)) in
  Qabs (q - r) <= (1 # 2) * (10 ^ (- d)) /\ (Qabs (q - r) == (1 # 2) * (10 ^ (- d)) -> Z.even (half_even (q * (10 ^ d))) = true).
Proof.
  cbv zeta. set (k := half_even (q * (10 ^ d))). rewrite Qpower_opp. pose proof (Qpower_0_lt 10 d ltac:(reflexivity)) as P. set (p := 10 ^ d) in *.
  assert (E : q - inject_Z k * / p == (q * p - inject_Z k) * / p) by (field; intros C; rewrite C in P; discriminate).
  assert (I : 0 < / p) by (apply Qinv_lt_0_compat, P). rewrite E, Qabs_Qmult, (Qabs_pos (/ p)) by (apply Qlt_le_weak, I). split.
  - apply Qmult_le_compat_r; [apply half_even_near|apply Qlt_le_weak, I].
  - intros H. apply half_even_tie. apply Qmult_inj_r in H; [exact H|]. intros C. rewrite C in I. discriminate.
Qed.
Lemma round_spec d n : exists k, val (num_round d n) == inject_Z k * (10 ^ (- d)) /\ Qabs (val n - val (num_round d n)) <= (1 # 2) * (10 ^ (- d)) /\
  (Qabs (val n - val (num_round d n)) == (1 # 2) * (10 ^ (- d)) -> Z.even k = true).
Proof.
  assert (P : 0 < (1 # 2) * (10 ^ (- d))).
  { pose proof (Qpower_0_lt 10 (- d) ltac:(reflexivity)). lra. }
  destruct n as [z|q]; cbn [num_round val].
  - destruct (0 <=? d)%Z eqn:D.
    + apply Z.leb_le in D. exists (z * 10 ^ d)%Z. assert (Z0' : inject_Z z - inject_Z z == 0) by ring. rewrite Z0'. change (Qabs 0) with 0. split; [|split; [lra|intros H; lra]].
      rewrite inject_Z_mult, Zpower_Qpower by exact D. change (inject_Z 10) with 10. rewrite Qpower_opp. field. apply pow10_ne.
    + apply Z.leb_gt in D. exists (half_even (inject_Z z * (10 ^ d))). rewrite inject_Z_mult, Zpower_Qpower by lia. change (inject_Z 10) with 10. split; [reflexivity|apply round_near].
  - exists (half_even (q * (10 ^ d))). split; [reflexivity|apply round_near].
Qed.
Lemma truncate_spec n : (0 <= val n -> inject_Z (truncate n) <= val n < inject_Z (truncate n) + 1) /\ (val n <= 0 -> inject_Z (truncate n) - 1 < val n <= inject_Z (truncate n)).
Proof.
  destruct n as [z|q]; cbn [truncate val]; [split; lra|].
  pose proof (Qfloor_le q) as A. pose proof (Qlt_floor q) as B. pose proof (Qle_ceiling q) as C. pose proof (Qceiling_lt q) as D.
  rewrite inject_Z_plus in B. change (inject_Z 1) with 1 in B. unfold Z.sub in D. rewrite inject_Z_plus in D. change (inject_Z (- (1))) with (-1) in D.
  destruct (Qle_bool 0 q) eqn:E.
  - apply Qle_bool_iff in E. split; [lra|]. intros H. assert (Eq0 : q == 0) by lra. assert (F0 : Qfloor q = 0%Z) by (rewrite (Qfloor_comp q 0 Eq0); reflexivity). rewrite F0. change (inject_Z 0) with 0. lra.
  - split; [intros H; apply Qle_bool_iff in H; congruence|intros _; lra].
Qed.
