(** Lemmas for FpSpecProps.v. *)
From Coq Require Import ZArith Reals Lia Lra.
From Flocq Require Import Core Relative.
From Verif Require Import FpDecModel FpRateModel FpRateProofs FpSpecModel.
Local Open Scope R_scope.

(** ** errors relative to a scale *)
Notation e := e99.
Lemma e_tiny : e <= / 1000000. Proof. exact e99_small. Qed.
Lemma rnd : forall ch x, Rabs (round ten (FLX_exp 100) (Znearest ch) x - x) <= e * Rabs x.
Proof.
  intros ch x. pose proof (relative_error_N_FLX ten 100 (eq_refl _) ch x) as H. change (- (100) + 1)%Z with (-100 + 1)%Z in H.
  assert (E : bpow ten (-100 + 1) = e).
  { change (-100 + 1)%Z with (- (99))%Z. rewrite bpow_opp, <- IZR_Zpower by lia. reflexivity. }
  rewrite E in H. apply Rle_trans with (1 := H). pose proof e99_pos. apply Rmult_le_compat_r; [apply Rabs_pos | lra].
Qed.
(** [a'] is within n e A of [a], which is at most A *)
Definition ab (n A a a' : R) : Prop := Rabs a <= A /\ Rabs (a' - a) <= n * e * A.
Lemma ab_A : forall n A a a', ab n A a a' -> 0 <= A.
Proof. intros n A a a' (H & _). pose proof (Rabs_pos a). lra. Qed.
Lemma ab_0 : forall a, 0 <= a -> ab 0 a a a.
Proof. intros a H. split; [rewrite Rabs_pos_eq by exact H; lra |]. unfold Rminus. rewrite Rplus_opp_r, Rabs_R0. lra. Qed.
Lemma ab_weaken : forall n m A B a a', 0 <= n <= m -> A <= B -> ab n A a a' -> ab m B a a'.
Proof.
  intros n m A B a a' Hn L H. pose proof (ab_A _ _ _ _ H) as A0. destruct H as (H1 & H2). split; [lra |]. pose proof e99_pos. apply Rle_trans with (1 := H2).
  apply Rmult_le_compat; [apply Rmult_le_pos; lra | lra | apply Rmult_le_compat_r; lra | exact L].
Qed.
Lemma ab_round : forall n A a a' , 0 <= n <= 64 -> ab n A a a' -> ab (n + 2) A a (rh a').
Proof.
  intros n A a a' Hn H. pose proof (ab_A _ _ _ _ H) as A0. destruct H as (H1 & H2). split; [exact H1 |]. pose proof (rnd half_down a') as Q. fold (rh a') in Q.
  pose proof e99_pos as e0. pose proof e_tiny as e1.
  assert (N : Rabs a' <= 2 * A).
  { replace a' with (a' - a + a) by ring. apply Rle_trans with (1 := Rabs_triang _ _). assert (n * e <= 1) by (apply Rle_trans with (64 * / 1000000); [apply Rmult_le_compat; lra | lra]).
    assert (n * e * A <= 1 * A) by (apply Rmult_le_compat_r; assumption). lra. }
  replace (rh a' - a) with (rh a' - a' + (a' - a)) by ring. apply Rle_trans with (1 := Rabs_triang _ _).
  assert (e * Rabs a' <= e * (2 * A)) by (apply Rmult_le_compat_l; lra).
  replace ((n + 2) * e * A) with (n * e * A + e * (2 * A)) by ring. lra.
Qed.
Lemma ab_mul : forall n m A B a a' b b', 0 <= n <= 30 -> 0 <= m <= 30 -> ab n A a a' -> ab m B b b' -> ab (n + m + 3) (A * B) (a * b) (rh (a' * b')).
Proof.
  intros n m A B a a' b b' Hn Hm H K. pose proof (ab_A _ _ _ _ H) as A0. pose proof (ab_A _ _ _ _ K) as B0. destruct H as (H1 & H2). destruct K as (K1 & K2).
  pose proof e99_pos as e0. pose proof e_tiny as e1.
  replace (n + m + 3) with (n + m + 1 + 2) by ring. apply ab_round; [lra |]. split.
  - rewrite Rabs_mult. apply Rmult_le_compat; try apply Rabs_pos; assumption.
  - replace (a' * b' - a * b) with ((a' - a) * b + a * (b' - b) + (a' - a) * (b' - b)) by ring.
    apply Rle_trans with (1 := Rabs_triang _ _). apply Rle_trans with (Rabs ((a' - a) * b) + Rabs (a * (b' - b)) + Rabs ((a' - a) * (b' - b))); [apply Rplus_le_compat_r, Rabs_triang |].
    rewrite !Rabs_mult.
    assert (Q1 : Rabs (a' - a) * Rabs b <= n * e * A * B) by (apply Rmult_le_compat; try apply Rabs_pos; assumption).
    assert (Q2 : Rabs a * Rabs (b' - b) <= A * (m * e * B)) by (apply Rmult_le_compat; try apply Rabs_pos; assumption).
    assert (Q3 : Rabs (a' - a) * Rabs (b' - b) <= n * e * A * (m * e * B)) by (apply Rmult_le_compat; try apply Rabs_pos; assumption).
    assert (Q4 : n * e * A * (m * e * B) <= 1 * e * (A * B)).
    { replace (n * e * A * (m * e * B)) with (n * m * e * (e * (A * B))) by ring. replace (1 * e * (A * B)) with (1 * (e * (A * B))) by ring.
      apply Rmult_le_compat_r; [apply Rmult_le_pos; [lra | apply Rmult_le_pos; assumption] |].
      apply Rle_trans with (900 * / 1000000); [| lra]. apply Rmult_le_compat; [apply Rmult_le_pos; lra | lra | replace 900 with (30 * 30) by ring; apply Rmult_le_compat; lra | exact e1]. }
    replace ((n + m + 1) * e * (A * B)) with (n * e * A * B + A * (m * e * B) + 1 * e * (A * B)) by ring. lra.
Qed.
Lemma ab_add : forall n A B a a' b b', 0 <= n <= 60 -> ab n A a a' -> ab n B b b' -> ab (n + 2) (A + B) (a + b) (rh (a' + b')).
Proof.
  intros n A B a a' b b' Hn (H1 & H2) (K1 & K2). apply ab_round; [lra |]. split.
  - apply Rle_trans with (1 := Rabs_triang _ _). lra.
  - replace (a' + b' - (a + b)) with (a' - a + (b' - b)) by ring. apply Rle_trans with (1 := Rabs_triang _ _). replace (n * e * (A + B)) with (n * e * A + n * e * B) by ring. lra.
Qed.
Lemma ab_opp : forall n A a a', ab n A a a' -> ab n A (- a) (- a').
Proof. intros n A a a' (H & K). split; [rewrite Rabs_Ropp; exact H |]. replace (- a' - - a) with (- (a' - a)) by ring. rewrite Rabs_Ropp. exact K. Qed.
Lemma ab_sqrt : forall x, 0 <= x -> ab 1 (sqrt x) (sqrt x) (rd_sqrt x).
Proof.
  intros x H. pose proof (sqrt_pos x) as P. split; [rewrite Rabs_pos_eq by exact P; lra |]. pose proof (rnd (fun n => negb (Z.even n)) (sqrt x)) as Q. rewrite (Rabs_pos_eq (sqrt x) P) in Q.
  rewrite Rmult_1_l. exact Q.
Qed.
(** ** a quotient of positive numbers *)
Lemma ab_quot : forall n t N D D' N', 0 <= n <= t -> t * e <= / 4 -> 1 <= t -> 0 < D -> ab n N N N' -> Rabs (D' - D) <= t * e * D ->
  exists q, rh_div N' D' = Some q /\ Rabs (q - N / D) <= 4 * t * e * (N / D).
Proof.
  intros n t N D D' N' Hn Ht T1 HD HN HE. pose proof e99_pos as e0. pose proof e_tiny as e1. pose proof (ab_A _ _ _ _ HN) as N0. destruct HN as (_ & HN).
  assert (TD : t * e * D <= / 4 * D) by (apply Rmult_le_compat_r; lra).
  assert (D1 : 3 / 4 * D <= D') by (apply Rabs_le_inv in HE; lra).
  unfold rh_div. destruct (Req_EM_T D' 0); [lra |]. eexists. split; [reflexivity |].
  set (q := N' / D'). pose proof (rnd half_down q) as Q. fold (rh q) in Q.
  assert (O0 : 0 <= N / D) by (apply Rmult_le_pos; [exact N0 | apply Rlt_le, Rinv_0_lt_compat, HD]).
  assert (E1 : Rabs (q - N / D) <= 8 / 3 * (t * e) * (N / D)).
  { unfold q. replace (N' / D' - N / D) with ((N' - N - N / D * (D' - D)) / D') by (field; lra). unfold Rdiv at 1. rewrite Rabs_mult, (Rabs_pos_eq (/ D')) by (apply Rlt_le, Rinv_0_lt_compat; lra).
    apply Rmult_le_reg_r with D'; [lra |]. rewrite Rmult_assoc, Rinv_l, Rmult_1_r by lra.
    apply Rle_trans with (2 * (t * e) * (N / D) * D).
    - apply Rle_trans with (1 := Rabs_triang _ _). rewrite Rabs_Ropp, Rabs_mult, (Rabs_pos_eq (N / D)) by exact O0.
      assert (N / D * Rabs (D' - D) <= N / D * (t * e * D)) by (apply Rmult_le_compat_l; assumption).
      assert (n * e * N <= t * e * N) by (apply Rmult_le_compat_r; [exact N0 | apply Rmult_le_compat_r; lra]).
      assert (ND : N / D * D = N) by (field; lra).
      replace (2 * (t * e) * (N / D) * D) with (2 * (t * e * N)) by (rewrite <- ND at 1; ring). replace (N / D * (t * e * D)) with (t * e * N) in * by (rewrite <- ND at 1; ring). lra.
    - replace (8 / 3 * (t * e) * (N / D) * D') with (2 * (t * e) * (N / D) * (4 / 3 * D')) by (field; lra). apply Rmult_le_compat_l; [| lra].
      apply Rmult_le_pos; [| exact O0]. apply Rmult_le_pos; [lra |]. apply Rmult_le_pos; lra. }
  assert (te : e <= t * e) by (replace e with (1 * e) at 1 by ring; apply Rmult_le_compat_r; lra).
  assert (te0 : 0 <= t * e * (N / D)) by (apply Rmult_le_pos; [lra | exact O0]).
  assert (QB : Rabs q <= N / D + 8 / 3 * (t * e) * (N / D)).
  { replace q with (q - N / D + N / D) by ring. apply Rle_trans with (1 := Rabs_triang _ _). rewrite (Rabs_pos_eq (N / D)) by exact O0. lra. }
  assert (QC : Rabs q <= 2 * (N / D)).
  { assert (t * e * (N / D) <= / 4 * (N / D)) by (apply Rmult_le_compat_r; assumption). replace (8 / 3 * (t * e) * (N / D)) with (8 / 3 * (t * e * (N / D))) in QB by ring. lra. }
  replace (rh q - N / D) with (rh q - q + (q - N / D)) by ring. apply Rle_trans with (1 := Rabs_triang _ _).
  assert (QD : Rabs (rh q - q) <= 7 / 6 * (t * e) * (N / D)).
  { apply Rle_trans with (1 := Q). assert (EQ : e * Rabs q <= e * (N / D + 8 / 3 * (t * e) * (N / D))) by (apply Rmult_le_compat_l; lra). apply Rle_trans with (1 := EQ).
    replace (e * (N / D + 8 / 3 * (t * e) * (N / D))) with (e * (N / D) + 8 / 3 * e * (t * e * (N / D))) by ring.
    assert (e * (N / D) <= t * e * (N / D)) by (apply Rmult_le_compat_r; assumption).
    assert (8 / 3 * e * (t * e * (N / D)) <= / 6 * (t * e * (N / D))) by (apply Rmult_le_compat_r; [exact te0 | lra]).
    replace (7 / 6 * (t * e) * (N / D)) with (7 / 6 * (t * e * (N / D))) by ring. lra. }
  replace (4 * t * e * (N / D)) with (4 * (t * e * (N / D))) by ring. replace (8 / 3 * (t * e) * (N / D)) with (8 / 3 * (t * e * (N / D))) in E1 by ring. replace (7 / 6 * (t * e) * (N / D)) with (7 / 6 * (t * e * (N / D))) in QD by ring. lra.
Qed.

Section Spec.
Variables x y l h m : R.
Hypothesis x0 : 0 <= x.
Hypothesis y0 : 0 < y.
Hypothesis l0 : 0 <= l.
Hypothesis h0 : 0 <= h.
Hypothesis lm : l <= m.
Let L := sqrt l.
Let M := sqrt m.
Lemma LM : 0 <= L <= M. Proof. split; [apply sqrt_pos |]. apply sqrt_le_1; lra. Qed.
Lemma abM : ab 1 M M (rd_sqrt m). Proof. apply ab_sqrt. lra. Qed.
Lemma abL : ab 1 M L (rd_sqrt l). Proof. apply ab_weaken with 1 (sqrt l); [lra | apply LM | apply ab_sqrt; exact l0]. Qed.
Lemma abMM : ab 5 (M * M) (M * M) (rh (rd_sqrt m * rd_sqrt m)).
Proof. replace 5 with (1 + 1 + 3) by ring. apply ab_mul; [lra | lra | apply abM | apply abM]. Qed.
Lemma run : forall f, d_execute f x y l h m = f x y (rd_sqrt l) (rd_sqrt m).
Proof. intros. unfold d_execute. destruct (Rlt_dec l 0); [lra |]. destruct (Rlt_dec h 0); [lra |]. destruct (Rlt_dec m 0); [lra |]. reflexivity. Qed.
Lemma by_source : M * L * x <= y ->
  exists q, d_execute d_bySource x y l h m = Some q /\ Rabs (q - M * M * x * y / (M * (M - L) * x + y)) <= / 10 ^ 96 * (M * M * x * y / (M * (M - L) * x + y)).
Proof.
  intros C. pose proof LM as (LP & LM1). pose proof e99_pos as e0. pose proof e_tiny as e1. rewrite run. unfold d_bySource.
  assert (MMx : 0 <= M * M * x) by (apply Rmult_le_pos; [apply Rmult_le_pos; lra | exact x0]).
  assert (DP : 0 <= M * (M - L) * x) by (apply Rmult_le_pos; [apply Rmult_le_pos; lra | exact x0]).
  set (N := M * M * x * y). set (D := M * (M - L) * x + y). assert (D0 : 0 < D) by (unfold D; lra).
  assert (Nn : ab 11 N N (rh (rh (rh (rd_sqrt m * rd_sqrt m) * x) * y))).
  { unfold N. replace 11 with (5 + 0 + 3 + 0 + 3) by ring. apply ab_mul; [lra | lra | | apply ab_0; lra]. apply ab_mul; [lra | lra | apply abMM | apply ab_0; exact x0]. }
  assert (Dn : ab 12 (M * (M + M) * x + y) D (rh (rh (rh (rd_sqrt m * rh (rd_sqrt m - rd_sqrt l)) * x) + y))).
  { unfold D. replace 12 with (10 + 2) by ring. apply ab_add; [lra | | apply ab_weaken with 0 y; [lra | lra | apply ab_0; lra]].
    replace 10 with (7 + 0 + 3) by ring. apply ab_mul; [lra | lra | | apply ab_0; exact x0]. replace 7 with (1 + 3 + 3) by ring. apply ab_mul; [lra | lra | apply abM |].
    replace 3 with (1 + 2) by ring. unfold Rminus. apply ab_add; [lra | apply abM | apply ab_opp, abL]. }
  assert (SC : M * (M + M) * x + y <= 3 * D).
  { unfold D. replace (M * (M + M) * x) with (2 * (M * M * x)) by ring. replace (M * (M - L) * x) with (M * M * x - M * L * x) in * by ring. lra. }
  destruct (ab_quot 11 36 N D (rh (rh (rh (rd_sqrt m * rh (rd_sqrt m - rd_sqrt l)) * x) + y)) (rh (rh (rh (rd_sqrt m * rd_sqrt m) * x) * y))) as (q & Q1 & Q2); try lra; try exact Nn.
  { apply Rle_trans with (1 := proj2 Dn). replace (36 * e * D) with (12 * e * (3 * D)) by ring. apply Rmult_le_compat_l; lra. }
  exists q. split; [exact Q1 |]. apply Rle_trans with (1 := Q2).
  assert (O0 : 0 <= N / D) by (unfold N; apply Rmult_le_pos; [apply Rmult_le_pos; lra | apply Rlt_le, Rinv_0_lt_compat, D0]).
  apply Rmult_le_compat_r; [exact O0 |]. unfold e99. apply Rle_trans with (1000 * / IZR (10 ^ 99)).
  - pose proof e0 as Z0. unfold e99 in Z0. lra.
  - rewrite (pow_IZR 10 96). change (Z.of_nat 96) with 96%Z. replace (IZR (10 ^ 99)) with (IZR (10 ^ 96) * 1000) by (rewrite <- mult_IZR; f_equal; reflexivity).
    rewrite Rinv_mult. assert (0 < / IZR (10 ^ 96)) by (apply Rinv_0_lt_compat, IZR_lt; reflexivity). lra.
Qed.
Lemma by_target : x <= y -> 0 < l -> M <= 10 ^ 90 * L ->
  exists q, d_execute d_byTarget x y l h m = Some q /\ Rabs (q - x * y / (M * (L - M) * x + M * M * y)) <= / 10 ^ 96 * (M / L) * (x * y / (M * (L - M) * x + M * M * y)).
Proof.
  intros C l1 R90. pose proof LM as (_ & LM1). pose proof e99_pos as e0. pose proof e_tiny as e1. rewrite run. unfold d_byTarget.
  assert (LP : 0 < L) by (apply sqrt_lt_R0; exact l1).
  assert (MP : 0 < M * M) by (apply Rmult_lt_0_compat; lra).
  set (N := x * y). set (D := M * (L - M) * x + M * M * y).
  assert (D1 : M * L * y <= D).
  { unfold D. replace (M * (L - M) * x) with (- (M * (M - L)) * x) by ring. assert (M * (M - L) * x <= M * (M - L) * y) by (apply Rmult_le_compat_l; [apply Rmult_le_pos; lra | exact C]).
    replace (M * M * y) with (M * (M - L) * y + M * L * y) by ring. lra. }
  assert (MLy : 0 < M * L * y) by (apply Rmult_lt_0_compat; [apply Rmult_lt_0_compat |]; lra).
  assert (D0 : 0 < D) by lra.
  set (r := M / L). assert (r1 : 1 <= r) by (unfold r; apply Rmult_le_reg_r with L; [exact LP |]; unfold Rdiv; rewrite Rmult_assoc, Rinv_l by lra; lra).
  assert (r2 : r <= 10 ^ 90) by (unfold r; apply Rmult_le_reg_r with L; [exact LP |]; unfold Rdiv; rewrite Rmult_assoc, Rinv_l by lra; lra).
  assert (e90 : 10 ^ 90 * e = / 10 ^ 9).
  { unfold e99. rewrite (pow_IZR 10 90), (pow_IZR 10 9). change (Z.of_nat 90) with 90%Z. change (Z.of_nat 9) with 9%Z. replace (IZR (10 ^ 99)) with (IZR (10 ^ 90) * IZR (10 ^ 9)) by (rewrite <- mult_IZR; f_equal; reflexivity).
    rewrite Rinv_mult. rewrite <- Rmult_assoc, Rinv_r, Rmult_1_l; [reflexivity |]. apply IZR_neq. discriminate. }
  assert (re : r * e <= / 10 ^ 9) by (rewrite <- e90; apply Rmult_le_compat_r; lra).
  assert (re' : r * e <= / 1000) by (apply Rle_trans with (1 := re); apply Rinv_le_contravar; simpl; lra).
  assert (Nn : ab 3 N N (rh (x * y))) by (replace 3 with (0 + 0 + 3) by ring; apply ab_mul; [lra | lra | apply ab_0; exact x0 | apply ab_0; lra]).
  assert (Dn : ab 12 (M * (M + M) * x + M * M * y) D (rh (rh (rh (rd_sqrt m * rh (rd_sqrt l - rd_sqrt m)) * x) + rh (rh (rd_sqrt m * rd_sqrt m) * y)))).
  { unfold D. replace 12 with (10 + 2) by ring. apply ab_add; [lra | |].
    - replace 10 with (7 + 0 + 3) by ring. apply ab_mul; [lra | lra | | apply ab_0; exact x0]. replace 7 with (1 + 3 + 3) by ring. apply ab_mul; [lra | lra | apply abM |].
      replace 3 with (1 + 2) by ring. unfold Rminus. apply ab_add; [lra | apply abL | apply ab_opp, abM].
    - apply ab_weaken with (5 + 0 + 3) (M * M * y); [lra | lra |]. apply ab_mul; [lra | lra | apply abMM | apply ab_0; lra]. }
  assert (SC : M * (M + M) * x + M * M * y <= 3 * (r * D)).
  { assert (E : r * (M * L * y) = M * M * y) by (unfold r; field; lra). assert (r * (M * L * y) <= r * D) by (apply Rmult_le_compat_l; lra).
    assert (M * M * x <= M * M * y) by (apply Rmult_le_compat_l; lra). replace (M * (M + M) * x) with (2 * (M * M * x)) by ring. lra. }
  destruct (ab_quot 3 (36 * r) N D (rh (rh (rh (rd_sqrt m * rh (rd_sqrt l - rd_sqrt m)) * x) + rh (rh (rd_sqrt m * rd_sqrt m) * y))) (rh (x * y))) as (q & Q1 & Q2); try lra; try exact Nn.
  { apply Rle_trans with (1 := proj2 Dn). replace (36 * r * e * D) with (12 * e * (3 * (r * D))) by ring. apply Rmult_le_compat_l; lra. }
  exists q. split; [exact Q1 |]. apply Rle_trans with (1 := Q2).
  assert (O0 : 0 <= N / D) by (unfold N; apply Rmult_le_pos; [apply Rmult_le_pos; lra | apply Rlt_le, Rinv_0_lt_compat, D0]).
  apply Rmult_le_compat_r; [exact O0 |]. replace (4 * (36 * r) * e) with (144 * e * r) by ring. apply Rmult_le_compat_r; [lra |]. unfold e99. apply Rle_trans with (1000 * / IZR (10 ^ 99)).
  - pose proof e0 as Z0. unfold e99 in Z0. lra.
  - rewrite (pow_IZR 10 96). change (Z.of_nat 96) with 96%Z. replace (IZR (10 ^ 99)) with (IZR (10 ^ 96) * 1000) by (rewrite <- mult_IZR; f_equal; reflexivity).
    rewrite Rinv_mult. assert (0 < / IZR (10 ^ 96)) by (apply Rinv_0_lt_compat, IZR_lt; reflexivity). lra.
Qed.
End Spec.
Lemma rh_0 : rh 0 = 0. Proof. apply round_0. auto with typeclass_instances. Qed.
Lemma empty : forall l h m, d_execute d_bySource 0 0 l h m = None /\ d_execute d_byTarget 0 0 l h m = None.
Proof.
  intros. unfold d_execute. destruct (Rlt_dec l 0); [split; reflexivity |]. destruct (Rlt_dec h 0); [split; reflexivity |]. destruct (Rlt_dec m 0); [split; reflexivity |].
  unfold d_bySource, d_byTarget, rh_div. rewrite !Rmult_0_r, !rh_0, !Rplus_0_r, !rh_0. destruct (Req_EM_T 0 0); [split; reflexivity | lra].
Qed.
Lemma negative : forall f x y l h m, l < 0 \/ h < 0 \/ m < 0 -> d_execute f x y l h m = None.
Proof. intros f x y l h m H. unfold d_execute. destruct (Rlt_dec l 0); [reflexivity |]. destruct (Rlt_dec h 0); [reflexivity |]. destruct (Rlt_dec m 0); [reflexivity |]. lra. Qed.
Lemma source_bound : forall x y l h m, 0 <= x -> 0 < y -> 0 <= l -> 0 <= h -> l <= m -> sqrt m * sqrt l * x <= y ->
  let exact := m * x * y / (sqrt m * (sqrt m - sqrt l) * x + y) in
  exists q, d_execute d_bySource x y l h m = Some q /\ Rabs (q - exact) <= / 10 ^ 96 * exact.
Proof. intros x y l h m x0 y0 l0 h0 lm C exact. pose proof (by_source x y l h m x0 y0 l0 h0 lm C) as K. rewrite (sqrt_sqrt m) in K by lra. exact K. Qed.
Lemma target_bound : forall x y l h m, 0 <= x <= y -> 0 < y -> 0 < l -> 0 <= h -> l <= m -> sqrt m <= 10 ^ 90 * sqrt l ->
  let exact := x * y / (m * y - sqrt m * (sqrt m - sqrt l) * x) in
  exists q, d_execute d_byTarget x y l h m = Some q /\ Rabs (q - exact) <= / 10 ^ 96 * (sqrt m / sqrt l) * exact.
Proof.
  intros x y l h m (x0 & xy) y0 l0 h0 lm C exact. pose proof (by_target x y l h m x0 y0 (Rlt_le _ _ l0) h0 lm xy l0 C) as K. rewrite (sqrt_sqrt m) in K by lra.
  replace (sqrt m * (sqrt l - sqrt m) * x + m * y) with (m * y - sqrt m * (sqrt m - sqrt l) * x) in K by ring. exact K.
Qed.
