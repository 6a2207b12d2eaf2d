From Coq Require Import Reals Lra Bool String ZArith.
From Verif Require Import CurveModel CurveSpec CurveProofs CpcModel CpcSpec CpcProofs.
Local Open Scope R_scope.

Lemma sq_lt a b : 0 <= a -> 0 <= b -> a * a < b * b <-> a < b.
Proof.
  intros Ha Hb. split; intros H.
  - apply Rnot_le_lt. intros G. assert (b * b <= a * a) by (apply Rmult_le_compat; lra). lra.
  - assert (a * a <= a * b) by (apply Rmult_le_compat_l; lra). assert (a * b < b * b) by (apply Rmult_lt_compat_r; lra). lra.
Qed.
Lemma p_max_value c : p_max c = if rlt 0 (x_min c) then Some (k c / x_min c / x_min c) else None.
Proof. unfold p_max, y_max. destruct (rlt 0 (x_min c)); reflexivity. Qed.
Lemma p_min_value c : pool_ok c -> p_min c = if rlt 0 (y_min c) then Some (y_min c / (k c / y_min c)) else None.
Proof.
  intros (Hk & _). unfold p_min, x_max. destruct (rlt 0 (y_min c)) eqn:E; [|reflexivity]. apply rlt_iff in E.
  rewrite (proj2 (rlt_iff 0 (k c / y_min c))) by (apply Rdiv_lt_0_compat; assumption). reflexivity.
Qed.
Lemma above_iff c p X : pool_ok c -> 0 < p -> 0 < X -> X * X * p = k c -> above (p_max c) p <-> X < x_min c.
Proof.
  intros H Hp HX E. destruct (pool_pos c H) as (Hy & Hk & Hx & Hxy & Hm & Hn). rewrite p_max_value. unfold above.
  destruct (rlt 0 (x_min c)) eqn:L.
  - apply rlt_iff in L. rewrite <- (sq_lt X (x_min c)) by lra.
    assert (G : k c / x_min c / x_min c < p <-> X * X < x_min c * x_min c).
    { rewrite !div_lt by exact L. rewrite <- E. split; intros G.
      - apply (Rmult_lt_reg_r p); [exact Hp|]. lra.
      - apply (Rmult_lt_compat_r p) in G; [|exact Hp]. lra. }
    split; [intros (m & [= <-] & G'); apply G; exact G'|]. intros G'. eexists. split; [reflexivity|]. apply G. exact G'.
  - apply nrlt_iff in L. split; [intros (m & E' & _); discriminate|lra].
Qed.
Lemma below_iff c p X : pool_ok c -> 0 < p -> 0 < X -> X * X * p = k c -> below (p_min c) p <-> X * p < y_min c.
Proof.
  intros H Hp HX E. destruct (pool_pos c H) as (Hy & Hk & Hx & Hxy & Hm & Hn). rewrite p_min_value by exact H. unfold below.
  assert (HXP : 0 < X * p) by (apply Rmult_lt_0_compat; assumption).
  destruct (rlt 0 (y_min c)) eqn:L.
  - apply rlt_iff in L. rewrite <- (sq_lt (X * p) (y_min c)) by lra.
    assert (G : p < y_min c / (k c / y_min c) <-> X * p * (X * p) < y_min c * y_min c).
    { rewrite lt_div by (apply Rdiv_lt_0_compat; assumption). replace (p * (k c / y_min c)) with (p * k c / y_min c) by (field; lra).
      rewrite div_lt by exact L. rewrite <- E. replace (p * (X * X * p)) with (X * p * (X * p)) by ring. reflexivity. }
    split; [intros (m & [= <-] & G'); apply G; exact G'|]. intros G'. eexists. split; [reflexivity|]. apply G. exact G'.
  - apply nrlt_iff in L. split; [intros (m & E' & _); discriminate|lra].
Qed.
Lemma root_exists c p : 0 < k c -> 0 < p -> exists X, 0 < X /\ X * X * p = k c /\
  forall ib, xyfromp_f c (Some p) ib = Ret (if ib then (X, X * p, p)
     else (atmost (x_max c) (atleast (Some (x_min c)) X), atmost (y_max c) (atleast (Some (y_min c)) (X * p)), p)).
Proof.
  intros Hk Hp. assert (Sp : 0 < sqrt p) by (apply sqrt_lt_R0; exact Hp). assert (Sk : 0 < sqrt (k c)) by (apply sqrt_lt_R0; exact Hk).
  assert (Ep : sqrt p * sqrt p = p) by (apply sqrt_sqrt; lra). assert (Ek : sqrt (k c) * sqrt (k c) = k c) by (apply sqrt_sqrt; lra).
  exists (sqrt (k c) / sqrt p). split; [apply Rdiv_lt_0_compat; assumption|]. split.
  - transitivity (sqrt (k c) * sqrt (k c) * p / (sqrt p * sqrt p)); [field; lra|]. rewrite Ek, Ep. field. lra.
  - intros ib. unfold xyfromp_f, kbar. cbn [dflt]. rewrite !rsqrt_ok by lra. cbn [rbind]. rewrite rdiv_ok by lra. cbn [rbind].
    replace (sqrt (k c) * sqrt p) with (sqrt (k c) / sqrt p * p).
    + destruct ib; reflexivity.
    + transitivity (sqrt (k c) / sqrt p * (sqrt p * sqrt p)); [rewrite Ep; reflexivity|]. field. lra.
Qed.

Lemma ordered c : pool_ok c -> x_min c <= x c /\ y_min c <= y c /\ (forall m, x_max c = Some m -> x c <= m) /\ (forall m, y_max c = Some m -> y c <= m).
Proof.
  intros H. destruct (pool_pos c H) as (Hy & Hk & Hx & Hxy & Hm & Hn). pose proof H as (_ & _ & Ha & Hb).
  split; [unfold x_min; lra|]. split; [unfold y_min; fold (y c) in *; unfold y in *; lra|].
  split; intros m E.
  - apply (proj2 (x_max_spec c (x c) H Hx)); [|exact E]. change (k c / x c) with (y c). unfold y_min, y in *. lra.
  - apply (proj2 (y_max_spec c (y c) H Hy)); [|exact E]. replace (k c / y c) with (x c) by (rewrite <- Hxy; field; lra). unfold x_min. lra.
Qed.
Lemma atmost_le o v : (forall m, o = Some m -> v <= m) -> atmost o v = v.
Proof. intros H. destruct o as [m|]; [|reflexivity]. cbn. rewrite rlt_false by (apply H; reflexivity). reflexivity. Qed.
Lemma atleast_ge m v : m <= v -> atleast (Some m) v = v.
Proof. intros H. cbn. rewrite rlt_false by exact H. reflexivity. Qed.
Lemma atleast_lt m v : v < m -> atleast (Some m) v = m.
Proof. intros H. cbn. rewrite rlt_true by exact H. reflexivity. Qed.
Lemma atmost_gt m v : m < v -> atmost (Some m) v = m.
Proof. intros H. cbn. rewrite rlt_true by exact H. reflexivity. Qed.

(** the three cases of xyfromp_f *)
Lemma clamped c p X : pool_ok c -> 0 < p -> 0 < X -> X * X * p = k c ->
  let X' := atmost (x_max c) (atleast (Some (x_min c)) X) in
  let Y' := atmost (y_max c) (atleast (Some (y_min c)) (X * p)) in
  (above (p_max c) p -> X' = x_min c /\ y_max c = Some Y' /\ p_max c = Some (Y' / X') /\ 0 < X' /\ X' * Y' = k c) /\
  (below (p_min c) p -> x_max c = Some X' /\ Y' = y_min c /\ p_min c = Some (Y' / X') /\ 0 < X' /\ X' * Y' = k c) /\
  (~ above (p_max c) p -> ~ below (p_min c) p -> X' = X /\ Y' = X * p).
Proof.
  intros H Hp HX E. destruct (pool_pos c H) as (Hy & Hk & Hx & Hxy & Hm & Hn). destruct (ordered c H) as (O1 & O2 & O3 & O4).
  cbv zeta. rewrite (above_iff c p X H Hp HX E), (below_iff c p X H Hp HX E).
  assert (HY : 0 < X * p) by (apply Rmult_lt_0_compat; assumption).
  assert (EY : k c / X = X * p) by (rewrite <- E; field; lra).
  assert (EX : k c / (X * p) = X) by (rewrite <- E; field; split; lra).
  split; [|split].
  - intros G. rewrite (atleast_lt _ _ G). rewrite (atmost_le (x_max c)) by (intros m Em; specialize (O3 m Em); lra).
    assert (HM : 0 < x_min c) by lra.
    assert (G2 : k c / x_min c < X * p).
    { apply div_lt; [exact HM|]. rewrite <- E. replace (X * X * p) with (X * p * X) by ring. apply Rmult_lt_compat_l; assumption. }
    assert (EM : y_max c = Some (k c / x_min c)) by (unfold y_max; rewrite (proj2 (rlt_iff _ _) HM); reflexivity).
    assert (G3 := O4 _ EM). rewrite atleast_ge by lra. rewrite EM, atmost_gt by exact G2.
    split; [reflexivity|]. split; [reflexivity|]. split; [rewrite p_max_value, (proj2 (rlt_iff _ _) HM); reflexivity|].
    split; [exact HM|]. field. lra.
  - intros G. rewrite (atleast_lt _ (X * p) G). rewrite (atmost_le (y_max c)) by (intros m Em; specialize (O4 m Em); lra).
    assert (HM : 0 < y_min c) by lra.
    assert (G2 : k c / y_min c < X).
    { apply div_lt; [exact HM|]. rewrite <- E, Rmult_assoc. apply Rmult_lt_compat_l; assumption. }
    assert (EM : x_max c = Some (k c / y_min c)) by (unfold x_max; rewrite (proj2 (rlt_iff _ _) HM); reflexivity).
    assert (G3 := O3 _ EM). rewrite atleast_ge by lra. rewrite EM, atmost_gt by exact G2.
    split; [reflexivity|]. split; [reflexivity|]. split; [rewrite p_min_value, (proj2 (rlt_iff _ _) HM) by exact H; reflexivity|].
    split; [apply Rdiv_lt_0_compat; assumption|]. field. lra.
  - intros N1 N2. apply Rnot_lt_le in N1. apply Rnot_lt_le in N2. rewrite !atleast_ge by assumption.
    rewrite (atmost_le (x_max c)) by (apply x_max_spec; [assumption..|]; rewrite EY; exact N2).
    rewrite (atmost_le (y_max c)) by (apply y_max_spec; [assumption..|]; rewrite EX; exact N1). split; reflexivity.
Qed.
Lemma excl c p : pool_ok c -> 0 < p -> above (p_max c) p -> below (p_min c) p -> False.
Proof.
  intros H Hp. destruct (root_exists c p (proj1 H) Hp) as (X & HX & E & _).
  rewrite (above_iff c p X H Hp HX E), (below_iff c p X H Hp HX E). destruct (pool_pos c H) as (Hy & Hk & Hx & Hxy & Hm & Hn).
  destruct (ordered c H) as (O1 & O2 & _). intros A B.
  assert (0 < X * p) by (apply Rmult_lt_0_compat; assumption).
  assert (X * (X * p) < x c * y c) by (apply Rmult_gt_0_lt_compat; lra). lra.
Qed.
Lemma current_inside c : pool_ok c -> 0 < p c /\ ~ above (p_max c) (p c) /\ ~ below (p_min c) (p c).
Proof.
  intros H. destruct (pool_pos c H) as (Hy & Hk & Hx & Hxy & Hm & Hn). destruct (ordered c H) as (O1 & O2 & _).
  assert (Hp : 0 < p c) by (apply Rdiv_lt_0_compat; assumption).
  assert (E : x c * x c * p c = k c) by (rewrite <- Hxy; unfold p; field; lra).
  split; [exact Hp|]. rewrite (above_iff c _ _ H Hp Hx E), (below_iff c _ _ H Hp Hx E).
  replace (x c * p c) with (y c) by (unfold p; field; lra). lra.
Qed.
Lemma root_unique p X X' : 0 < p -> 0 < X -> 0 < X' -> X * X * p = X' * X' * p -> X = X'.
Proof.
  intros Hp H1 H2 E. apply Rmult_eq_reg_r in E; [|lra]. destruct (Rtotal_order X X') as [L|[L|L]]; [|exact L|].
  - apply (sq_lt X X') in L; lra.
  - apply (sq_lt X' X) in L; lra.
Qed.
Lemma xyfromp_none c ib : xyfromp_f c None ib = xyfromp_f c (Some (p c)) ib. Proof. reflexivity. Qed.

(** trading to the price *)
Lemma trade_to c p0 : pool_ok c -> 0 < p0 -> exists dx dy c', dxdyfromp_f c (Some p0) false = Ret (dx, dy, p0) /\
  execute c (Some dx) None false = Ret c' /\ y c' = y c + dy /\ 0 <= x_act c' /\ 0 <= y_act c' /\
  (above (p_max c) p0 -> p_max c = Some (p c') /\ x_act c' = 0) /\ (below (p_min c) p0 -> p_min c = Some (p c') /\ y_act c' = 0) /\
  (~ above (p_max c) p0 -> ~ below (p_min c) p0 -> p c' = p0).
Proof.
  intros H Hp. destruct (pool_pos c H) as (Hy & Hk & Hx & Hxy & Hm & Hn). destruct (ordered c H) as (O1 & O2 & O3 & O4).
  destruct (root_exists c p0 Hk Hp) as (X & HX & E & F).
  pose proof (clamped c p0 X H Hp HX E) as (C1 & C2 & C3). cbv zeta in *. unfold dxdyfromp_f. rewrite (F false). cbn [rbind]. clear F.
  remember (atmost (x_max c) (atleast (Some (x_min c)) X)) as X' eqn:EX'. clear EX'.
  remember (atmost (y_max c) (atleast (Some (y_min c)) (X * p0))) as Y' eqn:EY'. clear EY'.
  assert (G : 0 < X' /\ X' * Y' = k c /\ x_min c <= X' /\ y_min c <= Y').
  { destruct (Rlt_dec X (x_min c)) as [A|A]; [|destruct (Rlt_dec (X * p0) (y_min c)) as [B|B]].
    - apply (above_iff c p0 X H Hp HX E) in A. apply C1 in A as (-> & E1 & _ & A1 & A2). apply O4 in E1. lra.
    - apply (below_iff c p0 X H Hp HX E) in B. apply C2 in B as (E1 & -> & _ & A1 & A2). apply O3 in E1. lra.
    - destruct C3 as [-> ->]; [rewrite (above_iff c p0 X H Hp HX E); exact A|rewrite (below_iff c p0 X H Hp HX E); exact B|].
      rewrite <- E. lra. }
  destruct G as (G1 & G2 & G3 & G4). exists (X' - x c), (Y' - y c), (moved c X' (k c / X')).
  assert (EY : k c / X' = Y') by (rewrite <- G2; field; lra).
  assert (EP : p (moved c X' (k c / X')) = Y' / X') by (unfold p; rewrite y_moved, EY; reflexivity).
  split; [reflexivity|]. split.
  { apply exec_dx. replace (x c + (X' - x c)) with X' by ring. split; [right; unfold x_min in *; lra|]. split; [lra|reflexivity]. }
  split; [rewrite y_moved, EY; ring|]. rewrite EP. cbn [moved x_act y_act]. rewrite EY. unfold x_min, y_min in *.
  split; [lra|]. split; [lra|]. split; [|split].
  - intros A. apply C1 in A as (A1 & _ & A2 & _). split; [exact A2|lra].
  - intros A. apply C2 in A as (_ & A1 & A2 & _). split; [exact A2|lra].
  - intros A B. destruct (C3 A B) as [A1 A2]. rewrite A1, A2. field. lra.
Qed.
Lemma inverse_x c X Y : pool_ok c -> CpcModel.yfromx_f c X false = Ret (Some Y) -> CpcModel.xfromy_f c Y false = Ret (Some X) /\ X * Y = k c.
Proof.
  intros H E. unfold CpcModel.yfromx_f in E. unfold rbind in E. destruct (rdiv (k c) X) eqn:D; [|discriminate]. apply rdiv_inv in D as [D1 ->].
  destruct (inrange _ _ _) eqn:I; [|discriminate]. assert (EY : Y = k c / X) by congruence. subst Y.
  destruct (pool_pos c H) as (Hy & Hk & Hx & Hxy & Hm & Hn). pose proof (range_reserves c X H D1) as S. apply S in I. clear S.
  assert (N : k c / X <> 0) by (apply div_nz; lra).
  pose proof (range_reserves_y c (k c / X) H N) as S. rewrite div_div in S by lra. apply S in I.
  split; [|field; exact D1]. unfold CpcModel.xfromy_f. rewrite rdiv_ok by exact N. cbn [rbind]. rewrite div_div by lra. rewrite I. reflexivity.
Qed.
Lemma inverse_y c X Y : pool_ok c -> CpcModel.xfromy_f c Y false = Ret (Some X) -> CpcModel.yfromx_f c X false = Ret (Some Y) /\ X * Y = k c.
Proof.
  intros H E. unfold CpcModel.xfromy_f in E. unfold rbind in E. destruct (rdiv (k c) Y) eqn:D; [|discriminate]. apply rdiv_inv in D as [D1 ->].
  destruct (inrange _ _ _) eqn:I; [|discriminate]. assert (EY : X = k c / Y) by congruence. subst X.
  destruct (pool_pos c H) as (Hy & Hk & Hx & Hxy & Hm & Hn). pose proof (range_reserves_y c Y H D1) as S. apply S in I. clear S.
  assert (N : k c / Y <> 0) by (apply div_nz; lra).
  pose proof (range_reserves c (k c / Y) H N) as S. rewrite div_div in S by lra. apply S in I.
  split; [|field; exact D1]. unfold CpcModel.yfromx_f. rewrite rdiv_ok by exact N. cbn [rbind]. rewrite div_div by lra. rewrite I. reflexivity.
Qed.

(** from_pkpp *)
Lemma sqrt_div_pos k p : 0 < k -> 0 < p -> 0 < sqrt (k / p) /\ sqrt (k / p) * sqrt (k / p) * p = k.
Proof.
  intros Hk Hp. assert (0 < k / p) by (apply Rdiv_lt_0_compat; assumption). split; [apply sqrt_lt_R0; assumption|].
  rewrite sqrt_sqrt by lra. field. lra.
Qed.
Lemma pkpp_value P K pm pM tx ty : 0 < K -> 0 < P -> 0 <= dflt pm P <= P -> P <= dflt pM P ->
  exists c, from_pkpp P K pm pM tx ty = Ret c /\ pool_ok c /\ k c = K /\ CpcModel.p c = P /\ x c = sqrt (K / P) /\ y c = sqrt (K * P) /\
    x_act c = sqrt (K / P) - sqrt (K / dflt pM P) /\ y_act c = sqrt (K * P) - sqrt (K * dflt pm P) /\
    p_max c = Some (dflt pM P) /\ p_min c = (if rlt 0 (dflt pm P) then Some (dflt pm P) else None) /\ tknx c = tx /\ tkny c = ty.
Proof.
  intros HK HP Hm HM. unfold from_pkpp. cbv zeta. set (a := dflt pm P) in *. set (b := dflt pM P) in *. clearbody a b.
  destruct (sqrt_div_pos K P HK HP) as [S1 S2]. destruct (sqrt_div_pos K b HK ltac:(lra)) as [S3 S4].
  assert (0 < K / P) by (apply Rdiv_lt_0_compat; assumption). assert (0 < K / b) by (apply Rdiv_lt_0_compat; lra).
  assert (0 < K * P) by (apply Rmult_lt_0_compat; assumption). assert (0 <= K * a) by (apply Rmult_le_pos; lra).
  repeat (first [rewrite rdiv_ok by lra|rewrite rsqrt_ok by lra]; cbn [rbind]).
  rewrite make_ok by lra. cbn [dflt]. eexists. split; [reflexivity|].
  assert (EY : K / sqrt (K / P) = sqrt (K * P)).
  { assert (A : 0 < sqrt (K * P)) by (apply sqrt_lt_R0; assumption). apply (root_unique 1); try lra.
    - apply Rdiv_lt_0_compat; assumption.
    - rewrite Rmult_1_r, Rmult_1_r. rewrite sqrt_sqrt by lra.
      replace (K / sqrt (K / P) * (K / sqrt (K / P))) with (K * K / (sqrt (K / P) * sqrt (K / P))) by (field; lra).
      rewrite sqrt_sqrt by lra. field. lra. }
  assert (L1 : sqrt (K / b) <= sqrt (K / P)).
  { apply sqrt_le_1; [lra|lra|]. apply Rmult_le_compat_l; [lra|]. apply Rinv_le_contravar; lra. }
  assert (L2 : sqrt (K * a) <= sqrt (K * P)) by (apply sqrt_le_1; [lra|lra|]; apply Rmult_le_compat_l; lra).
  assert (L3 := sqrt_pos (K * a)).
  set (c := mkCpc K (sqrt (K / P)) (sqrt (K / P) - sqrt (K / b)) (sqrt (K * P) - sqrt (K * a)) tx ty).
  assert (OK : pool_ok c).
  { unfold pool_ok, c. cbn [k x x_act y_act]. rewrite EY. lra. }
  split; [exact OK|]. split; [reflexivity|]. split.
  { unfold CpcModel.p, y, c. cbn [k x]. set (s := sqrt (K / P)) in *. clearbody s. rewrite <- S2. field. lra. }
  split; [reflexivity|]. split; [exact EY|]. split; [reflexivity|]. split; [reflexivity|].
  assert (XM : x_min c = sqrt (K / b)) by (unfold x_min, c; cbn [x x_act]; ring).
  assert (YM : y_min c = sqrt (K * a)) by (unfold y_min, y, c; cbn [k x y_act]; rewrite EY; ring).
  split; [|split; [|split; reflexivity]].
  - rewrite p_max_value, XM, (proj2 (rlt_iff _ _) S3). f_equal. change (k c) with K.
    set (s := sqrt (K / b)) in *. clearbody s. rewrite <- S4. field. lra.
  - rewrite p_min_value, YM by exact OK. change (k c) with K. destruct (rlt 0 a) eqn:La.
    + apply rlt_iff in La. assert (Pa : 0 < K * a) by (apply Rmult_lt_0_compat; assumption).
      assert (Sa : 0 < sqrt (K * a)) by (apply sqrt_lt_R0; exact Pa).
      rewrite (proj2 (rlt_iff _ _) Sa). f_equal.
      replace (sqrt (K * a) / (K / sqrt (K * a))) with (sqrt (K * a) * sqrt (K * a) / K) by (field; lra). rewrite sqrt_sqrt by lra. field. lra.
    + apply nrlt_iff in La. assert (a = 0) by lra. subst a. rewrite Rmult_0_r, sqrt_0, (proj2 (nrlt_iff 0 0)) by lra. reflexivity.
Qed.
