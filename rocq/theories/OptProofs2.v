(** Trades at a marginal price (C93). *)
From Coq Require Import Reals Lra Bool List String.
From Verif Require Import CurveModel CurveProofs CpcModel CpcSpec CpcProofs CpcProofs2 CpcProofs3 OptModel OptSpec.
Import ListNotations.
Local Open Scope R_scope.

(** the reserves at a marginal price, with their optimality conditions *)
Lemma reach c p0 : pool_ok c -> 0 < p0 -> exists X Y, dxdyfromp_f c (Some p0) false = Ret (X - x c, Y - y c, p0) /\ 0 < X /\ 0 < Y /\ X * Y = k c /\
  x_min c <= X /\ y_min c <= Y /\ (x_min c < X -> p0 * X <= Y) /\ (y_min c < Y -> Y <= p0 * X).
Proof.
  intros H Hp. destruct (pool_pos c H) as (Hy & Hk & Hx & Hxy & Hm & Hn). destruct (ordered c H) as (O1 & O2 & O3 & O4).
  destruct (root_exists c p0 (proj1 H) Hp) as (X & HX & E & F).
  pose proof (clamped c p0 X H Hp HX E) as (C1 & C2 & C3). cbv zeta in *. unfold dxdyfromp_f. rewrite (F false). cbn [rbind].
  set (X' := atmost (x_max c) (atleast (Some (x_min c)) X)) in *. set (Y' := atmost (y_max c) (atleast (Some (y_min c)) (X * p0))) in *.
  exists X', Y'. split; [reflexivity|]. clearbody X' Y'.
  destruct (Rlt_dec X (x_min c)) as [A|A]; [|destruct (Rlt_dec (X * p0) (y_min c)) as [B|B]].
  - assert (A' := A). apply (above_iff c p0 X H Hp HX E) in A'. destruct (C1 A') as (E1 & E2 & _ & P & EK).
    assert (PY : 0 < Y') by (apply (Rmult_lt_reg_l X'); lra). do 3 (split; [assumption|]). split; [lra|]. specialize (O4 _ E2). split; [lra|]. split; [lra|]. intros _.
    apply (Rmult_le_reg_l X'); [exact P|]. rewrite EK, <- E, E1. 
    assert (G : X * X <= x_min c * x_min c) by (apply Rmult_le_compat; lra). apply (Rmult_le_compat_r p0) in G; lra.
  - assert (B' := B). apply (below_iff c p0 X H Hp HX E) in B'. destruct (C2 B') as (E1 & E2 & _ & P & EK).
    assert (PY : 0 < Y') by (apply (Rmult_lt_reg_l X'); lra). do 3 (split; [assumption|]). specialize (O3 _ E1). split; [lra|]. split; [lra|]. split; [|lra]. intros _.
    apply (Rmult_le_reg_r Y'); [exact PY|]. replace (p0 * X' * Y') with (p0 * (X' * Y')) by ring. rewrite EK, <- E, E2.
    assert (0 <= X * p0) by (apply Rlt_le, Rmult_lt_0_compat; assumption).
    assert (G : (X * p0) * (X * p0) <= y_min c * y_min c) by (apply Rmult_le_compat; lra). lra.
  - destruct C3 as [E1 E2]; [rewrite (above_iff c p0 X H Hp HX E); exact A|rewrite (below_iff c p0 X H Hp HX E); exact B|]. rewrite E1, E2.
    assert (0 < X * p0) by (apply Rmult_lt_0_compat; assumption). split; [exact HX|]. split; [assumption|]. split; [rewrite <- E; ring|]. split; [lra|]. split; [lra|]. split; intros _; lra.
Qed.
(** the same reserves are the cheapest ones *)
Lemma cheapest p0 X Y X' Y' xm ym : 0 < p0 -> 0 < X -> 0 < Y -> 0 < X' -> X * Y <= X' * Y' -> xm <= X' -> ym <= Y' ->
  xm <= X -> ym <= Y -> (xm < X -> p0 * X <= Y) -> (ym < Y -> Y <= p0 * X) -> p0 * X + Y < p0 * X' + Y' \/ (X' = X /\ Y' = Y).
Proof.
  intros Hp HX HY HX' K A B C D E F. assert (P : 0 < X * Y) by (apply Rmult_lt_0_compat; assumption).
  assert (HY' : 0 < Y') by (apply (Rmult_lt_reg_l X'); lra). destruct (Rtotal_order (p0 * X) Y) as [L|[L|L]].
  - assert (Y = ym) by (apply Rle_antisym; [|exact D]; apply Rnot_lt_le; intros G; apply F in G; lra). assert (G : Y <= Y') by lra.
    assert (V : Y' * (p0 * X' + Y' - p0 * X - Y) = p0 * (X' * Y' - X * Y) + (Y' - Y) * (Y' - p0 * X)) by ring.
    assert (V1 : 0 <= p0 * (X' * Y' - X * Y)) by (apply Rmult_le_pos; lra). assert (V2 : 0 <= (Y' - Y) * (Y' - p0 * X)) by (apply Rmult_le_pos; lra).
    destruct (Rle_lt_or_eq_dec Y Y' G) as [G'|G'].
    + left. assert (0 < (Y' - Y) * (Y' - p0 * X)) by (apply Rmult_lt_0_compat; lra). assert (0 < p0 * X' + Y' - p0 * X - Y) by (apply (Rmult_lt_reg_l Y'); lra). lra.
    + rewrite <- G' in *. assert (X <= X') by (apply (Rmult_le_reg_r Y); lra). destruct (Rle_lt_or_eq_dec X X' H0) as [G2|G2]; [left|right; auto].
      apply (Rmult_lt_compat_l p0) in G2; lra.
  - (* p0 X = Y *) destruct (Req_dec X' X) as [->|N].
    + assert (Y <= Y') by (apply (Rmult_le_reg_l X); lra). destruct (Rle_lt_or_eq_dec Y Y' H) as [G2|G2]; [left; lra|right; auto].
    + left. assert (V : X' * (p0 * X' + Y' - p0 * X - Y) = (X' * Y' - X * Y) + p0 * ((X' - X) * (X' - X)) + X * (Y - p0 * X) + X' * (p0 * X - Y)) by ring.
      assert (0 < (X' - X) * (X' - X)) by (destruct (Rlt_dec X' X); [replace ((X' - X) * (X' - X)) with ((X - X') * (X - X')) by ring|]; apply Rmult_lt_0_compat; lra).
      assert (0 < p0 * ((X' - X) * (X' - X))) by (apply Rmult_lt_0_compat; lra). rewrite L in V. replace (Y - Y) with 0 in V by ring. rewrite !Rmult_0_r in V.
      assert (0 < p0 * X' + Y' - Y - Y) by (apply (Rmult_lt_reg_l X'); lra). lra.
  - assert (X = xm) by (apply Rle_antisym; [|exact C]; apply Rnot_lt_le; intros G; apply E in G; lra). assert (G : X <= X') by lra.
    assert (G0 : p0 * X <= p0 * X') by (apply Rmult_le_compat_l; lra).
    assert (V : X' * (p0 * X' + Y' - p0 * X - Y) = (X' * Y' - X * Y) + (X' - X) * (p0 * X' - Y)) by ring.
    assert (V2 : 0 <= (X' - X) * (p0 * X' - Y)) by (apply Rmult_le_pos; lra).
    destruct (Rle_lt_or_eq_dec X X' G) as [G'|G'].
    + left. assert (0 < (X' - X) * (p0 * X' - Y)) by (apply Rmult_lt_0_compat; lra). assert (0 < p0 * X' + Y' - p0 * X - Y) by (apply (Rmult_lt_reg_l X'); lra). lra.
    + rewrite <- G' in *. assert (Y <= Y') by (apply (Rmult_le_reg_l X); lra). destruct (Rle_lt_or_eq_dec Y Y' H0) as [G2|G2]; [left; lra|right; auto].
Qed.
Lemma trade_optimal c p0 : pool_ok c -> 0 < p0 -> exists dx dy, dxdyfromp_f c (Some p0) false = Ret (dx, dy, p0) /\ allowed c dx dy /\ (x c + dx) * (y c + dy) = k c /\
  forall dx' dy', allowed c dx' dy' -> p0 * dx + dy < p0 * dx' + dy' \/ (dx' = dx /\ dy' = dy).
Proof.
  intros H Hp. destruct (reach c p0 H Hp) as (X & Y & E & HX & HY & K & A & B & C & D). exists (X - x c), (Y - y c). split; [exact E|].
  unfold x_min, y_min in *. split; [|split].
  - unfold allowed. replace (x c + (X - x c)) with X by ring. replace (y c + (Y - y c)) with Y by ring. lra.
  - replace (x c + (X - x c)) with X by ring. replace (y c + (Y - y c)) with Y by ring. exact K.
  - intros dx' dy' (F1 & F2 & F3 & F4).
    destruct (cheapest p0 X Y (x c + dx') (y c + dy') (x c - x_act c) (y c - y_act c)) as [L|[L1 L2]]; try assumption; try lra.
Qed.
Lemma stay_allowed c : pool_ok c -> allowed c 0 0.
Proof. intros H. destruct (pool_pos c H) as (Hy & Hk & Hx & Hxy & _). destruct H as (_ & _ & A & B). unfold allowed. rewrite !Rplus_0_r. lra. Qed.
Lemma trade_gain c p0 dx dy : pool_ok c -> 0 < p0 -> dxdyfromp_f c (Some p0) false = Ret (dx, dy, p0) -> p0 * dx + dy <= 0 /\ (p0 * dx + dy = 0 <-> dx = 0 /\ dy = 0) /\
  ((dx = 0 /\ dy = 0) \/ (0 < dx /\ dy < 0) \/ (dx < 0 /\ 0 < dy)).
Proof.
  intros H Hp E. destruct (trade_optimal c p0 H Hp) as (dx1 & dy1 & E1 & A & K & O). assert (dx1 = dx /\ dy1 = dy) as [-> ->] by (rewrite E in E1; split; congruence).
  assert (G := O 0 0 (stay_allowed c H)).
  assert (V : p0 * dx + dy <= 0 /\ (p0 * dx + dy = 0 <-> dx = 0 /\ dy = 0)).
  { destruct G as [G|[<- <-]]; [|split; [lra|split; [auto|intros _; ring]]]. split; [lra|]. split; [lra|]. intros [-> ->]. ring. }
  destruct V as [V1 V2]. split; [exact V1|]. split; [exact V2|]. destruct (pool_pos c H) as (Hy & Hk & Hx & Hxy & _).
  destruct (Rtotal_order dx 0) as [L|[->|L]]; [right; right|left|right; left].
  - split; [exact L|]. apply Rnot_le_lt. intros Q. destruct A as (_ & _ & A & _).
    assert ((x c + dx) * (y c + dy) <= (x c + dx) * y c) by (apply Rmult_le_compat_l; lra). assert ((x c + dx) * y c < x c * y c) by (apply Rmult_lt_compat_r; lra). lra.
  - split; [reflexivity|]. assert (x c * dy = 0) by lra. apply Rmult_integral in H0. destruct H0; lra.
  - split; [exact L|]. apply Rnot_le_lt. intros Q. destruct A as (_ & _ & A & _).
    assert ((x c + dx) * y c <= (x c + dx) * (y c + dy)) by (apply Rmult_le_compat_l; lra). assert (x c * y c < (x c + dx) * y c) by (apply Rmult_lt_compat_r; lra). lra.
Qed.
Lemma trade_monotone c p0 p1 dx dy dx' dy' : pool_ok c -> 0 < p0 <= p1 -> dxdyfromp_f c (Some p0) false = Ret (dx, dy, p0) -> dxdyfromp_f c (Some p1) false = Ret (dx', dy', p1) ->
  dx' <= dx /\ dy <= dy'.
Proof.
  intros H [Hp L] E E'. destruct (Rle_lt_or_eq_dec _ _ L) as [L'|L']; [|subst p1; assert (dx' = dx /\ dy' = dy) by (split; congruence); lra].
  destruct (trade_optimal c p0 H Hp) as (a & b & E1 & A & K & O). assert (a = dx /\ b = dy) as [-> ->] by (rewrite E in E1; split; congruence).
  destruct (trade_optimal c p1 H ltac:(lra)) as (a & b & E2 & A' & K' & O'). assert (a = dx' /\ b = dy') as [-> ->] by (rewrite E' in E2; split; congruence).
  assert (O1 : p0 * dx + dy <= p0 * dx' + dy') by (destruct (O _ _ A') as [G|[-> ->]]; lra).
  assert (O2 : p1 * dx' + dy' <= p1 * dx + dy) by (destruct (O' _ _ A) as [G|[-> ->]]; lra).
  assert (G : (p1 - p0) * (dx' - dx) <= 0) by lra.
  assert (dx' <= dx). { apply Rnot_lt_le. intros Q. assert (0 < (p1 - p0) * (dx' - dx)) by (apply Rmult_lt_0_compat; lra). lra. }
  split; [exact H0|]. destruct A as (_ & _ & A & _), A' as (_ & _ & A' & _). apply Rnot_lt_le. intros Q. destruct (pool_pos c H) as (Hy & Hk & Hx & Hxy & _).
  assert (PY : 0 < y c + dy) by (apply (Rmult_lt_reg_l (x c + dx)); lra).
  assert ((x c + dx') * (y c + dy') <= (x c + dx) * (y c + dy')) by (apply Rmult_le_compat_r; [apply Rlt_le, (Rmult_lt_reg_l (x c + dx')); lra|lra]).
  assert ((x c + dx) * (y c + dy') < (x c + dx) * (y c + dy)) by (apply Rmult_lt_compat_l; lra). lra.
Qed.
Lemma trade_sign c p0 dx dy : pool_ok c -> 0 < p0 -> dxdyfromp_f c (Some p0) false = Ret (dx, dy, p0) ->
  (p0 <= CpcModel.p c -> 0 <= dx /\ dy <= 0) /\ (CpcModel.p c <= p0 -> dx <= 0 /\ 0 <= dy) /\ (p0 = CpcModel.p c -> dx = 0 /\ dy = 0).
Proof.
  intros H Hp E. destruct (current_inside c H) as (Pc & NA & NB).
  assert (Z : dxdyfromp_f c (Some (CpcModel.p c)) false = Ret (0, 0, CpcModel.p c)).
  { destruct (trade_optimal c (CpcModel.p c) H Pc) as (a & b & E1 & A & K & O). destruct (reach c (CpcModel.p c) H Pc) as (X & Y & E2 & HX & HY & KK & P1 & P2 & P3 & P4).
    assert (a = X - x c) by congruence. assert (b = Y - y c) by congruence. 
    destruct (pool_pos c H) as (Hy & Hk & Hx & Hxy & _).
    destruct (cheapest (CpcModel.p c) (x c) (y c) X Y (x_min c) (y_min c)) as [L|[L1 L2]]; try assumption; try lra.
    - unfold x_min. destruct H as (_ & _ & H & _). lra.
    - unfold y_min. destruct H as (_ & _ & _ & H). unfold y. lra.
    - intros _. unfold CpcModel.p. apply Req_le. field. lra.
    - intros _. unfold CpcModel.p. apply Req_le. field. lra.
    - exfalso. specialize (O 0 0 (stay_allowed c H)). rewrite H0, H1 in O.
      destruct O as [O|[O1 O2]]; [lra|]. assert (X = x c) by lra. assert (Y = y c) by lra. rewrite H2, H3 in L. lra.
    - rewrite E2, L1, L2, !Rminus_diag_eq by reflexivity. reflexivity. }
  split; [intros L; apply (trade_monotone c p0 (CpcModel.p c) dx dy 0 0 H ltac:(lra) E Z)|].
  split; [intros L; apply (trade_monotone c (CpcModel.p c) p0 0 0 dx dy H ltac:(lra) Z E)|].
  intros ->. split; congruence.
Qed.
