From Coq Require Import ZArith QArith Qround Lia Psatz Bool.
From Verif Require Import TradeModel TradeSpec.
Local Open Scope Z_scope.

(** ** Inversion lemmas for the checked operations *)
Lemma check_Some v m r : check v m = Some r -> r = v /\ 0 <= v <= m.
Proof.
  unfold check. destruct (0 <=? v) eqn:H1; destruct (v <=? m) eqn:H2; cbn; intros H; try discriminate.
  inversion H; subst. lia.
Qed.
Lemma check_intro v m : 0 <= v <= m -> check v m = Some v.
Proof. intros H. unfold check. replace (0 <=? v) with true by lia. replace (v <=? m) with true by lia. reflexivity. Qed.
Lemma pydiv_Some a b r : pydiv a b = Some r -> b <> 0 /\ r = a / b.
Proof. unfold pydiv. destruct (b =? 0) eqn:E; intros H; try discriminate. inversion H. lia. Qed.
Lemma pydiv_intro a b : b <> 0 -> pydiv a b = Some (a / b).
Proof. unfold pydiv. intros H. destruct (b =? 0) eqn:E; [lia|reflexivity]. Qed.
Lemma bind_Some {A B} (m : option A) (f : A -> option B) r :
  bind m f = Some r -> exists a, m = Some a /\ f a = Some r.
Proof. destruct m; cbn; intros H; [eauto|discriminate]. Qed.
Lemma add_Some a b r : add a b = Some r -> r = a + b /\ 0 <= r <= MAX_UINT256.
Proof. unfold add. intros H. apply check_Some in H. lia. Qed.
Lemma sub_Some a b r : sub a b = Some r -> r = a - b /\ 0 <= r <= MAX_UINT256.
Proof. unfold sub. intros H. apply check_Some in H. lia. Qed.
Lemma mul_Some a b r : mul a b = Some r -> r = a * b /\ 0 <= r <= MAX_UINT256.
Proof. unfold mul. intros H. apply check_Some in H. lia. Qed.
Lemma mulDivF_Some a b c r : mulDivF a b c = Some r -> c <> 0 /\ r = a * b / c /\ 0 <= r <= MAX_UINT256.
Proof.
  unfold mulDivF. intros H. apply bind_Some in H as (q & H1 & H2).
  apply pydiv_Some in H1 as [H1 ->]. apply check_Some in H2. lia.
Qed.
Lemma mulDivC_Some a b c r : mulDivC a b c = Some r -> c <> 0 /\ r = (a * b + c - 1) / c /\ 0 <= r <= MAX_UINT256.
Proof.
  unfold mulDivC. intros H. apply bind_Some in H as (q & H1 & H2).
  apply pydiv_Some in H1 as [H1 ->]. apply check_Some in H2. lia.
Qed.

Ltac inv_do :=
  repeat match goal with
  | H : bind _ _ = Some _ |- _ =>
      let a := fresh "v" in let H1 := fresh "E" in let H2 := fresh "E" in
      apply bind_Some in H as (a & H1 & H2)
  | H : add _ _ = Some _ |- _ => apply add_Some in H as [? ?]
  | H : sub _ _ = Some _ |- _ => apply sub_Some in H as [? ?]
  | H : mul _ _ = Some _ |- _ => apply mul_Some in H as [? ?]
  | H : mulDivF _ _ _ = Some _ |- _ => apply mulDivF_Some in H as [? [? ?]]
  | H : mulDivC _ _ _ = Some _ |- _ => apply mulDivC_Some in H as [? [? ?]]
  | H : pydiv _ _ = Some _ |- _ => apply pydiv_Some in H as [? ?]
  | H : uint128 _ = Some _ |- _ => unfold uint128 in H; apply check_Some in H as [? ?]
  end.

(** ** Rounding facts *)
Lemma floor_le a c : 0 < c -> a / c * c <= a.
Proof. intros. rewrite Z.mul_comm. apply Z.mul_div_le. lia. Qed.
Lemma ceil_ge a c : 0 < c -> a <= (a + c - 1) / c * c.
Proof.
  intros Hc. pose proof (Z.div_mod (a + c - 1) c ltac:(lia)) as H.
  pose proof (Z.mod_pos_bound (a + c - 1) c Hc). nia.
Qed.
Lemma ceil_lt a c : 0 < c -> ((a + c - 1) / c - 1) * c < a.
Proof.
  intros Hc. pose proof (Z.div_mod (a + c - 1) c ltac:(lia)) as H.
  pose proof (Z.mod_pos_bound (a + c - 1) c Hc). nia.
Qed.
Lemma ceil0 c : 0 < c -> (0 + c - 1) / c = 0.
Proof. intros. apply Z.div_small. lia. Qed.
Lemma MAX256_pos : 0 < MAX_UINT256. Proof. reflexivity. Qed.
Lemma ONE_pos : 0 < ONE. Proof. reflexivity. Qed.

(** ** Multiplicative helpers, kept free of context so that they stay fast *)
Lemma mul_le_l a b c : 0 <= c -> a <= b -> c * a <= c * b.
Proof. intros. apply Z.mul_le_mono_nonneg_l; assumption. Qed.
Lemma mul_le_r a b c : 0 <= c -> a <= b -> a * c <= b * c.
Proof. intros. apply Z.mul_le_mono_nonneg_r; assumption. Qed.
Lemma sq_nonneg a : 0 <= a * a.
Proof. apply Z.square_nonneg. Qed.

Lemma src_arith1 T x A q f d4 d5 s r :
  0 < A -> 0 < f -> 0 <= T -> 0 <= r ->
  s <= d4 * f -> T * x * A <= d5 * f -> r * (d4 + d5) <= T * q -> q * f <= T * x ->
  r * (A * x * T + s) <= x * T * T.
Proof.
  intros HA Hf HT Hr H4 H5 Hq Hqf.
  assert (G1 : r * (A * x * T + s) <= r * ((d4 + d5) * f)).
  { apply mul_le_l; [assumption|]. replace (A * x * T) with (T * x * A) by ring. lia. }
  assert (G2 : r * (d4 + d5) * f <= T * q * f) by (apply mul_le_r; lia).
  assert (G3 : T * (q * f) <= T * (T * x)) by (apply mul_le_l; assumption).
  replace (r * ((d4 + d5) * f)) with (r * (d4 + d5) * f) in G1 by ring.
  replace (T * (q * f)) with (T * q * f) in G3 by ring.
  replace (x * T * T) with (T * (T * x)) by ring. lia.
Qed.

Lemma src_arith2 T x A c s r :
  0 <= T * x -> 0 <= r -> s <= c * (T * x) -> r * (A + c) <= T ->
  r * (A * x * T + s) <= x * T * T.
Proof.
  intros HT Hr Hc Hd.
  assert (G1 : r * (A * x * T + s) <= r * ((A + c) * (T * x))).
  { apply mul_le_l; [assumption|].
    replace ((A + c) * (T * x)) with (A * x * T + c * (T * x)) by ring. lia. }
  assert (G2 : r * (A + c) * (T * x) <= T * (T * x)) by (apply mul_le_r; assumption).
  replace (r * ((A + c) * (T * x))) with (r * (A + c) * (T * x)) in G1 by ring.
  replace (x * T * T) with (T * (T * x)) by ring. lia.
Qed.

(** ** By source: the integer result never exceeds the exact quotient *)
Lemma src_core x y z A B r :
  0 < A -> 0 <= z ->
  tradeBySourceAmountFunc x y z A B = Some r ->
  let T := y * A + z * B in
  0 <= r /\ 0 <= T /\ 0 <= T * x /\ 0 < A * x * T + (z * ONE) * (z * ONE) /\
  r * (A * x * T + (z * ONE) * (z * ONE)) <= x * T * T.
Proof.
  intros HA Hz H. cbn zeta. unfold tradeBySourceAmountFunc in H.
  destruct (A =? 0) eqn:EA; [lia|].
  inv_do. subst v v0 v1 v2 v3.
  set (T := y * A + z * B) in *. set (t1 := z * ONE) in *.
  set (f := Z.max v4 v5) in *.
  assert (Hf : 0 < f) by lia.
  assert (G4 : t1 * t1 <= v6 * f) by (subst v6; apply ceil_ge; assumption).
  assert (G5 : T * x * A <= v7 * f) by (subst v7; apply ceil_ge; assumption).
  assert (Hs : 0 <= t1 * t1) by apply sq_nonneg.
  assert (HTx : 0 <= T * x) by lia.
  assert (Hden : 0 < A * x * T + t1 * t1).
  { replace (A * x * T) with (A * (T * x)) by ring.
    assert (0 <= A * (T * x)) by (apply Z.mul_nonneg_nonneg; lia).
    destruct (Z.eq_dec (t1 * t1) 0) as [E|E]; [|lia].
    destruct (Z.eq_dec (T * x) 0) as [E'|E'];
      [|assert (0 < A * (T * x)) by (apply Z.mul_pos_pos; lia); lia].
    assert (v4 = 0) by (subst v4; rewrite E; apply ceil0; reflexivity).
    assert (v5 = 0) by (subst v5; rewrite E', Z.mul_0_l; apply ceil0; reflexivity).
    lia. }
  destruct (v6 + v7 <=? MAX_UINT256) eqn:Eb.
  - inv_do. subst v.
    assert (0 < v6 + v7) by lia.
    assert (G : r * (v6 + v7) <= T * (T * x / f)) by (subst r; apply floor_le; lia).
    assert (G' : T * x / f * f <= T * x) by (apply floor_le; lia).
    repeat split; try lia.
    eapply src_arith1 with (f := f); eauto; lia.
  - inv_do. rename v into c. subst v0.
    assert (0 < T * x) by lia.
    assert (Gc : t1 * t1 <= c * (T * x)) by (subst c; apply ceil_ge; lia).
    assert (Gr : r * (A + c) <= T) by (subst r; apply floor_le; lia).
    assert (0 <= r) by (subst r; apply Z.div_pos; lia).
    repeat split; try lia.
    eapply src_arith2; eauto.
Qed.

Lemma src_core_A0 x y z B r :
  tradeBySourceAmountFunc x y z 0 B = Some r ->
  0 <= r /\ r * (ONE * ONE) <= x * (B * B).
Proof.
  unfold tradeBySourceAmountFunc. cbn [Z.eqb]. intros H. inv_do. subst v v0.
  split; [lia|]. subst r. apply floor_le. reflexivity.
Qed.

(** ** By target *)
Lemma tgt_arith x s d4 d5 f r P :
  0 <= x -> 0 < f -> 0 <= r -> s <= d4 * f -> d5 * f <= P -> x * d4 <= r * d5 -> x * s <= r * P.
Proof.
  intros Hx Hf Hr H4 H5 H.
  assert (x * s <= x * (d4 * f)) by (apply mul_le_l; assumption).
  assert (x * d4 * f <= r * d5 * f) by (apply mul_le_r; lia).
  assert (r * (d5 * f) <= r * P) by (apply mul_le_l; assumption).
  replace (x * (d4 * f)) with (x * d4 * f) in * by ring.
  replace (r * (d5 * f)) with (r * d5 * f) in * by ring. lia.
Qed.

Lemma tgt_core x y z A B r :
  0 < A -> 0 <= z ->
  tradeByTargetAmountFunc x y z A B = Some r ->
  let T := y * A + z * B in
  0 <= r /\ 0 <= x /\ 0 < T * (T - A * x) /\ 0 < T /\
  x * ((z * ONE) * (z * ONE)) <= r * (T * (T - A * x)).
Proof.
  intros HA Hz H. cbn zeta. unfold tradeByTargetAmountFunc in H.
  destruct (A =? 0) eqn:EA; [lia|].
  inv_do. subst v v0 v1 v2 v3 v4.
  set (T := y * A + z * B) in *. set (t1 := z * ONE) in *.
  set (f := Z.max v5 v6) in *.
  assert (Hx : 0 <= x) by (destruct (Z.lt_ge_cases x 0) as [Hx|Hx]; [pose proof (Z.mul_neg_pos x A Hx HA); lia|assumption]).
  assert (Hf : 0 < f) by lia.
  assert (Ht3 : 0 <= T - x * A) by lia.
  assert (G4 : t1 * t1 <= v7 * f) by (subst v7; apply ceil_ge; assumption).
  assert (G5 : v8 * f <= T * (T - x * A)) by (subst v8; apply floor_le; assumption).
  assert (0 < v8) by lia.
  assert (Gr : x * v7 <= r * v8) by (subst r; apply ceil_ge; lia).
  assert (Gv : 0 < v8 * f) by (apply Z.mul_pos_pos; lia).
  assert (0 < T * (T - x * A)) by lia.
  assert (0 < T) by (destruct (Z.eq_dec T 0) as [E|E]; [rewrite E in *; lia|lia]).
  replace (A * x) with (x * A) by lia.
  repeat split; try lia.
  eapply tgt_arith with (f := f); eauto. lia.
Qed.

Lemma tgt_core_A0 x y z B r :
  tradeByTargetAmountFunc x y z 0 B = Some r ->
  0 <= r /\ 0 < B * B /\ x * (ONE * ONE) <= r * (B * B).
Proof.
  unfold tradeByTargetAmountFunc. cbn [Z.eqb]. intros H. inv_do. subst v v0.
  assert (0 < B * B) by (pose proof (sq_nonneg B); lia).
  repeat split; try lia. subst r. apply ceil_ge. assumption.
Qed.
