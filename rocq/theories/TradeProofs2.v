From Coq Require Import ZArith QArith Qround Lia Psatz Bool Field Qfield.
From Verif Require Import TradeModel TradeSpec TradeProofs.
Local Open Scope Z_scope.

(** ** From integers to the rational statements *)
Lemma inj_div_le r n d : 0 < d -> r * d <= n -> (inject_Z r <= inject_Z n / inject_Z d)%Q.
Proof.
  intros Hd H. apply Qle_shift_div_l. { change 0%Q with (inject_Z 0). rewrite <- Zlt_Qlt. assumption. }
  rewrite <- inject_Z_mult, <- Zle_Qle. assumption.
Qed.
Lemma inj_div_ge r n d : 0 < d -> n <= r * d -> (inject_Z n / inject_Z d <= inject_Z r)%Q.
Proof.
  intros Hd H. apply Qle_shift_div_r. { change 0%Q with (inject_Z 0). rewrite <- Zlt_Qlt. assumption. }
  rewrite <- inject_Z_mult, <- Zle_Qle. assumption.
Qed.
Lemma inj_div_le_inv r n d : 0 < d -> (inject_Z r <= inject_Z n / inject_Z d)%Q -> r * d <= n.
Proof.
  intros Hd H. destruct (Z.le_gt_cases (r * d) n) as [G|G]; [assumption|exfalso].
  apply (Qlt_not_le (inject_Z n / inject_Z d) (inject_Z r)); [|assumption].
  apply Qlt_shift_div_r. { change 0%Q with (inject_Z 0). rewrite <- Zlt_Qlt. assumption. }
  rewrite <- inject_Z_mult, <- Zlt_Qlt. assumption.
Qed.
Lemma inj_div_ge_inv r n d : 0 < d -> (inject_Z n / inject_Z d <= inject_Z r)%Q -> n <= r * d.
Proof.
  intros Hd H. destruct (Z.le_gt_cases n (r * d)) as [G|G]; [assumption|exfalso].
  apply (Qlt_not_le (inject_Z r) (inject_Z n / inject_Z d)); [|assumption].
  apply Qlt_shift_div_l. { change 0%Q with (inject_Z 0). rewrite <- Zlt_Qlt. assumption. }
  rewrite <- inject_Z_mult, <- Zlt_Qlt. assumption.
Qed.

Lemma floor_div_iff n d r : 0 < d -> (is_floor (inject_Z n / inject_Z d) r <-> r = n / d).
Proof.
  intros Hd. unfold is_floor. split.
  - intros [H1 H2]. apply inj_div_le_inv in H1; [|assumption].
    assert (n < (r + 1) * d).
    { destruct (Z.lt_ge_cases n ((r+1)*d)) as [G|G]; [assumption|].
      exfalso. apply (Qlt_not_le _ _ H2). apply inj_div_le; assumption. }
    apply Z.div_unique with (n - r * d); lia.
  - intros ->. pose proof (Z.div_mod n d ltac:(lia)). pose proof (Z.mod_pos_bound n d Hd). split.
    + apply inj_div_le; [assumption|]. lia.
    + apply Qlt_shift_div_r. { change 0%Q with (inject_Z 0). rewrite <- Zlt_Qlt. assumption. }
      rewrite <- inject_Z_mult, <- Zlt_Qlt. lia.
Qed.
Lemma ceil_div_iff n d r : 0 < d -> (is_ceil (inject_Z n / inject_Z d) r <-> r = (n + d - 1) / d).
Proof.
  intros Hd. unfold is_ceil. split.
  - intros [H1 H2]. apply inj_div_ge_inv in H2; [|assumption].
    assert ((r - 1) * d < n).
    { destruct (Z.lt_ge_cases ((r-1)*d) n) as [G|G]; [assumption|].
      exfalso. apply (Qlt_not_le _ _ H1). apply inj_div_ge; assumption. }
    apply Z.div_unique with (n + d - 1 - r * d); lia.
  - intros ->. pose proof (Z.div_mod (n + d - 1) d ltac:(lia)). pose proof (Z.mod_pos_bound (n + d - 1) d Hd). split.
    + apply Qlt_shift_div_l. { change 0%Q with (inject_Z 0). rewrite <- Zlt_Qlt. assumption. }
      rewrite <- inject_Z_mult, <- Zlt_Qlt. lia.
    + apply inj_div_ge; [assumption|]. lia.
Qed.

Lemma inj_neq0 d : d <> 0 -> ~ (inject_Z d == 0)%Q.
Proof. intros H G. apply H. apply (proj1 (inject_Z_injective d 0)). exact G. Qed.

Lemma fix48_zero A : (fix48 A == 0)%Q <-> A = 0.
Proof.
  unfold fix48. split.
  - intros H. destruct (Z.eq_dec A 0); [assumption|exfalso].
    apply (inj_neq0 A n).
    assert (inject_Z A == inject_Z A / inject_Z (2^48) * inject_Z (2^48))%Q.
    { field. intros E. discriminate E. }
    rewrite H0, H. ring.
  - intros ->. reflexivity.
Qed.

Lemma exact_out_A0 B y z x :
  (exact_out (fix48 0) (fix48 B) y z (inject_Z x) == inject_Z (x * (B * B)) / inject_Z (ONE * ONE))%Q.
Proof.
  unfold exact_out. replace (Qeq_bool (fix48 0) 0) with true by reflexivity.
  unfold fix48. rewrite !inject_Z_mult. change (2^48) with ONE. field. apply inj_neq0. discriminate.
Qed.

Lemma exact_out_A A B y z x : A <> 0 ->
  let T := y * A + z * B in
  A * x * T + (z * ONE) * (z * ONE) <> 0 ->
  (exact_out (fix48 A) (fix48 B) (inject_Z y) (inject_Z z) (inject_Z x)
   == inject_Z (x * T * T) / inject_Z (A * x * T + (z * ONE) * (z * ONE)))%Q.
Proof.
  intros HA T HD. unfold exact_out.
  destruct (Qeq_bool (fix48 A) 0) eqn:E.
  { apply Qeq_bool_iff in E. apply (proj1 (fix48_zero A)) in E. contradiction. }
  unfold fix48. change (2^48) with ONE. subst T.
  apply inj_neq0 in HD.
  assert (HO : ~ (inject_Z ONE == 0)%Q) by (apply inj_neq0; discriminate).
  revert HD. repeat rewrite ?inject_Z_mult, ?inject_Z_plus. intros HD.
  field. repeat split; try assumption.
  all: intros G; apply HD; rewrite <- G; ring.
Qed.

Lemma exact_in_A0 B y z x : B <> 0 ->
  (exact_in (fix48 0) (fix48 B) y z (inject_Z x) == inject_Z (x * (ONE * ONE)) / inject_Z (B * B))%Q.
Proof.
  intros HB. unfold exact_in. replace (Qeq_bool (fix48 0) 0) with true by reflexivity.
  unfold fix48. rewrite !inject_Z_mult. change (2^48) with ONE. field.
  split; apply inj_neq0; [assumption|discriminate].
Qed.

Lemma exact_in_A A B y z x : A <> 0 ->
  let T := y * A + z * B in
  T * (T - A * x) <> 0 ->
  (exact_in (fix48 A) (fix48 B) (inject_Z y) (inject_Z z) (inject_Z x)
   == inject_Z (x * ((z * ONE) * (z * ONE))) / inject_Z (T * (T - A * x)))%Q.
Proof.
  intros HA T HD. unfold exact_in.
  destruct (Qeq_bool (fix48 A) 0) eqn:E.
  { apply Qeq_bool_iff in E. apply (proj1 (fix48_zero A)) in E. contradiction. }
  unfold fix48. change (2^48) with ONE. subst T.
  assert (HD1 : y * A + z * B <> 0) by (intros G; apply HD; rewrite G; ring).
  assert (HD2 : y * A + z * B - A * x <> 0) by (intros G; apply HD; rewrite G; ring).
  apply inj_neq0 in HD1. apply inj_neq0 in HD2.
  assert (HO : ~ (inject_Z ONE == 0)%Q) by (apply inj_neq0; discriminate).
  unfold Z.sub in *.
  revert HD1 HD2. repeat rewrite ?inject_Z_mult, ?inject_Z_plus, ?inject_Z_opp. intros HD1 HD2.
  field. repeat split; try assumption.
Qed.

(** ** decodeFloat is the denotation of the compressed number *)
Lemma decodeFloat_denoted v : 0 <= v -> decodeFloat v = denoted v.
Proof.
  intros H. unfold decodeFloat, denoted, ONE. apply Z.shiftl_mul_pow2. apply Z.div_pos; [assumption|reflexivity].
Qed.
Lemma denoted_nonneg v : 0 <= v -> 0 <= denoted v.
Proof.
  intros H. unfold denoted. apply Z.mul_nonneg_nonneg.
  - apply Z.mod_pos_bound. reflexivity.
  - apply Z.pow_nonneg. lia.
Qed.

(** ** C01 *)

Lemma tradeFunc_cases amount o f fb :
  (exists r, f amount (o_y o) (o_z o) (decodeFloat (o_A o)) (decodeFloat (o_B o)) = Some r
             /\ tradeFunc amount o f fb = r /\ 0 <= r <= MAX_UINT128)
  \/ tradeFunc amount o f fb = fb.
Proof.
  unfold tradeFunc. destruct (f _ _ _ _ _) as [r|]; cbn [bind]; [|right; reflexivity].
  destruct (uint128 r) eqn:E; [|right; reflexivity].
  left. unfold uint128 in E. apply check_Some in E as [-> ?]. eauto.
Qed.

Lemma exact_out_nonneg a b y z x : (0 <= a -> 0 <= b -> 0 <= y -> 0 <= z -> 0 <= x ->
  0 <= exact_out a b y z x)%Q.
Proof.
  intros Ha Hb Hy Hz Hx. unfold exact_out. destruct (Qeq_bool a 0).
  - apply Qmult_le_0_compat; [assumption|]. apply Qmult_le_0_compat; assumption.
  - assert (H0 : (0 <= a*y+b*z)%Q).
    { change 0%Q with (0+0)%Q. apply Qplus_le_compat; apply Qmult_le_0_compat; assumption. }
    unfold Qdiv. apply Qmult_le_0_compat.
    + repeat apply Qmult_le_0_compat; assumption.
    + apply Qinv_le_0_compat. change 0%Q with (0+0)%Q. apply Qplus_le_compat; repeat apply Qmult_le_0_compat; assumption.
Qed.
Lemma fix48_nonneg v : 0 <= v -> (0 <= fix48 v)%Q.
Proof.
  intros H. unfold fix48. unfold Qdiv. apply Qmult_le_0_compat.
  - change 0%Q with (inject_Z 0). rewrite <- Zle_Qle. assumption.
  - apply Qinv_le_0_compat. discriminate.
Qed.

Lemma by_source_never_overpays o x :
  nonneg_order o -> 0 <= x ->
  (inject_Z (tradeBySourceAmount x o) <=
   exact_out (fix48 (denoted (o_A o))) (fix48 (denoted (o_B o))) (inject_Z (o_y o)) (inject_Z (o_z o)) (inject_Z x))%Q.
Proof.
  intros (Hy & Hz & HA & HB) Hx. unfold tradeBySourceAmount.
  rewrite <- !decodeFloat_denoted by assumption.
  assert (PA : 0 <= decodeFloat (o_A o)) by (rewrite decodeFloat_denoted by assumption; apply denoted_nonneg; assumption).
  assert (PB : 0 <= decodeFloat (o_B o)) by (rewrite decodeFloat_denoted by assumption; apply denoted_nonneg; assumption).
  destruct (tradeFunc_cases x o tradeBySourceAmountFunc 0) as [(r & E & -> & Hr)| ->].
  - destruct (Z.eq_dec (decodeFloat (o_A o)) 0) as [Z0|NZ].
    + rewrite Z0 in *. apply src_core_A0 in E as [_ E]. rewrite exact_out_A0.
      apply inj_div_le; [reflexivity|assumption].
    + apply src_core in E as (_ & HT & HTx & HD & E); [|lia|assumption].
      rewrite exact_out_A; [|assumption|lia]. apply inj_div_le; assumption.
  - change (inject_Z 0) with 0%Q. apply exact_out_nonneg; try (apply fix48_nonneg; assumption);
    change 0%Q with (inject_Z 0); rewrite <- Zle_Qle; assumption.
Qed.

Lemma by_source_negative o x :
  nonneg_order o -> x < 0 -> tradeBySourceAmount x o = 0.
Proof.
  intros (Hy & Hz & HA & HB) Hx. unfold tradeBySourceAmount.
  assert (PA : 0 <= decodeFloat (o_A o)) by (rewrite decodeFloat_denoted by assumption; apply denoted_nonneg; assumption).
  destruct (tradeFunc_cases x o tradeBySourceAmountFunc 0) as [(r & E & -> & Hr)| ->]; [|reflexivity].
  destruct (Z.eq_dec (decodeFloat (o_A o)) 0) as [Z0|NZ].
  - rewrite Z0 in *. apply src_core_A0 in E as [_ E].
    assert (x * (decodeFloat (o_B o) * decodeFloat (o_B o)) <= 0).
    { pose proof (sq_nonneg (decodeFloat (o_B o))).
      assert (0 <= (-x) * (decodeFloat (o_B o) * decodeFloat (o_B o))) by (apply Z.mul_nonneg_nonneg; lia). lia. }
    assert (0 <= r * (ONE * ONE)) by (apply Z.mul_nonneg_nonneg; [lia|discriminate]).
    assert (HO : 0 < ONE * ONE) by reflexivity.
    destruct (Z.eq_dec r 0); [assumption|].
    assert (0 < r * (ONE * ONE)) by (apply Z.mul_pos_pos; lia). lia.
  - apply src_core in E as (_ & HT & HTx & HD & E); [|lia|assumption].
    set (T := o_y o * decodeFloat (o_A o) + o_z o * decodeFloat (o_B o)) in *.
    assert (T = 0). { destruct (Z.eq_dec T 0); [assumption|]. pose proof (Z.mul_pos_neg T x). lia. }
    rewrite H in E. rewrite !Z.mul_0_r in E. rewrite H in HD. rewrite Z.mul_0_r in HD.
    destruct (Z.eq_dec r 0); [assumption|].
    match type of E with r * ?d <= 0 => assert (0 < r * d) by (apply Z.mul_pos_pos; lia) end. lia.
Qed.

(** ** C02 *)
Lemma by_target_never_undercharges o x :
  nonneg_order o ->
  tradeByTargetAmount x o <> 2 ^ 128 - 1 ->
  deliverable (denoted (o_A o)) (denoted (o_B o)) (o_y o) (o_z o) x /\
  (exact_in (fix48 (denoted (o_A o))) (fix48 (denoted (o_B o))) (inject_Z (o_y o)) (inject_Z (o_z o)) (inject_Z x)
   <= inject_Z (tradeByTargetAmount x o))%Q.
Proof.
  intros (Hy & Hz & HA & HB). unfold tradeByTargetAmount.
  rewrite <- !decodeFloat_denoted by assumption.
  assert (PA : 0 <= decodeFloat (o_A o)) by (rewrite decodeFloat_denoted by assumption; apply denoted_nonneg; assumption).
  assert (PB : 0 <= decodeFloat (o_B o)) by (rewrite decodeFloat_denoted by assumption; apply denoted_nonneg; assumption).
  destruct (tradeFunc_cases x o tradeByTargetAmountFunc MAX_UINT128) as [(r & E & -> & Hr)| ->]; [|intros H; exfalso; apply H; reflexivity].
  intros _.
  destruct (Z.eq_dec (decodeFloat (o_A o)) 0) as [Z0|NZ].
  - rewrite Z0 in *. apply tgt_core_A0 in E as (_ & HBB & E).
    assert (decodeFloat (o_B o) <> 0) by (intros G; rewrite G in HBB; discriminate).
    split; [left; lia|].
    rewrite exact_in_A0 by assumption. apply inj_div_ge; assumption.
  - apply tgt_core in E as (_ & _ & HD & HT & E); [|lia|assumption].
    split.
    + right. split; [lia|].
      set (T := o_y o * decodeFloat (o_A o) + o_z o * decodeFloat (o_B o)) in *.
      destruct (Z.lt_ge_cases 0 (T - decodeFloat (o_A o) * x)) as [G|G]; [lia|].
      pose proof (Z.mul_nonneg_nonneg T (- (T - decodeFloat (o_A o) * x)) ltac:(lia) ltac:(lia)). lia.
    + rewrite exact_in_A; [|assumption|lia]. apply inj_div_ge; assumption.
Qed.

(** ** C03 *)
Lemma by_source_range x o : 0 <= tradeBySourceAmount x o <= 2 ^ 128 - 1.
Proof.
  unfold tradeBySourceAmount.
  destruct (tradeFunc_cases x o tradeBySourceAmountFunc 0) as [(r & E & -> & Hr)| ->]; [assumption|].
  split; discriminate.
Qed.
Lemma by_target_range x o : 0 <= tradeByTargetAmount x o <= 2 ^ 128 - 1.
Proof.
  unfold tradeByTargetAmount.
  destruct (tradeFunc_cases x o tradeByTargetAmountFunc MAX_UINT128) as [(r & E & -> & Hr)| ->]; [assumption|].
  split; discriminate.
Qed.

(** ** C04 *)
Lemma mul_ok a b : 0 <= a * b <= MAX_UINT256 -> mul a b = Some (a * b).
Proof. apply check_intro. Qed.
Lemma add_ok a b : 0 <= a + b <= MAX_UINT256 -> add a b = Some (a + b).
Proof. apply check_intro. Qed.
Lemma sub_ok a b : 0 <= a - b <= MAX_UINT256 -> sub a b = Some (a - b).
Proof. apply check_intro. Qed.
Lemma mulDivF_ok a b c : 0 < c -> 0 <= a * b / c <= MAX_UINT256 -> mulDivF a b c = Some (a * b / c).
Proof. intros Hc H. unfold mulDivF. rewrite pydiv_intro by lia. cbn [bind]. apply check_intro; assumption. Qed.
Lemma mulDivC_ok a b c : 0 < c -> 0 <= (a * b + c - 1) / c <= MAX_UINT256 -> mulDivC a b c = Some ((a * b + c - 1) / c).
Proof. intros Hc H. unfold mulDivC. rewrite pydiv_intro by lia. cbn [bind]. apply check_intro; assumption. Qed.
Lemma ceil_le1 n m : 0 <= n <= m -> 0 < m -> 0 <= (n + m - 1) / m <= 1.
Proof.
  intros H Hm. split; [apply Z.div_pos; lia|].
  destruct (Z.eq_dec n 0) as [->|]; [rewrite ceil0; lia|].
  apply Z.lt_succ_r. apply Z.div_lt_upper_bound; lia.
Qed.
Lemma ceil_pos n m : 0 < n -> 0 < m -> 0 < (n + m - 1) / m.
Proof. intros. apply Z.div_str_pos. lia. Qed.

Lemma mulDivC_1 a b : 0 <= a * b <= MAX_UINT256 -> mulDivC a b 1 = Some (a * b).
Proof.
  intros H. rewrite mulDivC_ok; [f_equal; rewrite Z.div_1_r; lia|lia|rewrite Z.div_1_r; lia].
Qed.
Lemma mulDivF_1 a b : 0 <= a * b <= MAX_UINT256 -> mulDivF a b 1 = Some (a * b).
Proof.
  intros H. rewrite mulDivF_ok; [f_equal; rewrite Z.div_1_r; lia|lia|rewrite Z.div_1_r; lia].
Qed.

Lemma factor_one p q M :
  0 < M -> 0 <= p <= M -> 0 <= q <= M -> 0 < p + q ->
  Z.max ((p + M - 1) / M) ((q + M - 1) / M) = 1.
Proof.
  intros HM Hp Hq Hs.
  pose proof (ceil_le1 p M Hp HM). pose proof (ceil_le1 q M Hq HM).
  destruct (Z.eq_dec p 0).
  - pose proof (ceil_pos q M ltac:(lia) HM). lia.
  - pose proof (ceil_pos p M ltac:(lia) HM). lia.
Qed.

Lemma le_mul_pos a b m : 0 <= a -> 1 <= b -> a * b <= m -> a <= m.
Proof. intros. assert (a * 1 <= a * b) by (apply mul_le_l; lia). lia. Qed.

Lemma src_exact_func x y z A B :
  0 <= x -> 0 <= y -> 0 <= z -> 0 < A -> 0 <= B ->
  let T := y * A + z * B in
  T < 2 ^ 256 -> 0 < (z * 2 ^ 48) * (z * 2 ^ 48) + A * x * T < 2 ^ 256 ->
  0 <= x * T * T / (A * x * T + (z * ONE) * (z * ONE)) <= MAX_UINT256 ->
  tradeBySourceAmountFunc x y z A B = Some (x * T * T / (A * x * T + (z * ONE) * (z * ONE))).
Proof.
  intros Hx Hy Hz HA HB T HT HS HR. change (2 ^ 48) with ONE in HS.
  assert (HM : MAX_UINT256 + 1 = 2 ^ 256) by reflexivity.
  assert (HO : 1 <= ONE) by discriminate.
  pose proof MAX256_pos as HP.
  unfold tradeBySourceAmountFunc.
  destruct (A =? 0) eqn:EA; [lia|].
  set (t1 := z * ONE) in *.
  assert (P1 : 0 <= t1) by (apply Z.mul_nonneg_nonneg; lia).
  assert (P2 : 0 <= y * A) by (apply Z.mul_nonneg_nonneg; lia).
  assert (P3 : 0 <= z * B) by (apply Z.mul_nonneg_nonneg; lia).
  assert (P4 : 0 <= T) by (subst T; lia).
  assert (P5 : 0 <= T * x) by (apply Z.mul_nonneg_nonneg; lia).
  assert (P6 : 0 <= T * x * A) by (apply Z.mul_nonneg_nonneg; lia).
  assert (P7 : 0 <= t1 * t1) by apply sq_nonneg.
  assert (P8 : A * x * T = T * x * A) by ring.
  assert (P9 : t1 <= MAX_UINT256).
  { destruct (Z.eq_dec t1 0); [lia|]. apply (le_mul_pos t1 t1); lia. }
  assert (P10 : T * x <= MAX_UINT256) by (apply (le_mul_pos (T * x) A); lia).
  assert (P11 : y * A <= MAX_UINT256) by (subst T; lia).
  assert (P12 : z * B <= MAX_UINT256) by (subst T; lia).
  rewrite (mul_ok z ONE) by (fold t1; lia). cbn [bind].
  rewrite (mul_ok y A) by lia. cbn [bind].
  rewrite (mul_ok z B) by lia. cbn [bind].
  rewrite (add_ok (y * A) (z * B)) by (fold T; lia). cbn [bind].
  fold t1 T.
  rewrite (mul_ok T x) by lia. cbn [bind].
  pose proof (ceil_le1 (t1 * t1) MAX_UINT256 ltac:(lia) HP).
  pose proof (ceil_le1 (T * x * A) MAX_UINT256 ltac:(lia) HP).
  rewrite (mulDivC_ok t1 t1 MAX_UINT256) by lia. cbn [bind].
  rewrite (mulDivC_ok (T * x) A MAX_UINT256) by lia. cbn [bind].
  rewrite factor_one by lia. cbv zeta.
  rewrite mulDivC_1 by lia. cbn [bind].
  rewrite mulDivC_1 by lia. cbn [bind].
  destruct (t1 * t1 + T * x * A <=? MAX_UINT256) eqn:E; [|lia].
  rewrite pydiv_intro by lia. cbn [bind]. rewrite Z.div_1_r.
  replace (x * T * T) with (T * (T * x)) in * by ring.
  replace (A * x * T + t1 * t1) with (t1 * t1 + T * x * A) in * by ring.
  apply mulDivF_ok; lia.
Qed.

Lemma src_exact_func_A0 x y z B :
  0 <= x -> B * B < 2 ^ 256 -> 0 <= x * (B * B) / (ONE * ONE) <= MAX_UINT256 ->
  tradeBySourceAmountFunc x y z 0 B = Some (x * (B * B) / (ONE * ONE)).
Proof.
  intros Hx HB HR. unfold tradeBySourceAmountFunc. cbn [Z.eqb].
  assert (HM : MAX_UINT256 + 1 = 2 ^ 256) by reflexivity.
  pose proof (sq_nonneg B).
  rewrite (mul_ok B B) by lia. cbn [bind].
  rewrite (mul_ok ONE ONE) by (split; discriminate). cbn [bind].
  apply mulDivF_ok; [reflexivity|assumption].
Qed.

Lemma tgt_exact_func x y z A B :
  0 <= x -> 0 <= y -> 0 <= z -> 0 < A -> 0 <= B ->
  let T := y * A + z * B in
  T * T < 2 ^ 256 -> (z * 2 ^ 48) * (z * 2 ^ 48) < 2 ^ 256 -> A * x < T ->
  let q := (x * ((z * ONE) * (z * ONE)) + T * (T - A * x) - 1) / (T * (T - A * x)) in
  0 <= q <= MAX_UINT256 ->
  tradeByTargetAmountFunc x y z A B = Some q.
Proof.
  intros Hx Hy Hz HA HB T HT HS Hlt q HR. change (2 ^ 48) with ONE in HS.
  assert (HM : MAX_UINT256 + 1 = 2 ^ 256) by reflexivity.
  pose proof MAX256_pos as HP.
  unfold tradeByTargetAmountFunc.
  destruct (A =? 0) eqn:EA; [lia|].
  set (t1 := z * ONE) in *.
  assert (P1 : 0 <= t1) by (apply Z.mul_nonneg_nonneg; [lia|discriminate]).
  assert (P2 : 0 <= y * A) by (apply Z.mul_nonneg_nonneg; lia).
  assert (P3 : 0 <= z * B) by (apply Z.mul_nonneg_nonneg; lia).
  assert (P4 : 0 <= A * x) by (apply Z.mul_nonneg_nonneg; lia).
  assert (P7 : 0 <= t1 * t1) by apply sq_nonneg.
  assert (P9 : t1 <= MAX_UINT256).
  { destruct (Z.eq_dec t1 0); [lia|]. apply (le_mul_pos t1 t1); lia. }
  assert (P10 : T <= MAX_UINT256) by (apply (le_mul_pos T T); lia).
  assert (P11 : y * A <= MAX_UINT256) by (subst T; lia).
  assert (P12 : z * B <= MAX_UINT256) by (subst T; lia).
  assert (P13 : T * (T - A * x) <= T * T) by (apply mul_le_l; lia).
  assert (P14 : 0 < T * (T - A * x)) by (apply Z.mul_pos_pos; lia).
  rewrite (mul_ok z ONE) by (fold t1; lia). cbn [bind].
  rewrite (mul_ok y A) by lia. cbn [bind].
  rewrite (mul_ok z B) by lia. cbn [bind].
  rewrite (add_ok (y * A) (z * B)) by (fold T; lia). cbn [bind].
  fold t1 T. subst q.
  rewrite (Z.mul_comm A x) in *.
  rewrite (mul_ok x A) by lia. cbn [bind].
  rewrite (sub_ok T (x * A)) by lia. cbn [bind].
  pose proof (ceil_le1 (t1 * t1) MAX_UINT256 ltac:(lia) HP).
  pose proof (ceil_le1 (T * (T - x * A)) MAX_UINT256 ltac:(lia) HP).
  rewrite (mulDivC_ok t1 t1 MAX_UINT256) by lia. cbn [bind].
  rewrite (mulDivC_ok T (T - x * A) MAX_UINT256) by lia. cbn [bind].
  rewrite factor_one by lia. cbv zeta.
  rewrite mulDivC_1 by lia. cbn [bind].
  rewrite mulDivF_1 by lia. cbn [bind].
  apply mulDivC_ok; assumption.
Qed.

Lemma tgt_exact_func_A0 x y z B :
  0 < B -> B * B < 2 ^ 256 ->
  let q := (x * (ONE * ONE) + B * B - 1) / (B * B) in
  0 <= q <= MAX_UINT256 ->
  tradeByTargetAmountFunc x y z 0 B = Some q.
Proof.
  intros HB0 HB q HR. unfold tradeByTargetAmountFunc. cbn [Z.eqb].
  assert (HM : MAX_UINT256 + 1 = 2 ^ 256) by reflexivity.
  assert (0 < B * B) by (apply Z.mul_pos_pos; assumption).
  rewrite (mul_ok ONE ONE) by (split; discriminate). cbn [bind].
  rewrite (mul_ok B B) by lia. cbn [bind].
  apply mulDivC_ok; assumption.
Qed.

Lemma MAX_128_256 v : v < 2 ^ 128 -> v <= MAX_UINT256.
Proof. intros H. apply Z.le_trans with (2 ^ 128); [lia|discriminate]. Qed.
Lemma MAX_128 v : 0 <= v < 2 ^ 128 -> uint128 v = Some v.
Proof. intros H. apply check_intro. unfold MAX_UINT128. lia. Qed.

Lemma is_floor_compat p q v : (p == q)%Q -> is_floor p v -> is_floor q v.
Proof. unfold is_floor. intros E [H1 H2]. rewrite E in H1, H2. split; assumption. Qed.
Lemma is_ceil_compat p q v : (p == q)%Q -> is_ceil p v -> is_ceil q v.
Proof. unfold is_ceil. intros E [H1 H2]. rewrite E in H1, H2. split; assumption. Qed.

Section Fields.
  Context (o : order) (Ho : nonneg_order o).
  Lemma dA_nonneg : 0 <= denoted (o_A o).
  Proof. apply denoted_nonneg. apply Ho. Qed.
  Lemma dB_nonneg : 0 <= denoted (o_B o).
  Proof. apply denoted_nonneg. apply Ho. Qed.
End Fields.

Lemma by_source_exact_floor o x v :
  nonneg_order o -> 0 <= x ->
  source_fits (denoted (o_A o)) (denoted (o_B o)) (o_y o) (o_z o) x ->
  is_floor (exact_out (fix48 (denoted (o_A o))) (fix48 (denoted (o_B o))) (inject_Z (o_y o)) (inject_Z (o_z o)) (inject_Z x)) v ->
  v < 2 ^ 128 ->
  tradeBySourceAmount x o = v.
Proof.
  intros Ho Hx Hf Hv Hlt. pose proof (dA_nonneg o Ho) as PA. pose proof (dB_nonneg o Ho) as PB.
  destruct Ho as (Hy & Hz & HA & HB).
  unfold tradeBySourceAmount, tradeFunc. rewrite !decodeFloat_denoted by assumption.
  set (A := denoted (o_A o)) in *. set (B := denoted (o_B o)) in *.
  destruct Hf as [(E0 & Hb)|(P & HT & HS)].
  - rewrite E0 in *. apply (is_floor_compat _ _ _ (exact_out_A0 _ _ _ _)) in Hv.
    apply floor_div_iff in Hv; [|reflexivity].
    assert (0 <= v) by (subst v; apply Z.div_pos; [apply Z.mul_nonneg_nonneg; [assumption|apply sq_nonneg]|reflexivity]).
    rewrite src_exact_func_A0; [|assumption|assumption|rewrite <- Hv; split; [assumption|apply MAX_128_256; assumption]].
    cbn [bind]. rewrite <- Hv, MAX_128 by lia. reflexivity.
  - change (2 ^ 48) with ONE in HS.
    apply (is_floor_compat _ _ _ (exact_out_A A B (o_y o) (o_z o) x ltac:(lia) ltac:(lia))) in Hv.
    apply floor_div_iff in Hv; [|lia].
    set (T := o_y o * A + o_z o * B) in *.
    assert (0 <= v).
    { subst v; apply Z.div_pos; [|lia]. rewrite <- Z.mul_assoc. apply Z.mul_nonneg_nonneg; [assumption|apply sq_nonneg]. }
    rewrite src_exact_func; try assumption; fold T.
    + cbn [bind]. rewrite <- Hv, MAX_128 by lia. reflexivity.
    + rewrite <- Hv. split; [assumption|apply MAX_128_256; assumption].
Qed.

Lemma by_target_exact_ceil o x v :
  nonneg_order o -> 0 <= x ->
  target_fits (denoted (o_A o)) (denoted (o_B o)) (o_y o) (o_z o) ->
  deliverable (denoted (o_A o)) (denoted (o_B o)) (o_y o) (o_z o) x ->
  is_ceil (exact_in (fix48 (denoted (o_A o))) (fix48 (denoted (o_B o))) (inject_Z (o_y o)) (inject_Z (o_z o)) (inject_Z x)) v ->
  v < 2 ^ 128 ->
  tradeByTargetAmount x o = v.
Proof.
  intros Ho Hx Hf Hd Hv Hlt. pose proof (dA_nonneg o Ho) as PA. pose proof (dB_nonneg o Ho) as PB.
  destruct Ho as (Hy & Hz & HA & HB).
  unfold tradeByTargetAmount, tradeFunc. rewrite !decodeFloat_denoted by assumption.
  unfold deliverable in Hd.
  set (A := denoted (o_A o)) in *. set (B := denoted (o_B o)) in *.
  destruct Hf as [(E0 & Hb & HBB)|(P & HT & HS)].
  - rewrite E0 in *. apply (is_ceil_compat _ _ _ (exact_in_A0 B (inject_Z (o_y o)) (inject_Z (o_z o)) x ltac:(lia))) in Hv.
    assert (0 < B * B) by (apply Z.mul_pos_pos; assumption).
    apply ceil_div_iff in Hv; [|assumption].
    assert (0 <= v).
    { subst v. apply Z.div_pos; [|assumption].
      assert (0 <= x * (ONE * ONE)) by (apply Z.mul_nonneg_nonneg; [assumption|discriminate]). lia. }
    rewrite tgt_exact_func_A0; [|assumption|assumption|rewrite <- Hv; split; [assumption|apply MAX_128_256; assumption]].
    cbn [bind]. rewrite <- Hv, MAX_128 by lia. reflexivity.
  - destruct Hd as [Hd|[_ Hd]]; [lia|].
    change (2 ^ 48) with ONE in HS.
    assert (P4 : 0 <= A * x) by (apply Z.mul_nonneg_nonneg; lia).
    set (T := o_y o * A + o_z o * B) in *.
    assert (P14 : 0 < T * (T - A * x)) by (apply Z.mul_pos_pos; lia).
    apply (is_ceil_compat _ _ _ (exact_in_A A B (o_y o) (o_z o) x ltac:(lia) ltac:(fold T; lia))) in Hv.
    apply ceil_div_iff in Hv; [|assumption].
    fold T in Hv.
    assert (0 <= v).
    { subst v; apply Z.div_pos; [|lia].
      assert (0 <= x * (o_z o * ONE * (o_z o * ONE))) by (apply Z.mul_nonneg_nonneg; [assumption|apply sq_nonneg]). lia. }
    rewrite tgt_exact_func; try assumption; fold T.
    + cbn [bind]. rewrite <- Hv, MAX_128 by lia. reflexivity.
    + rewrite <- Hv. split; [assumption|apply MAX_128_256; assumption].
Qed.
