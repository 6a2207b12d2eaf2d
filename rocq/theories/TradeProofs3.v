From Coq Require Import ZArith QArith Qround Lia Psatz Bool Field Qfield.
From Verif Require Import TradeModel TradeSpec TradeProofs TradeProofs2.
Local Open Scope Z_scope.

(** ** C04: monotone, and no profit on a round trip *)
Lemma floor_le_of_le q v w : is_floor q v -> (inject_Z w <= q)%Q -> w <= v.
Proof.
  intros [_ H2] H. assert (G : (inject_Z w < inject_Z (v + 1))%Q) by (eapply Qle_lt_trans; eassumption).
  rewrite <- Zlt_Qlt in G. lia.
Qed.
Lemma is_floor_exists q : is_floor q (Qfloor q).
Proof. split; [apply Qfloor_le|]. apply Qlt_floor. Qed.
Lemma is_ceil_exists q : is_ceil q (Qceiling q).
Proof.
  split; [|apply Qle_ceiling]. apply Qceiling_lt.
Qed.

Lemma exact_out_mono o x1 x2 :
  nonneg_order o -> 0 <= x1 <= x2 ->
  source_fits (denoted (o_A o)) (denoted (o_B o)) (o_y o) (o_z o) x2 ->
  let f x := exact_out (fix48 (denoted (o_A o))) (fix48 (denoted (o_B o))) (inject_Z (o_y o)) (inject_Z (o_z o)) (inject_Z x) in
  (f x1 <= f x2)%Q.
Proof.
  intros Ho Hx Hf f. pose proof (dA_nonneg o Ho) as PA. pose proof (dB_nonneg o Ho) as PB.
  destruct Ho as (Hy & Hz & HA & HB). subst f. cbv beta.
  set (A := denoted (o_A o)) in *. set (B := denoted (o_B o)) in *.
  destruct Hf as [(E0 & Hb)|(P & HT & HS)].
  - rewrite E0. rewrite !exact_out_A0.
    unfold Qdiv. apply Qmult_le_compat_r; [|apply Qinv_le_0_compat; discriminate].
    rewrite <- Zle_Qle. apply mul_le_r; [apply sq_nonneg|lia].
  - change (2 ^ 48) with ONE in HS.
    set (T := o_y o * A + o_z o * B) in *.
    assert (0 <= T).
    { subst T. assert (0 <= o_y o * A) by (apply Z.mul_nonneg_nonneg; lia).
      assert (0 <= o_z o * B) by (apply Z.mul_nonneg_nonneg; lia). lia. }
    assert (E2 : A * x2 * T + o_z o * ONE * (o_z o * ONE) <> 0) by lia.
    rewrite (exact_out_A A B (o_y o) (o_z o) x2) by (fold T; lia). fold T.
    set (s := o_z o * ONE * (o_z o * ONE)) in *.
    assert (0 <= s) by apply sq_nonneg.
    destruct (Z.eq_dec x1 0) as [->|].
    + unfold exact_out. destruct (Qeq_bool _ _).
      * setoid_replace (inject_Z 0 * (fix48 B * fix48 B))%Q with 0%Q by (change (inject_Z 0) with 0%Q; ring).
        change 0%Q with (inject_Z 0). apply inj_div_le; [lia|].
        rewrite Z.mul_0_l. rewrite <- Z.mul_assoc. apply Z.mul_nonneg_nonneg; [lia|apply sq_nonneg].
      * change (inject_Z 0) with 0%Q. unfold Qdiv at 1. rewrite !Qmult_0_l.
        change 0%Q with (inject_Z 0). apply inj_div_le; [lia|].
        rewrite Z.mul_0_l. rewrite <- Z.mul_assoc. apply Z.mul_nonneg_nonneg; [lia|apply sq_nonneg].
    + assert (D1 : 0 < A * x1 * T + s).
      { replace (A * x1 * T) with (A * (x1 * T)) by ring.
        replace (A * x2 * T) with (A * (x2 * T)) in HS by ring.
        assert (0 <= A * (x1 * T)) by (repeat (apply Z.mul_nonneg_nonneg; try lia)).
        destruct (Z.eq_dec s 0) as [Es|]; [|lia].
        destruct (Z.eq_dec T 0) as [ET|]; [rewrite ET, !Z.mul_0_r in *; lia|].
        assert (0 < A * (x1 * T)) by (apply Z.mul_pos_pos; [lia|apply Z.mul_pos_pos; lia]). lia. }
      rewrite (exact_out_A A B (o_y o) (o_z o) x1) by (fold T s; lia). fold T s.
      apply Qle_shift_div_r. { change 0%Q with (inject_Z 0). rewrite <- Zlt_Qlt. assumption. }
      setoid_replace (inject_Z (x2 * T * T) / inject_Z (A * x2 * T + s) * inject_Z (A * x1 * T + s))%Q
        with (inject_Z (x2 * T * T * (A * x1 * T + s)) / inject_Z (A * x2 * T + s))%Q.
      2:{ rewrite !inject_Z_mult. field. apply inj_neq0. lia. }
      apply inj_div_le; [lia|].
      assert (G : x1 * (T * T * s) <= x2 * (T * T * s)).
      { apply mul_le_r; [|lia]. apply Z.mul_nonneg_nonneg; [apply sq_nonneg|lia]. }
      replace (x1 * T * T * (A * x2 * T + s)) with (x1 * x2 * A * T * T * T + x1 * (T * T * s)) by ring.
      replace (x2 * T * T * (A * x1 * T + s)) with (x1 * x2 * A * T * T * T + x2 * (T * T * s)) by ring.
      lia.
Qed.

Lemma by_source_monotone o x1 x2 :
  nonneg_order o -> 0 <= x1 <= x2 ->
  source_fits (denoted (o_A o)) (denoted (o_B o)) (o_y o) (o_z o) x2 ->
  (exact_out (fix48 (denoted (o_A o))) (fix48 (denoted (o_B o))) (inject_Z (o_y o)) (inject_Z (o_z o)) (inject_Z x2)
   < inject_Z (2 ^ 128))%Q ->
  tradeBySourceAmount x1 o <= tradeBySourceAmount x2 o.
Proof.
  intros Ho Hx Hf Hlt.
  pose proof (exact_out_mono o x1 x2 Ho Hx Hf) as HM. cbv zeta in HM.
  pose proof (by_source_never_overpays o x1 Ho ltac:(lia)) as H1.
  set (q := exact_out _ _ _ _ (inject_Z x2)) in *.
  pose proof (is_floor_exists q) as Hq.
  rewrite (by_source_exact_floor o x2 (Qfloor q) Ho ltac:(lia) Hf Hq).
  - eapply floor_le_of_le; [exact Hq|]. eapply Qle_trans; eassumption.
  - rewrite Zlt_Qlt. eapply Qle_lt_trans; [apply Qfloor_le|]. assumption.
Qed.

Lemma no_round_trip_profit o x :
  nonneg_order o -> 0 <= x ->
  target_fits (denoted (o_A o)) (denoted (o_B o)) (o_y o) (o_z o) ->
  0 < o_z o -> 0 < o_y o * denoted (o_A o) + o_z o * denoted (o_B o) ->
  tradeByTargetAmount (tradeBySourceAmount x o) o <= x.
Proof.
  intros Ho Hx Hf Hz0 HT0.
  pose proof (by_source_range x o) as [Hw _].
  pose proof (by_target_range (tradeBySourceAmount x o) o) as [_ Hmax].
  set (w := tradeBySourceAmount x o) in *.
  pose proof (by_target_exact_ceil o w) as HC.
  pose proof (dA_nonneg o Ho) as PA. pose proof (dB_nonneg o Ho) as PB.
  pose proof Ho as (Hy & Hz & HA & HB).
  assert (KEY : deliverable (denoted (o_A o)) (denoted (o_B o)) (o_y o) (o_z o) w /\
     (exact_in (fix48 (denoted (o_A o))) (fix48 (denoted (o_B o))) (inject_Z (o_y o)) (inject_Z (o_z o)) (inject_Z w) <= inject_Z x)%Q).
  { subst w. unfold tradeBySourceAmount in *.
    destruct (tradeFunc_cases x o tradeBySourceAmountFunc 0) as [(r & E & Er & Hr)| Er]; rewrite Er in *; clear HC.
    - rewrite !decodeFloat_denoted in E by assumption.
      set (A := denoted (o_A o)) in *. set (B := denoted (o_B o)) in *.
      destruct Hf as [(E0 & HB0 & Hb)|(P & HTT & HS)].
      + rewrite E0 in *. apply src_core_A0 in E as [_ E]. split; [left; lia|].
        rewrite exact_in_A0 by lia. apply inj_div_ge; [apply Z.mul_pos_pos; assumption|lia].
      + apply src_core in E as (_ & HT & HTx & HD & E); try assumption.
        set (T := o_y o * A + o_z o * B) in *. set (s := o_z o * ONE * (o_z o * ONE)) in *.
        assert (Hs : 0 < s) by (subst s; assert (0 < o_z o * ONE) by (apply Z.mul_pos_pos; [assumption|reflexivity]); apply Z.mul_pos_pos; assumption).
        assert (G : r * s <= x * T * (T - A * r)).
        { replace (x * T * (T - A * r)) with (x * T * T - r * (A * x * T)) by ring.
          replace (r * (A * x * T + s)) with (r * (A * x * T) + r * s) in E by ring. lia. }
        assert (D : A * r < T).
        { destruct (Z.eq_dec r 0) as [->|]; [lia|].
          assert (0 < r * s) by (apply Z.mul_pos_pos; lia).
          assert (0 <= x * T) by (apply Z.mul_nonneg_nonneg; lia).
          destruct (Z.lt_ge_cases (A * r) T); [assumption|].
          assert (0 <= x * T * (A * r - T)) by (apply Z.mul_nonneg_nonneg; lia). lia. }
        split; [right; fold T; lia|].
        assert (0 < T * (T - A * r)) by (apply Z.mul_pos_pos; lia).
        rewrite exact_in_A by (fold T; lia). fold T s. apply inj_div_ge; [assumption|]. lia.
    - set (A := denoted (o_A o)) in *. set (B := denoted (o_B o)) in *.
      assert (G0 : (exact_in (fix48 A) (fix48 B) (inject_Z (o_y o)) (inject_Z (o_z o)) (inject_Z 0) == 0)%Q).
      { unfold exact_in. change (inject_Z 0) with 0%Q. destruct (Qeq_bool _ _); unfold Qdiv; rewrite !Qmult_0_l; reflexivity. }
      rewrite G0. split; [|change 0%Q with (inject_Z 0); rewrite <- Zle_Qle; assumption].
      destruct Hf as [(E0 & HB0 & Hb)|(P & HTT & HS)]; [left; lia|right]. rewrite Z.mul_0_r. lia. }
  destruct KEY as [HD HE].
  set (q := exact_in _ _ _ _ (inject_Z w)) in *.
  pose proof (is_ceil_exists q) as Hq.
  assert (Qx : Qceiling q <= x).
  { destruct Hq as [Hq1 _]. assert ((inject_Z (Qceiling q - 1) < inject_Z x)%Q) by (eapply Qlt_le_trans; eassumption).
    rewrite <- Zlt_Qlt in H. lia. }
  destruct (Z.lt_ge_cases (Qceiling q) (2 ^ 128)) as [Hlt|Hge].
  - rewrite (HC (Qceiling q) Ho Hw Hf HD Hq Hlt). assumption.
  - lia.
Qed.

(** Paying the quoted price is enough. *)
Lemma quoted_price_is_enough o x :
  nonneg_order o -> 0 <= x ->
  tradeByTargetAmount x o <> 2 ^ 128 - 1 ->
  source_fits (denoted (o_A o)) (denoted (o_B o)) (o_y o) (o_z o) (tradeByTargetAmount x o) ->
  (exact_out (fix48 (denoted (o_A o))) (fix48 (denoted (o_B o))) (inject_Z (o_y o)) (inject_Z (o_z o)) (inject_Z (tradeByTargetAmount x o))
   < inject_Z (2 ^ 128))%Q ->
  0 < o_z o ->
  x <= tradeBySourceAmount (tradeByTargetAmount x o) o.
Proof.
  intros Ho Hx HN Hf Hlt Hz0.
  pose proof (by_target_never_undercharges o x Ho HN) as [Hd HE].
  pose proof (by_target_range x o) as [Hp _].
  set (p := tradeByTargetAmount x o) in *.
  pose proof (dA_nonneg o Ho) as PA. pose proof (dB_nonneg o Ho) as PB.
  pose proof Ho as (Hy & Hz & HA & HB).
  set (q := exact_out _ _ _ _ (inject_Z p)) in *.
  pose proof (is_floor_exists q) as Hq.
  rewrite (by_source_exact_floor o p (Qfloor q) Ho Hp Hf Hq).
  2:{ rewrite Zlt_Qlt. eapply Qle_lt_trans; [apply Qfloor_le|]. assumption. }
  eapply floor_le_of_le; [exact Hq|]. subst q.
  set (A := denoted (o_A o)) in *. set (B := denoted (o_B o)) in *.
  destruct Hd as [(E0 & Hb)|(P & HD)].
  - rewrite E0 in *. rewrite exact_out_A0. rewrite exact_in_A0 in HE by lia.
    apply inj_div_ge_inv in HE; [|apply Z.mul_pos_pos; assumption]. apply inj_div_le; [reflexivity|assumption].
  - set (T := o_y o * A + o_z o * B) in *.
    assert (0 <= A * x) by (apply Z.mul_nonneg_nonneg; lia).
    assert (0 < T * (T - A * x)) by (apply Z.mul_pos_pos; lia).
    rewrite exact_in_A in HE by (fold T; lia). fold T in HE.
    apply inj_div_ge_inv in HE; [|assumption].
    set (s := o_z o * ONE * (o_z o * ONE)) in *.
    assert (Hs : 0 < s) by (subst s; assert (0 < o_z o * ONE) by (apply Z.mul_pos_pos; [assumption|reflexivity]); apply Z.mul_pos_pos; assumption).
    assert (0 <= A * p * T) by (repeat (apply Z.mul_nonneg_nonneg; try lia)).
    rewrite exact_out_A by (fold T s; lia). fold T s. apply inj_div_le; [lia|].
    replace (p * (T * (T - A * x))) with (p * T * T - x * (A * p * T)) in HE by ring.
    replace (x * (A * p * T + s)) with (x * (A * p * T) + x * s) by ring. lia.
Qed.

(** ** C05: the compressed number format *)
Lemma bitLength_nonneg v : 0 <= bitLength v.
Proof. unfold bitLength. destruct (0 <? v) eqn:E; [|lia]. pose proof (Z.log2_nonneg v). lia. Qed.

Lemma bitLength_spec v : 0 <= v -> v < 2 ^ bitLength v /\ (0 < bitLength v -> 2 ^ (bitLength v - 1) <= v) .
Proof.
  intros H. unfold bitLength. destruct (0 <? v) eqn:E.
  - pose proof (Z.log2_spec v ltac:(lia)) as [H1 H2]. unfold Z.succ in H2. split; [assumption|].
    intros _. replace (Z.log2 v + 1 - 1) with (Z.log2 v) by lia. assumption.
  - split; [replace v with 0 by lia; reflexivity|lia].
Qed.
Lemma bitLength_mono a b : 0 <= a <= b -> bitLength a <= bitLength b.
Proof.
  intros H. unfold bitLength. destruct (0 <? a) eqn:E1, (0 <? b) eqn:E2; try lia.
  - pose proof (Z.log2_le_mono a b). lia.
  - pose proof (Z.log2_nonneg b). lia.
Qed.
Lemma bitLength_unique v n : 0 < n -> 2 ^ (n - 1) <= v < 2 ^ n -> bitLength v = n.
Proof.
  intros Hn H. assert (0 < 2 ^ (n - 1)) by (apply Z.pow_pos_nonneg; lia).
  unfold bitLength. destruct (0 <? v) eqn:E; [|lia].
  rewrite (Z.log2_unique v (n - 1)); [lia|lia|]. replace (Z.succ (n - 1)) with n by lia. lia.
Qed.

(** Exponent and mantissa of a value. *)
Definition ex (v : Z) : Z := bitLength (v / 2 ^ 48).
Definition mt (v : Z) : Z := v / 2 ^ ex v.

Lemma pow2_pos n : 0 < 2 ^ n \/ n < 0.
Proof. destruct (Z.lt_ge_cases n 0); [right; assumption|left; apply Z.pow_pos_nonneg; lia]. Qed.
Lemma pow2_pos' n : 0 <= n -> 0 < 2 ^ n.
Proof. intros. apply Z.pow_pos_nonneg; lia. Qed.

Lemma ex_nonneg v : 0 <= ex v. Proof. apply bitLength_nonneg. Qed.
Lemma ex_bound v : 0 <= v -> v < 2 ^ (48 + ex v).
Proof.
  intros H. unfold ex. pose proof (bitLength_spec (v / 2 ^ 48) ltac:(apply Z.div_pos; [assumption|reflexivity])) as [H1 _].
  rewrite Z.pow_add_r; [|lia|apply bitLength_nonneg].
  pose proof (Z.div_mod v (2 ^ 48) ltac:(discriminate)). pose proof (Z.mod_pos_bound v (2 ^ 48) ltac:(reflexivity)).
  set (k := v / 2 ^ 48) in *. set (l := 2 ^ bitLength k) in *.
  assert (2 ^ 48 * (k + 1) <= 2 ^ 48 * l) by (apply mul_le_l; [discriminate|lia]). lia.
Qed.
Lemma ex_lower v : 0 <= v -> 0 < ex v -> 2 ^ (47 + ex v) <= v.
Proof.
  intros H He. unfold ex in *. pose proof (bitLength_spec (v / 2 ^ 48) ltac:(apply Z.div_pos; [assumption|reflexivity])) as [_ H1].
  specialize (H1 He). set (k := v / 2 ^ 48) in *.
  replace (47 + bitLength k) with (48 + (bitLength k - 1)) by lia. rewrite Z.pow_add_r by lia.
  assert (2 ^ 48 * k <= v) by (subst k; apply Z.mul_div_le; reflexivity).
  assert (2 ^ 48 * 2 ^ (bitLength k - 1) <= 2 ^ 48 * k) by (apply mul_le_l; [discriminate|assumption]). lia.
Qed.
Lemma ex_zero v : 0 <= v -> (ex v = 0 <-> v < 2 ^ 48).
Proof.
  intros H. split; intros H1.
  - pose proof (ex_bound v H). rewrite H1 in H0. exact H0.
  - unfold ex. rewrite Z.div_small by lia. reflexivity.
Qed.
Lemma ex_mono a b : 0 <= a <= b -> ex a <= ex b.
Proof. intros H. apply bitLength_mono. split; [apply Z.div_pos; [lia|reflexivity]|apply Z.div_le_mono; [reflexivity|lia]]. Qed.

Lemma mt_bound v : 0 <= v -> 0 <= mt v < 2 ^ 48.
Proof.
  intros H. unfold mt. pose proof (ex_nonneg v). split.
  - apply Z.div_pos; [assumption|apply pow2_pos'; assumption].
  - apply Z.div_lt_upper_bound; [apply pow2_pos'; assumption|].
    rewrite <- Z.pow_add_r by lia. rewrite Z.add_comm. apply ex_bound; assumption.
Qed.
Lemma mt_lower v : 0 <= v -> 0 < ex v -> 2 ^ 47 <= mt v.
Proof.
  intros H He. unfold mt. apply Z.div_le_lower_bound; [apply pow2_pos'; lia|].
  rewrite <- Z.pow_add_r by lia. rewrite Z.add_comm. apply ex_lower; assumption.
Qed.

Lemma lor_disjoint m e : 0 <= m < 2 ^ 48 -> 0 <= e -> Z.lor m (e * 2 ^ 48) = m + e * 2 ^ 48.
Proof.
  intros Hm He.
  assert (Z.land m (e * 2 ^ 48) = 0).
  { apply Z.bits_inj'. intros n Hn. rewrite Z.land_spec, Z.bits_0.
    rewrite <- Z.shiftl_mul_pow2 by lia.
    destruct (Z.lt_ge_cases n 48).
    - rewrite Z.shiftl_spec_low by assumption. apply andb_false_r.
    - rewrite <- (Z.mod_small m (2 ^ 48)) by assumption.
      rewrite Z.mod_pow2_bits_high by lia. reflexivity. }
  rewrite Z.add_nocarry_lxor by assumption. symmetry. apply Z.lxor_lor. assumption.
Qed.

Lemma encodeFloat_eq v : 0 <= v -> encodeFloat v = mt v + ex v * 2 ^ 48.
Proof.
  intros H. unfold encodeFloat. change ONE with (2 ^ 48). fold (ex v).
  rewrite Z.shiftr_div_pow2 by apply ex_nonneg. fold (mt v).
  apply lor_disjoint; [apply mt_bound; assumption|apply ex_nonneg].
Qed.
Lemma encodeFloat_nonneg v : 0 <= v -> 0 <= encodeFloat v.
Proof.
  intros H. rewrite encodeFloat_eq by assumption. pose proof (mt_bound v H). pose proof (ex_nonneg v).
  assert (0 <= ex v * 2 ^ 48) by (apply Z.mul_nonneg_nonneg; lia). lia.
Qed.
Lemma denoted_pack m e : 0 <= m < 2 ^ 48 -> denoted (m + e * 2 ^ 48) = m * 2 ^ e.
Proof.
  intros H. unfold denoted. rewrite Z.mod_add by discriminate. rewrite Z.div_add by discriminate.
  rewrite Z.mod_small, Z.div_small by assumption. reflexivity.
Qed.
Lemma decode_encode v : 0 <= v -> decodeFloat (encodeFloat v) = mt v * 2 ^ ex v.
Proof.
  intros H. rewrite decodeFloat_denoted by (apply encodeFloat_nonneg; assumption).
  rewrite encodeFloat_eq by assumption. apply denoted_pack. apply mt_bound; assumption.
Qed.

Lemma float_round_down v : 0 <= v ->
  0 <= decodeFloat (encodeFloat v) <= v /\ (v - decodeFloat (encodeFloat v)) * 2 ^ 47 <= v /\
  (v < 2 ^ 48 -> decodeFloat (encodeFloat v) = v) /\
  (0 < v -> (v - decodeFloat (encodeFloat v)) * 2 ^ 47 < v).
Proof.
  intros H. rewrite decode_encode by assumption.
  pose proof (ex_nonneg v) as He. pose proof (pow2_pos' _ He) as Hp.
  pose proof (Z.div_mod v (2 ^ ex v) ltac:(lia)) as Hd. pose proof (Z.mod_pos_bound v (2 ^ ex v) Hp) as Hm.
  fold (mt v) in Hd. pose proof (mt_bound v H) as Hb.
  assert (0 <= mt v * 2 ^ ex v) by (apply Z.mul_nonneg_nonneg; lia).
  assert (R : v - mt v * 2 ^ ex v = v mod 2 ^ ex v) by lia.
  rewrite R.
  assert (K : 0 < v -> (v mod 2 ^ ex v) * 2 ^ 47 < v).
  { intros Hv. destruct (Z.eq_dec (ex v) 0) as [E|E].
    - rewrite E. change (2 ^ 0) with 1. rewrite Z.mod_1_r. lia.
    - pose proof (ex_lower v H ltac:(lia)) as HL. rewrite Z.pow_add_r in HL by lia.
      assert (v mod 2 ^ ex v * 2 ^ 47 < 2 ^ ex v * 2 ^ 47) by (apply Z.mul_lt_mono_pos_r; [reflexivity|lia]). lia. }
  split; [lia|]. split.
  - destruct (Z.eq_dec v 0) as [->|]; [reflexivity|]. specialize (K ltac:(lia)). lia.
  - split; [|assumption]. intros Hv. apply ex_zero in Hv; [|assumption]. rewrite Hv in *. change (2 ^ 0) with 1 in *. rewrite Z.mod_1_r in *. lia.
Qed.

Lemma float_monotone v w : 0 <= v <= w ->
  encodeFloat v <= encodeFloat w /\ decodeFloat (encodeFloat v) <= decodeFloat (encodeFloat w).
Proof.
  intros H. rewrite !decode_encode, !encodeFloat_eq by lia.
  pose proof (ex_mono v w H) as He. pose proof (ex_nonneg v). pose proof (ex_nonneg w).
  pose proof (mt_bound v ltac:(lia)). pose proof (mt_bound w ltac:(lia)).
  destruct (Z.eq_dec (ex v) (ex w)) as [E|E].
  - assert (mt v <= mt w) by (unfold mt; rewrite E; apply Z.div_le_mono; [apply pow2_pos'; assumption|lia]).
    rewrite E. split; [lia|]. apply mul_le_r; [apply Z.lt_le_incl, pow2_pos'; assumption|assumption].
  - split.
    + assert ((ex v + 1) * 2 ^ 48 <= ex w * 2 ^ 48) by (apply mul_le_r; [discriminate|lia]). lia.
    + pose proof (mt_lower w ltac:(lia) ltac:(lia)).
      assert (G1 : mt v * 2 ^ ex v <= 2 ^ 48 * 2 ^ ex v) by (apply mul_le_r; [apply Z.lt_le_incl, pow2_pos'; assumption|lia]).
      assert (G2 : 2 ^ 47 * 2 ^ ex w <= mt w * 2 ^ ex w) by (apply mul_le_r; [apply Z.lt_le_incl, pow2_pos'; assumption|lia]).
      assert (G3 : 2 ^ 48 * 2 ^ ex v <= 2 ^ 47 * 2 ^ ex w).
      { rewrite <- !Z.pow_add_r by lia. apply Z.pow_le_mono_r; lia. }
      lia.
Qed.

Lemma ex_cut v : 0 <= v -> ex (mt v * 2 ^ ex v) = ex v.
Proof.
  intros H. pose proof (ex_nonneg v) as He. destruct (Z.eq_dec (ex v) 0) as [E|E].
  - rewrite E. change (2 ^ 0) with 1. rewrite Z.mul_1_r. unfold mt. rewrite E. change (2 ^ 0) with 1. rewrite Z.div_1_r. assumption.
  - unfold ex at 1. apply bitLength_unique; [lia|].
    pose proof (mt_bound v H). pose proof (mt_lower v H ltac:(lia)).
    split.
    + apply Z.div_le_lower_bound; [reflexivity|]. rewrite <- Z.pow_add_r by lia.
      replace (48 + (ex v - 1)) with (47 + ex v) by lia. rewrite Z.pow_add_r by lia.
      apply mul_le_r; [apply Z.lt_le_incl, pow2_pos'; assumption|assumption].
    + apply Z.div_lt_upper_bound; [reflexivity|].
      apply Z.mul_lt_mono_pos_r; [apply pow2_pos'; assumption|lia].
Qed.

Lemma float_idempotent v : 0 <= v -> encodeFloat (decodeFloat (encodeFloat v)) = encodeFloat v.
Proof.
  intros H. rewrite decode_encode by assumption. pose proof (ex_nonneg v). pose proof (mt_bound v H).
  assert (0 <= mt v * 2 ^ ex v) by (apply Z.mul_nonneg_nonneg; [lia|apply Z.lt_le_incl, pow2_pos'; assumption]).
  rewrite !encodeFloat_eq by assumption. rewrite ex_cut by assumption. f_equal.
  unfold mt at 1. rewrite ex_cut by assumption. apply Z.div_mul. pose proof (pow2_pos' (ex v)). lia.
Qed.

(** ** C06: encoding of rates and orders *)
Lemma encodeRate_eq v : (0 <= v)%Q ->
  let data := Z.sqrt (Qfloor (v * inject_Z (ONE * ONE))) in
  encodeRate v = Some (decodeFloat (encodeFloat data)).
Proof.
  intros H data. unfold encodeRate. destruct (Qle_bool 0 v) eqn:E.
  2:{ apply Qle_bool_iff in H. congruence. }
  fold data. assert (0 <= data) by apply Z.sqrt_nonneg.
  rewrite decode_encode by assumption. f_equal. unfold ex, mt. change ONE with (2 ^ 48).
  rewrite Z.shiftr_div_pow2 by apply bitLength_nonneg.
  rewrite Z.shiftl_mul_pow2 by apply bitLength_nonneg. reflexivity.
Qed.

Lemma Qfloor_nonneg v : (0 <= v)%Q -> 0 <= Qfloor v.
Proof.
  intros H. change 0 with (Qfloor (inject_Z 0)). apply Qfloor_resp_le. assumption.
Qed.

Lemma encodeRate_bounds v : (0 <= v)%Q ->
  exists L, encodeRate v = Some L /\ 0 <= L /\
   (inject_Z (L * L) <= v * inject_Z (2 ^ 96))%Q /\
   (v * inject_Z (2 ^ 96) < inject_Z ((L + 1) * (L + 1)) \/
    v * inject_Z (2 ^ 96) * inject_Z (2 ^ 94) < inject_Z (L * (2 ^ 47 + 1) * (L * (2 ^ 47 + 1))))%Q.
Proof.
  intros H. set (data := Z.sqrt (Qfloor (v * inject_Z (ONE * ONE)))).
  exists (decodeFloat (encodeFloat data)).
  split; [apply encodeRate_eq; assumption|].
  change (ONE * ONE) with (2 ^ 96) in data.
  assert (Hv : (0 <= v * inject_Z (2 ^ 96))%Q) by (apply Qmult_le_0_compat; [assumption|discriminate]).
  set (q := (v * inject_Z (2 ^ 96))%Q) in *.
  pose proof (Qfloor_nonneg q Hv) as Hq.
  assert (Hdata : 0 <= data) by apply Z.sqrt_nonneg.
  pose proof (Z.sqrt_spec (Qfloor q) Hq) as [S1 S2]. fold data in S1, S2. unfold Z.succ in S2.
  pose proof (float_round_down data Hdata) as (B1 & _ & B2 & _).
  set (L := decodeFloat (encodeFloat data)) in *.
  assert (UQ : forall n, Qfloor q < n -> (q < inject_Z n)%Q).
  { intros n Hn. eapply Qlt_le_trans; [apply Qlt_floor|]. rewrite <- Zle_Qle. lia. }
  split; [lia|]. split.
  - eapply Qle_trans; [|apply Qfloor_le]. rewrite <- Zle_Qle.
    assert (L * L <= data * data) by (apply Z.mul_le_mono_nonneg; lia). lia.
  - destruct (Z.lt_ge_cases data (2 ^ 48)) as [Hs|Hl].
    + left. apply UQ. rewrite (B2 Hs). lia.
    + right. assert (He : 0 < ex data).
      { pose proof (ex_nonneg data). pose proof (ex_zero data Hdata). lia. }
      assert (EL : L = mt data * 2 ^ ex data) by (apply decode_encode; assumption).
      pose proof (pow2_pos' (ex data) ltac:(lia)) as Hp.
      pose proof (Z.div_mod data (2 ^ ex data) ltac:(lia)) as Hd. fold (mt data) in Hd.
      pose proof (Z.mod_pos_bound data (2 ^ ex data) Hp).
      assert (D1 : data + 1 <= L + 2 ^ ex data) by lia.
      pose proof (mt_lower data Hdata He).
      assert (2 ^ 47 * 2 ^ ex data <= L) by (rewrite EL; apply mul_le_r; lia).
      assert (D2 : (data + 1) * 2 ^ 47 <= L * (2 ^ 47 + 1)).
      { assert ((data + 1) * 2 ^ 47 <= (L + 2 ^ ex data) * 2 ^ 47) by (apply mul_le_r; [discriminate|assumption]). lia. }
      assert (D3 : (data + 1) * 2 ^ 47 * ((data + 1) * 2 ^ 47) <= L * (2 ^ 47 + 1) * (L * (2 ^ 47 + 1))).
      { apply Z.mul_le_mono_nonneg; lia. }
      apply Qlt_le_trans with (inject_Z ((data + 1) * (data + 1)) * inject_Z (2 ^ 94))%Q.
      * apply Qmult_lt_compat_r; [reflexivity|]. apply UQ. assumption.
      * rewrite <- inject_Z_mult, <- Zle_Qle.
        replace ((data + 1) * (data + 1) * 2 ^ 94) with ((data + 1) * 2 ^ 47 * ((data + 1) * 2 ^ 47)) by ring. assumption.
Qed.

Lemma encodeRate_nonneg v L : encodeRate v = Some L -> (0 <= v)%Q /\ 0 <= L.
Proof.
  unfold encodeRate. destruct (Qle_bool 0 v) eqn:E; [|discriminate]. intros H.
  apply Qle_bool_iff in E. split; [assumption|].
  destruct (encodeRate_bounds v E) as (L' & H1 & H2 & _).
  unfold encodeRate in H1. destruct (Qle_bool 0 v); [|discriminate]. congruence.
Qed.

Lemma Some_inj {A} (a b : A) : Some a = Some b -> a = b.
Proof. intros H. injection H. trivial. Qed.
Lemma encodeRate_mono v w L M : encodeRate v = Some L -> encodeRate w = Some M -> (v <= w)%Q -> L <= M.
Proof.
  intros H1 H2 Hle. pose proof (encodeRate_nonneg _ _ H1) as [Hv _]. pose proof (encodeRate_nonneg _ _ H2) as [Hw _].
  rewrite encodeRate_eq in H1, H2 by assumption. apply Some_inj in H1, H2. subst L M.
  apply float_monotone. split; [apply Z.sqrt_nonneg|]. apply Z.sqrt_le_mono. apply Qfloor_resp_le.
  apply Qmult_le_compat_r; [assumption|discriminate].
Qed.

Lemma encodeRate_representable v L : encodeRate v = Some L -> decodeFloat (encodeFloat L) = L.
Proof.
  intros H. pose proof (encodeRate_nonneg _ _ H) as [Hv HL].
  rewrite encodeRate_eq in H by assumption. apply Some_inj in H. subst L.
  rewrite float_idempotent; [reflexivity|]. apply Z.sqrt_nonneg.
Qed.

Lemma encodeRate_le v L : encodeRate v = Some L -> (decodeRate (inject_Z L) <= v)%Q.
Proof.
  intros H. pose proof (encodeRate_nonneg _ _ H) as [Hv HL].
  destruct (encodeRate_bounds v Hv) as (L' & E & _ & B & _). rewrite E in H. injection H as ->.
  unfold decodeRate. change (inject_Z ONE) with (inject_Z (2 ^ 48)).
  setoid_replace (inject_Z L / inject_Z (2 ^ 48) * (inject_Z L / inject_Z (2 ^ 48)))%Q
    with (inject_Z (L * L) / inject_Z (2 ^ 96))%Q.
  2:{ rewrite inject_Z_mult. change (inject_Z (2 ^ 96)) with (inject_Z (2 ^ 48) * inject_Z (2 ^ 48))%Q. field. intros E0; discriminate E0. }
  apply Qle_shift_div_r; [reflexivity|assumption].
Qed.

Lemma decodeRate_mono p q : (0 <= p <= q)%Q -> (decodeRate p <= decodeRate q)%Q.
Proof.
  intros [Hp Hq]. unfold decodeRate.
  assert (0 <= p / inject_Z ONE)%Q by (unfold Qdiv; apply Qmult_le_0_compat; [assumption|apply Qinv_le_0_compat; discriminate]).
  assert (p / inject_Z ONE <= q / inject_Z ONE)%Q by (unfold Qdiv; apply Qmult_le_compat_r; [assumption|apply Qinv_le_0_compat; discriminate]).
  apply Qle_trans with (q / inject_Z ONE * (p / inject_Z ONE))%Q.
  - apply Qmult_le_compat_r; assumption.
  - rewrite (Qmult_comm (q / inject_Z ONE) (p / inject_Z ONE)). apply Qmult_le_compat_r; [assumption|].
    eapply Qle_trans; eassumption.
Qed.

Lemma encodeOrder_relations liq lo hi mg o :
  (0 <= liq)%Q -> (lo <= mg)%Q -> (mg <= hi)%Q ->
  encodeOrder liq lo hi mg = Some o ->
  is_floor liq (o_y o) /\ 0 <= o_y o <= o_z o /\ nonneg_order o /\
  encodeRate lo = Some (decodeFloat (o_B o)) /\
  (exists H, encodeRate hi = Some H /\
     (decodeFloat (o_A o) + decodeFloat (o_B o) <= H /\
     (H - (decodeFloat (o_A o) + decodeFloat (o_B o))) * 2 ^ 47 <= H)) /\
  exists lo' hi' mg',
    decodeOrder o = Some (inject_Z (o_y o), lo', hi', mg') /\
    (lo' <= lo)%Q /\ (lo' <= mg')%Q /\ (mg' <= hi')%Q /\ (hi' <= hi)%Q.
Proof.
  intros Hliq H1 H2 H. unfold encodeOrder in H.
  apply bind_Some in H as (L & EL & H). apply bind_Some in H as (Hh & EH & H).
  apply bind_Some in H as (M & EM & H). apply bind_Some in H as (z & Ez & H).
  injection H as <-. cbn [o_y o_z o_A o_B].
  pose proof (encodeRate_nonneg _ _ EL) as [Plo PL].
  pose proof (encodeRate_mono _ _ _ _ EL EM H1) as LM.
  pose proof (encodeRate_mono _ _ _ _ EM EH H2) as MH.
  pose proof (Qfloor_nonneg liq Hliq) as Py.
  set (y := Qfloor liq) in *.
  assert (Hz : y <= z).
  { destruct (Hh =? M) eqn:E; [injection Ez as <-; lia|].
    apply pydiv_Some in Ez as [Ez ->]. apply Z.div_le_lower_bound; [lia|].
    rewrite Z.mul_comm. apply mul_le_l; lia. }
  pose proof (encodeRate_representable _ _ EL) as RL.
  pose proof (float_round_down (Hh - L) ltac:(lia)) as (A1 & A2 & _).
  set (A := decodeFloat (encodeFloat (Hh - L))) in *.
  assert (HhL : A + L <= Hh) by lia.
  split; [apply is_floor_exists|]. split; [lia|].
  split. { repeat split; cbn; try lia; apply encodeFloat_nonneg; lia. }
  rewrite RL. split; [assumption|]. split.
  { exists Hh. split; [assumption|]. split; lia. }
  unfold decodeOrder. cbn [o_y o_z o_A o_B]. fold A. rewrite RL.
  assert (Q0L : (0 <= inject_Z L)%Q) by (change 0%Q with (inject_Z 0); rewrite <- Zle_Qle; assumption).
  assert (Q0A : (0 <= inject_Z A)%Q) by (change 0%Q with (inject_Z 0); rewrite <- Zle_Qle; lia).
  assert (HL : (decodeRate (inject_Z L + inject_Z A) <= hi)%Q).
  { apply Qle_trans with (decodeRate (inject_Z Hh)); [|apply encodeRate_le; assumption].
    apply decodeRate_mono. rewrite <- inject_Z_plus. split.
    - change 0%Q with (inject_Z 0); rewrite <- Zle_Qle; lia.
    - rewrite <- Zle_Qle; lia. }
  assert (HLA : (inject_Z L <= inject_Z L + inject_Z A)%Q).
  { rewrite <- (Qplus_0_r (inject_Z L)) at 1. apply Qplus_le_compat; [apply Qle_refl|assumption]. }
  destruct (y =? z) eqn:Eyz.
  - do 3 eexists. split; [reflexivity|]. split; [apply encodeRate_le; assumption|].
    split; [apply decodeRate_mono; split; assumption|]. split; [apply Qle_refl|assumption].
  - destruct (z =? 0) eqn:Ez0; [lia|].
    do 3 eexists. split; [reflexivity|]. split; [apply encodeRate_le; assumption|].
    assert (Zp : (0 < inject_Z z)%Q) by (change 0%Q with (inject_Z 0); rewrite <- Zlt_Qlt; lia).
    assert (G0 : (0 <= inject_Z A * inject_Z y / inject_Z z)%Q).
    { apply Qle_shift_div_l; [assumption|]. rewrite Qmult_0_l. apply Qmult_le_0_compat; [assumption|].
      change 0%Q with (inject_Z 0); rewrite <- Zle_Qle; assumption. }
    assert (G1 : (inject_Z A * inject_Z y / inject_Z z <= inject_Z A)%Q).
    { apply Qle_shift_div_r; [assumption|]. rewrite <- !inject_Z_mult, <- Zle_Qle. apply mul_le_l; lia. }
    assert (HLA' : (inject_Z L <= inject_Z L + inject_Z A * inject_Z y / inject_Z z)%Q).
    { rewrite <- (Qplus_0_r (inject_Z L)) at 1. apply Qplus_le_compat; [apply Qle_refl|assumption]. }
    split; [apply decodeRate_mono; split; assumption|].
    split; [|assumption]. apply decodeRate_mono. split.
    + exact (Qle_trans _ _ _ Q0L HLA').
    + apply Qplus_le_compat; [apply Qle_refl|assumption].
Qed.

Lemma encodeOrder_fails_iff liq lo hi mg :
  (0 <= lo)%Q -> (lo <= mg)%Q -> (mg <= hi)%Q ->
  (encodeOrder liq lo hi mg = None <-> encodeRate mg = encodeRate lo /\ encodeRate hi <> encodeRate mg).
Proof.
  intros H0 H1 H2.
  assert (H0' : (0 <= mg)%Q) by (eapply Qle_trans; eassumption).
  assert (H0'' : (0 <= hi)%Q) by (eapply Qle_trans; eassumption).
  destruct (encodeRate_bounds lo H0) as (L & EL & _).
  destruct (encodeRate_bounds mg H0') as (M & EM & _).
  destruct (encodeRate_bounds hi H0'') as (H & EH & _).
  unfold encodeOrder. rewrite EL, EM, EH. cbn [bind].
  destruct (H =? M) eqn:E; cbn [bind].
  - assert (H = M) by lia. subst. split; [discriminate|]. intros [_ G]. contradiction.
  - unfold pydiv. destruct (M - L =? 0) eqn:E2; cbn [bind].
    + split; [|reflexivity]. intros _. split; [f_equal; lia|]. intros G. injection G. lia.
    + split; [discriminate|]. intros [G _]. injection G. lia.
Qed.

(** ** C07 *)
Lemma spec_source_eq x y L M H :
  (0 <= x -> 0 < y -> 0 <= L -> L < M -> M <= H ->
   exact_out (H - L) L y (y * (H - L) / (M - L)) x == spec_tradeBySourceAmountFunc x y L M)%Q.
Proof.
  intros Hx Hy HL HLM HMH. unfold exact_out, spec_tradeBySourceAmountFunc.
  assert (D1 : (0 < M - L)%Q) by (apply Qlt_minus_iff in HLM; assumption).
  assert (D2 : (0 < H - L)%Q).
  { assert (G : (L < H)%Q) by (eapply Qlt_le_trans; eassumption). apply Qlt_minus_iff in G. assumption. }
  destruct (Qeq_bool (H - L) 0) eqn:E.
  { apply Qeq_bool_iff in E. rewrite E in D2. discriminate D2. }
  assert (HM : (0 < M)%Q) by (eapply Qle_lt_trans; eassumption).
  assert (D3 : (0 < M * (M - L) * x + y)%Q).
  { apply Qlt_le_trans with (0 + y)%Q; [rewrite Qplus_0_l; assumption|].
    apply Qplus_le_compat; [|apply Qle_refl].
    apply Qmult_le_0_compat; [apply Qmult_le_0_compat; apply Qlt_le_weak|]; assumption. }
  cbv zeta.
  assert (Ny : ~ (y == 0)%Q) by (intros G; rewrite G in Hy; discriminate Hy).
  assert (N1 : ~ (M - L == 0)%Q) by (intros G; rewrite G in D1; discriminate D1).
  assert (N2 : ~ (H - L == 0)%Q) by (intros G; rewrite G in D2; discriminate D2).
  assert (N3 : ~ (M * (M - L) * x + y == 0)%Q) by (intros G; rewrite G in D3; discriminate D3).
  assert (TE : ((H - L) * y + L * (y * (H - L) / (M - L)) == (y * (H - L) / (M - L)) * M)%Q) by (field; assumption).
  rewrite TE.
  set (z := (y * (H - L) / (M - L))%Q).
  assert (Nz : ~ (z == 0)%Q).
  { intros G. assert (y * (H - L) == z * (M - L))%Q by (unfold z; field; assumption).
    rewrite G, Qmult_0_l in H0. apply Qmult_integral in H0. destruct H0; contradiction. }
  assert (DE : ((H - L) * x * (z * M) + z * z == z * ((H - L) / (M - L)) * (M * (M - L) * x + y))%Q).
  { unfold z. field. assumption. }
  rewrite DE.
  assert (NE : (x * (z * M) * (z * M) == z * ((H - L) / (M - L)) * (M * M * x * y))%Q) by (unfold z; field; assumption).
  rewrite NE. field. repeat split; assumption.
Qed.

Lemma spec_source_eq_const x y L : (0 < y)%Q ->
  (exact_out (L - L) L y y x == spec_tradeBySourceAmountFunc x y L L)%Q.
Proof.
  intros Hy. unfold exact_out, spec_tradeBySourceAmountFunc.
  replace (Qeq_bool (L - L) 0) with true. 2:{ symmetry. apply Qeq_bool_iff. ring. }
  cbv zeta.
  assert (Ny : ~ (y == 0)%Q) by (intros G; rewrite G in Hy; discriminate Hy).
  assert (DE : (L * (L - L) * x + y == y)%Q) by ring. rewrite DE. field. assumption.
Qed.

Lemma spec_target_eq x y L M H :
  (0 <= x -> x <= y -> 0 < y -> 0 < L -> L < M -> M <= H ->
   exact_in (H - L) L y (y * (H - L) / (M - L)) x == spec_tradeByTargetAmountFunc x y L M)%Q.
Proof.
  intros Hx Hxy Hy HL HLM HMH. unfold exact_in, spec_tradeByTargetAmountFunc.
  assert (D1 : (0 < M - L)%Q) by (apply Qlt_minus_iff in HLM; assumption).
  assert (D2 : (0 < H - L)%Q).
  { assert (G : (L < H)%Q) by (eapply Qlt_le_trans; eassumption). apply Qlt_minus_iff in G. assumption. }
  destruct (Qeq_bool (H - L) 0) eqn:E.
  { apply Qeq_bool_iff in E. rewrite E in D2. discriminate D2. }
  assert (HM : (0 < M)%Q) by (exact (Qlt_trans _ _ _ HL HLM)).
  assert (D3 : (0 < M * y + (L - M) * x)%Q).
  { setoid_replace (M * y + (L - M) * x)%Q with ((M - L) * (y - x) + L * y)%Q by ring.
    apply Qlt_le_trans with (0 + L * y)%Q.
    - rewrite Qplus_0_l. setoid_replace 0%Q with (0 * y)%Q by ring. apply Qmult_lt_compat_r; assumption.
    - apply Qplus_le_compat; [|apply Qle_refl]. apply Qmult_le_0_compat; [apply Qlt_le_weak; assumption|].
      apply Qle_minus_iff in Hxy. assumption. }
  cbv zeta.
  assert (Ny : ~ (y == 0)%Q) by (intros G; rewrite G in Hy; discriminate Hy).
  assert (NM : ~ (M == 0)%Q) by (intros G; rewrite G in HM; discriminate HM).
  assert (N1 : ~ (M - L == 0)%Q) by (intros G; rewrite G in D1; discriminate D1).
  assert (N2 : ~ (H - L == 0)%Q) by (intros G; rewrite G in D2; discriminate D2).
  assert (N3 : ~ (M * y + (L - M) * x == 0)%Q) by (intros G; rewrite G in D3; discriminate D3).
  assert (TE : ((H - L) * y + L * (y * (H - L) / (M - L)) == (y * (H - L) / (M - L)) * M)%Q) by (field; assumption).
  rewrite !TE.
  set (z := (y * (H - L) / (M - L))%Q).
  assert (Nz : ~ (z == 0)%Q).
  { intros G. assert (y * (H - L) == z * (M - L))%Q by (unfold z; field; assumption).
    rewrite G, Qmult_0_l in H0. apply Qmult_integral in H0. destruct H0; contradiction. }
  assert (DE : (z * M * (z * M - (H - L) * x) == z * M * ((H - L) / (M - L)) * (M * y + (L - M) * x))%Q).
  { unfold z. field. assumption. }
  rewrite DE.
  assert (NE : (x * (z * z) == z * ((H - L) / (M - L)) * (x * y))%Q) by (unfold z; field; assumption).
  rewrite NE.
  assert (DF : (M * (L - M) * x + M * M * y == M * (M * y + (L - M) * x))%Q) by ring. rewrite DF.
  field. repeat split; assumption.
Qed.

Lemma spec_target_eq_const x y L : (0 < y)%Q -> (0 < L)%Q ->
  (exact_in (L - L) L y y x == spec_tradeByTargetAmountFunc x y L L)%Q.
Proof.
  intros Hy HL. unfold exact_in, spec_tradeByTargetAmountFunc.
  replace (Qeq_bool (L - L) 0) with true. 2:{ symmetry. apply Qeq_bool_iff. ring. }
  cbv zeta.
  assert (Ny : ~ (y == 0)%Q) by (intros G; rewrite G in Hy; discriminate Hy).
  assert (NL : ~ (L == 0)%Q) by (intros G; rewrite G in HL; discriminate HL).
  assert (DE : (L * (L - L) * x + L * L * y == L * L * y)%Q) by ring. rewrite DE. field. split; assumption.
Qed.
