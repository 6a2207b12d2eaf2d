(** How close the rescaled quotes are to the exact curve (C138). *)
From Coq Require Import ZArith QArith Qround Lia Psatz Bool.
From Verif Require Import TradeModel TradeSpec TradeProofs TradeProofs2 TradeProofs3.
Local Open Scope Z_scope.

Lemma mul_le_inv a b c : 0 < c -> c * a <= c * b -> a <= b.
Proof. intros Hc H. apply (Z.mul_le_mono_pos_l _ _ c); assumption. Qed.
Lemma mul_lt_inv a b c : 0 < c -> c * a < c * b -> a < b.
Proof. intros Hc H. apply (Z.mul_lt_mono_pos_l c); assumption. Qed.

(** ** By target, arithmetic *)
Lemma tgt_step x N P f d4 d5 r :
  0 < x -> 0 < f -> 0 <= r -> d4 * f < N + f -> P - f < d5 * f -> d5 * f <= P -> r * d5 < x * d4 + d5 ->
  r * (P - f) < x * (N + f) + P.
Proof.
  intros Hx Hf Hr H4 H5 H5' Hq.
  assert (r * (P - f) <= r * (d5 * f)) by (apply mul_le_l; lia).
  assert (r * d5 * f < (x * d4 + d5) * f) by (apply Z.mul_lt_mono_pos_r; assumption).
  assert (x * (d4 * f) <= x * (N + f)) by (apply mul_le_l; lia).
  replace (r * (d5 * f)) with (r * d5 * f) in * by ring.
  replace ((x * d4 + d5) * f) with (x * (d4 * f) + d5 * f) in * by ring. lia.
Qed.
Lemma tiny f K P : 2 <= K -> 0 <= f -> 0 <= P -> f * (K * K - 1) < 2 * K * P -> f * K <= 4 * P.
Proof.
  intros HK Hf HP H. assert (2 <= K * K) by nia.
  assert (f * (K * K) <= f * (2 * (K * K - 1))) by (apply mul_le_l; lia).
  apply (mul_le_inv _ _ K); [lia|].
  replace (K * (f * K)) with (f * (K * K)) by ring.
  replace (f * (2 * (K * K - 1))) with (2 * (f * (K * K - 1))) in * by ring.
  replace (K * (4 * P)) with (2 * (2 * K * P)) by ring. lia.
Qed.
(** the size of the result *)
Lemma r_bound r f K P n : 16 <= K -> 0 <= r -> 0 < P -> 0 <= f -> f * K <= 4 * P ->
  r * (P - f) < n -> n <= (K - 1) * P -> r <= K + 4.
Proof.
  intros HK Hr HP Hf Hs H Hn.
  assert (H1 : r * (P - f) * K < (K - 1) * P * K) by (apply Z.mul_lt_mono_pos_r; lia).
  assert (H2 : r * (f * K) <= r * (4 * P)) by (apply mul_le_l; assumption).
  assert (H3 : P * (r * (K - 4)) < P * ((K - 1) * K)).
  { replace (P * (r * (K - 4))) with (r * P * K - r * (4 * P)) by ring.
    replace (r * (P - f) * K) with (r * P * K - r * (f * K)) in H1 by ring.
    replace (P * ((K - 1) * K)) with ((K - 1) * P * K) by ring. lia. }
  apply mul_lt_inv in H3; [|assumption].
  destruct (Z.le_gt_cases r (K + 4)) as [|G]; [assumption|exfalso].
  assert ((K + 5) * (K - 4) <= r * (K - 4)) by (apply mul_le_r; lia).
  replace ((K + 5) * (K - 4)) with (K * K + K - 20) in * by ring.
  replace ((K - 1) * K) with (K * K - K) in * by ring. lia.
Qed.
Lemma tgt_near x N P f d4 d5 r K :
  16 <= K -> 0 < x -> x <= K * K - 1 -> 0 <= N -> 0 < P -> x * N < (K - 4) * P ->
  (f = 1 \/ 0 < f /\ f * (K * K - 1) <= 2 * Z.max N P) -> 0 <= r ->
  d4 * f < N + f -> P - f < d5 * f -> d5 * f <= P -> r * d5 < x * d4 + d5 ->
  r * P < x * N + 4 * P.
Proof.
  intros HK Hx HxM HN HP HE Hf Hr H4 H5 H5' Hq.
  destruct Hf as [->|[Hf Hm]].
  { assert (d5 = P) by lia. subst d5. assert (x * d4 <= x * N) by (apply mul_le_l; lia). lia. }
  assert (HM : 2 <= K * K - 1) by nia.
  pose proof (tgt_step _ _ _ _ _ _ _ Hx Hf Hr H4 H5 H5' Hq) as Hst.
  replace (x * (N + f)) with (x * N + x * f) in Hst by ring.
  assert (HxN : N <= x * N) by (rewrite <- (Z.mul_1_l N) at 1; apply mul_le_r; lia).
  assert (HKP : (K - 4) * P = K * P - 4 * P) by ring.
  assert (Hs : f * K <= 4 * P).
  { apply tiny; [lia|lia|lia|]. replace (2 * K * P) with (2 * (K * P)) by ring.
    assert (1 * P < K * P) by (apply Z.mul_lt_mono_pos_r; lia). lia. }
  assert (Hf4 : 16 * f <= 4 * P) by (assert (f * 16 <= f * K) by (apply mul_le_l; lia); lia).
  (* x f and r f *)
  assert (Hxf : x * f <= 2 * P).
  { destruct (Z.le_gt_cases N P) as [C|C].
    - rewrite Z.max_r in Hm by lia. assert (x * f <= (K * K - 1) * f) by (apply mul_le_r; lia). lia.
    - rewrite Z.max_l in Hm by lia.
      assert (G : x * (f * (K * K - 1)) <= x * (2 * N)) by (apply mul_le_l; lia).
      assert (G2 : x * f * K <= 4 * P).
      { apply tiny; [lia|apply Z.mul_nonneg_nonneg; lia|lia|].
        replace (x * f * (K * K - 1)) with (x * (f * (K * K - 1))) by ring.
        replace (x * (2 * N)) with (2 * (x * N)) in G by ring. replace (2 * K * P) with (2 * (K * P)) by ring. lia. }
      assert (x * f * 2 <= x * f * K) by (apply mul_le_l; [apply Z.mul_nonneg_nonneg|]; lia). lia. }
  assert (HrK : r <= K + 4).
  { eapply (r_bound r f K P); [assumption|assumption|assumption|lia|assumption|exact Hst|].
    replace ((K - 1) * P) with (K * P - P) by ring. lia. }
  assert (Hrf : r * f + x * f <= 3 * P).
  { destruct (Z.le_gt_cases N P) as [C|C].
    - rewrite Z.max_r in Hm by lia.
      assert (r * f <= (K + 4) * f) by (apply mul_le_r; lia).
      replace ((K + 4) * f) with (f * K + 4 * f) in * by ring.
      assert (r * f <= P); [|lia].
      apply (mul_le_inv _ _ (K * K - 1)); [lia|].
      assert (G : (K + 4) * (f * (K * K - 1)) <= (K + 4) * (2 * P)) by (apply mul_le_l; lia).
      assert (G2 : (K * K - 1) * (r * f) <= (K * K - 1) * (f * K + 4 * f)) by (apply mul_le_l; lia).
      replace ((K * K - 1) * (f * K + 4 * f)) with ((K + 4) * (f * (K * K - 1))) in G2 by ring.
      assert (G3 : (2 * (K + 4)) * P <= (K * K - 1) * P) by (apply mul_le_r; [lia|nia]).
      replace ((K + 4) * (2 * P)) with (2 * (K + 4) * P) in G by ring. lia.
    - rewrite Z.max_l in Hm by lia.
      assert (Hrf : r * f <= 2 * P).
      { apply (mul_le_inv _ _ (K * K - 1)); [lia|].
        assert (G : (K + 4) * (f * (K * K - 1)) <= (K + 4) * (2 * ((K - 4) * P))) by (apply mul_le_l; lia).
        assert (G2 : (K * K - 1) * (r * f) <= (K * K - 1) * ((K + 4) * f)) by (apply mul_le_l; [lia|apply mul_le_r; lia]).
        replace ((K * K - 1) * ((K + 4) * f)) with ((K + 4) * (f * (K * K - 1))) in G2 by ring.
        replace ((K + 4) * (2 * ((K - 4) * P))) with ((K * K - 1) * (2 * P) - 30 * P) in G by ring. lia. }
      assert (Hxf' : x * f <= P); [|lia].
      assert (G : x * (f * (K * K - 1)) <= x * (2 * N)) by (apply mul_le_l; lia).
      assert (G2 : x * f * K <= 4 * P).
      { apply tiny; [lia|apply Z.mul_nonneg_nonneg; lia|lia|].
        replace (x * f * (K * K - 1)) with (x * (f * (K * K - 1))) by ring.
        replace (x * (2 * N)) with (2 * (x * N)) in G by ring. replace (2 * K * P) with (2 * (K * P)) by ring. lia. }
      assert (x * f * 4 <= x * f * K) by (apply mul_le_l; [apply Z.mul_nonneg_nonneg|]; lia). lia. }
  replace (r * (P - f)) with (r * P - r * f) in Hst by ring. lia.
Qed.

(** the common factor *)
Lemma factor_size N P f M : 0 < M -> 0 <= N -> 0 <= P -> f = Z.max ((N + M - 1) / M) ((P + M - 1) / M) ->
  0 < N + P -> f = 1 \/ 0 < f /\ f * M <= 2 * Z.max N P.
Proof.
  intros HM HN HP -> Hs.
  destruct (Z.le_gt_cases (Z.max N P) M) as [C|C].
  - left. apply factor_one; lia.
  - right. pose proof (ceil_lt N M HM) as A. pose proof (ceil_lt P M HM) as B.
    pose proof (ceil_ge N M HM) as A'. pose proof (ceil_ge P M HM) as B'.
    set (a := (N + M - 1) / M) in *. set (b := (P + M - 1) / M) in *.
    replace ((a - 1) * M) with (a * M - M) in A by ring. replace ((b - 1) * M) with (b * M - M) in B by ring.
    split.
    + destruct (Z.le_gt_cases (Z.max a b) 0) as [G|G]; [exfalso|assumption].
      assert (a * M <= 0 * M) by (apply mul_le_r; lia). assert (b * M <= 0 * M) by (apply mul_le_r; lia). lia.
    + destruct (Z.max_spec a b) as [[_ ->]|[_ ->]]; lia.
Qed.
Lemma ceil_cap N M f : 0 < M -> 0 < f -> (N + M - 1) / M <= f -> (N + f - 1) / f <= M.
Proof.
  intros HM Hf H. pose proof (ceil_ge N M HM) as A.
  assert ((N + M - 1) / M * M <= f * M) by (apply mul_le_r; lia).
  apply Z.lt_succ_r. apply Z.div_lt_upper_bound; [assumption|]. lia.
Qed.
Lemma floor_cap N M f : 0 < M -> 0 < f -> (N + M - 1) / M <= f -> N / f <= M.
Proof.
  intros HM Hf H. pose proof (ceil_ge N M HM) as A.
  assert ((N + M - 1) / M * M <= f * M) by (apply mul_le_r; lia).
  apply Z.lt_succ_r. apply Z.div_lt_upper_bound; [assumption|]. lia.
Qed.
Lemma ceil_nonneg N f : 0 <= N -> 0 < f -> 0 <= (N + f - 1) / f.
Proof. intros. apply Z.div_pos; lia. Qed.
Lemma ceil_sq a b M : 0 < M -> 0 <= a <= M -> 0 <= b <= M -> (a * b + M - 1) / M <= M.
Proof.
  intros HM Ha Hb. apply Z.lt_succ_r. apply Z.div_lt_upper_bound; [assumption|].
  assert (a * b <= M * M) by (apply Z.mul_le_mono_nonneg; lia).
  replace (M * Z.succ M) with (M * M + M) by ring. lia.
Qed.
Lemma floor_lt a c : 0 < c -> a < (a / c) * c + c.
Proof. intros Hc. pose proof (Z.div_mod a c ltac:(lia)) as H. pose proof (Z.mod_pos_bound a c Hc). lia. Qed.

Lemma max256 : MAX_UINT256 = 2 ^ 128 * 2 ^ 128 - 1.
Proof. reflexivity. Qed.

Lemma tgt_total x y z A B :
  0 < x -> 0 <= y -> 0 <= z -> 0 < A -> 0 <= B ->
  let T := y * A + z * B in
  T <= MAX_UINT256 -> z * ONE <= MAX_UINT256 -> A * x < T ->
  let N := (z * ONE) * (z * ONE) in let P := T * (T - A * x) in
  x * N < (2 ^ 128 - 4) * P ->
  exists r, tradeByTargetAmountFunc x y z A B = Some r /\ 0 <= r < 2 ^ 128 /\ r * P < x * N + 4 * P.
Proof.
  intros Hx Hy Hz HA HB T HT Hz1 Hd N P HE.
  pose proof MAX256_pos as HM.
  assert (HAx : 0 < A * x) by (apply Z.mul_pos_pos; lia).
  assert (Ht1 : 0 <= z * ONE) by (apply Z.mul_nonneg_nonneg; [lia|discriminate]).
  assert (HyA : 0 <= y * A) by (apply Z.mul_nonneg_nonneg; lia).
  assert (HzB : 0 <= z * B) by (apply Z.mul_nonneg_nonneg; lia).
  assert (HP : 0 < P) by (apply Z.mul_pos_pos; lia).
  assert (HN : 0 <= N) by apply sq_nonneg.
  assert (HxM : x <= MAX_UINT256).
  { assert (1 * x <= A * x) by (apply mul_le_r; lia). lia. }
  unfold tradeByTargetAmountFunc. destruct (A =? 0) eqn:EA; [lia|].
  rewrite mul_ok by lia. cbn [bind]. rewrite mul_ok by lia. cbn [bind]. rewrite mul_ok by lia. cbn [bind].
  rewrite add_ok by lia. cbn [bind]. fold T.
  rewrite mul_ok by lia. cbn [bind]. rewrite sub_ok by lia. cbn [bind].
  replace (T - x * A) with (T - A * x) by ring.
  rewrite (mulDivC_ok _ _ MAX_UINT256); [|assumption|split; [apply ceil_nonneg; [exact HN|assumption]|apply ceil_sq; lia]].
  cbn [bind].
  rewrite (mulDivC_ok _ _ MAX_UINT256); [|assumption|split; [apply ceil_nonneg; [fold P; lia|assumption]|apply ceil_sq; lia]].
  cbn [bind]. fold N P.
  remember (Z.max ((N + MAX_UINT256 - 1) / MAX_UINT256) ((P + MAX_UINT256 - 1) / MAX_UINT256)) as f eqn:Ef.
  pose proof (factor_size N P f MAX_UINT256 HM HN ltac:(lia) Ef ltac:(lia)) as Hf.
  assert (Hf0 : 0 < f) by lia.
  rewrite mulDivC_ok; fold N; [|assumption|split; [apply ceil_nonneg; assumption|apply ceil_cap; lia]].
  cbn [bind].
  rewrite mulDivF_ok; fold P; [|assumption|split; [apply Z.div_pos; lia|apply floor_cap; lia]].
  cbn [bind].
  set (d4 := (N + f - 1) / f). set (d5 := P / f).
  pose proof (ceil_lt N f Hf0) as H4. fold d4 in H4. replace ((d4 - 1) * f) with (d4 * f - f) in H4 by ring.
  pose proof (floor_lt P f Hf0) as H5. fold d5 in H5.
  pose proof (floor_le P f Hf0) as H5'. fold d5 in H5'.
  assert (Hd4 : 0 <= d4) by (apply ceil_nonneg; assumption).
  (* the divisor does not vanish *)
  assert (Hs : f * 2 ^ 128 <= 4 * P \/ f = 1).
  { destruct Hf as [Hf|[_ Hf]]; [right; assumption|left].
    apply tiny; [discriminate|lia|lia|]. rewrite max256 in Hf.
    assert (N <= x * N) by (rewrite <- (Z.mul_1_l N) at 1; apply mul_le_r; lia). lia. }
  assert (Hd5 : 0 < d5) by (apply Z.div_str_pos; lia).
  set (r := (x * d4 + d5 - 1) / d5).
  assert (Hr0 : 0 <= r) by (apply ceil_nonneg; [apply Z.mul_nonneg_nonneg; lia|assumption]).
  assert (Hq : r * d5 < x * d4 + d5).
  { pose proof (ceil_lt (x * d4) d5 Hd5) as G. fold r in G. replace ((r - 1) * d5) with (r * d5 - d5) in G by ring. lia. }
  assert (Hfin : r * P < x * N + 4 * P).
  { rewrite max256 in Hf, HxM. apply (tgt_near x N P f d4 d5 r (2 ^ 128)); try assumption; try lia; try discriminate. }
  assert (Hr : r < 2 ^ 128).
  { apply (mul_lt_inv _ _ P); [assumption|]. replace (P * r) with (r * P) by ring.
    replace ((2 ^ 128 - 4) * P) with (P * 2 ^ 128 - 4 * P) in HE by ring. lia. }
  exists r. split; [|split; [lia|assumption]].
  rewrite mulDivC_ok; fold r; [reflexivity|assumption|]. split; [assumption|]. rewrite max256. lia.
Qed.

(** ** By source, arithmetic: T = y A + z B, S = T x, D = A S + N *)
Lemma sq_big K : 16 <= K -> 0 < K * K - 1 /\ 4 * K <= K * K - 1.
Proof. intros H. assert (16 * K <= K * K) by (apply mul_le_r; lia). lia. Qed.
Lemma src_near1 T S N A f d4 d5 q r K :
  16 <= K -> 0 <= T <= K * K - 1 -> 0 <= S -> 0 <= N -> 0 < A -> 0 < S * A + N ->
  (f = 1 \/ 0 < f /\ f * (K * K - 1) <= 2 * Z.max N (S * A)) -> 0 <= r -> r * (S * A + N) <= T * S ->
  T * S < K * (S * A + N) ->
  d4 * f < N + f -> d5 * f < S * A + f -> S < q * f + f -> T * q < r * (d4 + d5) + (d4 + d5) ->
  T * S < (r + 4) * (S * A + N).
Proof.
  intros HK HT HS HN HA HD Hf Hr HrE HE H4 H5 Hq Hres.
  assert (HSA : 0 <= S * A) by (apply Z.mul_nonneg_nonneg; lia).
  assert (HDN : Z.max N (S * A) <= S * A + N) by lia.
  assert (H45 : d4 * f + d5 * f <= S * A + N + 2 * f) by lia.
  destruct (sq_big K HK) as [HM HM4].
  set (M := K * K - 1) in *. remember (S * A + N) as D eqn:ED.
  destruct Hf as [->|[Hf Hm]].
  { assert (T * S <= T * q) by (apply mul_le_l; lia).
    assert (d4 + d5 <= D) by lia.
    assert ((r + 1) * (d4 + d5) <= (r + 1) * D) by (apply mul_le_l; lia).
    replace ((r + 1) * (d4 + d5)) with (r * (d4 + d5) + (d4 + d5)) in * by ring.
    replace ((r + 4) * D) with ((r + 1) * D + 3 * D) by ring. lia. }
  clearbody M. clear HSA ED.
  assert (G1 : T * q * f < (r * (d4 + d5) + (d4 + d5)) * f) by (apply Z.mul_lt_mono_pos_r; assumption).
  assert (G2 : T * S <= T * (q * f + f)) by (apply mul_le_l; lia).
  assert (G3 : (r + 1) * (d4 * f + d5 * f) <= (r + 1) * (D + 2 * f)) by (apply mul_le_l; lia).
  replace ((r * (d4 + d5) + (d4 + d5)) * f) with ((r + 1) * (d4 * f + d5 * f)) in G1 by ring.
  replace (T * (q * f + f)) with (T * q * f + T * f) in G2 by ring.
  replace ((r + 1) * (D + 2 * f)) with ((r + 1) * D + 2 * (f * (r + 1))) in G3 by ring.
  assert (Hm' : f * M <= 2 * D) by lia.
  assert (G4 : T * f <= 2 * D) by (assert (T * f <= M * f) by (apply mul_le_r; lia); lia).
  assert (Hr' : r < K).
  { apply (mul_lt_inv _ _ D); [assumption|]. replace (D * r) with (r * D) by ring. replace (D * K) with (K * D) by ring. lia. }
  assert (G5 : 2 * (f * (r + 1)) <= D).
  { assert (G : f * (r + 1) <= f * K) by (apply mul_le_l; lia).
    assert (K * (f * M) <= K * (2 * D)) by (apply mul_le_l; lia).
    apply (mul_le_inv _ _ M); [lia|].
    assert (M * (f * (r + 1)) <= M * (f * K)) by (apply mul_le_l; [lia|assumption]).
    assert (4 * K * D <= M * D) by (apply mul_le_r; lia).
    replace (M * (f * K)) with (K * (f * M)) in * by ring.
    replace (M * (2 * (f * (r + 1)))) with (2 * (M * (f * (r + 1)))) by ring.
    replace (K * (2 * D)) with (2 * (K * D)) in * by ring. replace (4 * K * D) with (4 * (K * D)) in * by ring. lia. }
  replace ((r + 4) * D) with ((r + 1) * D + 3 * D) by ring. lia.
Qed.
Lemma src_near2 T S N A c r :
  0 <= T -> 0 < S -> 0 <= r -> c * S < N + S -> T < r * (A + c) + (A + c) ->
  T * S < (r + 1) * (S * A + N + S).
Proof.
  intros HT HS Hr Hc H.
  assert (T * S < (r * (A + c) + (A + c)) * S) by (apply Z.mul_lt_mono_pos_r; assumption).
  assert ((r + 1) * (A * S + c * S) <= (r + 1) * (S * A + N + S)).
  { apply mul_le_l; [lia|]. replace (A * S) with (S * A) by ring. lia. }
  replace ((r * (A + c) + (A + c)) * S) with ((r + 1) * (A * S + c * S)) in * by ring. lia.
Qed.
(** a result too large for the intermediate check: the amount is below two units *)
Lemma src_zero T S N A M : 0 < S -> 0 <= T <= M -> 2 <= M -> 0 <= N -> 0 < A ->
  M < A + (N + S - 1) / S -> T * S < 2 * (S * A + N).
Proof.
  intros HS HT HM HN HA H.
  pose proof (ceil_lt N S HS) as Hc. set (c := (N + S - 1) / S) in *.
  replace ((c - 1) * S) with (c * S - S) in Hc by ring.
  assert (G : M * S < (A + c) * S) by (apply Z.mul_lt_mono_pos_r; assumption).
  assert (T * S <= M * S) by (apply mul_le_r; lia).
  replace ((A + c) * S) with (S * A + c * S) in G by ring.
  assert (S <= S * A) by (rewrite <- (Z.mul_1_r S) at 1; apply mul_le_l; lia). lia.
Qed.

Lemma mulDivC_cases a b c : 0 < c -> 0 <= a * b ->
  mulDivC a b c = Some ((a * b + c - 1) / c) \/ mulDivC a b c = None /\ MAX_UINT256 < (a * b + c - 1) / c.
Proof.
  intros Hc H. pose proof (ceil_nonneg _ c H Hc).
  destruct (Z.le_gt_cases ((a * b + c - 1) / c) MAX_UINT256).
  - left. apply mulDivC_ok; lia.
  - right. split; [|assumption]. unfold mulDivC. rewrite pydiv_intro by lia. cbn [bind]. unfold check.
    destruct (_ <=? MAX_UINT256) eqn:E; [lia|]. rewrite andb_false_r. reflexivity.
Qed.
Lemma add_cases a b : 0 <= a + b -> add a b = Some (a + b) \/ add a b = None /\ MAX_UINT256 < a + b.
Proof.
  intros H. destruct (Z.le_gt_cases (a + b) MAX_UINT256); [left; apply add_ok; lia|right].
  split; [|assumption]. unfold add, check. destruct (a + b <=? MAX_UINT256) eqn:E; [lia|]. rewrite andb_false_r. reflexivity.
Qed.
(** the tail of the function, on abstract intermediate values *)
Definition src_tail (T S t1 A : Z) : option Z :=
  do factor1 <- mulDivC t1 t1 MAX_UINT256;
  do factor2 <- mulDivC S A MAX_UINT256;
  let factor := Z.max factor1 factor2 in
  do temp4 <- mulDivC t1 t1 factor;
  do temp5 <- mulDivC S A factor;
  if temp4 + temp5 <=? MAX_UINT256 then
    do q <- pydiv S factor; mulDivF T q (temp4 + temp5)
  else
    do c <- mulDivC t1 t1 S; do d <- add A c; pydiv T d.
Lemma src_tail_near T S t1 A :
  0 <= T <= MAX_UINT256 -> 0 <= S <= MAX_UINT256 -> 0 <= t1 <= MAX_UINT256 -> 0 < A ->
  0 < S * A + t1 * t1 -> T * S < 2 ^ 128 * (S * A + t1 * t1) ->
  (forall r, src_tail T S t1 A = Some r -> 0 <= r /\ r * (S * A + t1 * t1) <= T * S) ->
  (src_tail T S t1 A = None /\ T * S < 2 * (S * A + t1 * t1)) \/
  exists r, src_tail T S t1 A = Some r /\
    (T * S < (r + 4) * (S * A + t1 * t1) \/ T * S < (r + 1) * (S * A + t1 * t1 + S)).
Proof.
  intros HT HS Ht HA HD HE Hcore.
  pose proof MAX256_pos as HM.
  assert (HSA : 0 <= S * A) by (apply Z.mul_nonneg_nonneg; lia).
  assert (HN : 0 <= t1 * t1) by apply sq_nonneg.
  assert (Easy : T * S < 2 * (S * A + t1 * t1) ->
    (src_tail T S t1 A = None /\ T * S < 2 * (S * A + t1 * t1)) \/
    exists r, src_tail T S t1 A = Some r /\
    (T * S < (r + 4) * (S * A + t1 * t1) \/ T * S < (r + 1) * (S * A + t1 * t1 + S))).
  { intros G. destruct (src_tail T S t1 A) as [r|] eqn:Er; [right|left; auto].
    exists r. split; [reflexivity|left]. destruct (Hcore r eq_refl) as [Hr _].
    assert (2 * (S * A + t1 * t1) <= (r + 4) * (S * A + t1 * t1)) by (apply mul_le_r; lia). lia. }
  destruct (Z.le_gt_cases A MAX_UINT256) as [HAM|HAM].
  2: { apply Easy. assert (T * S <= A * S) by (apply mul_le_r; lia). replace (A * S) with (S * A) in * by ring. lia. }
  revert Hcore Easy. unfold src_tail.
  rewrite (mulDivC_ok t1 t1 MAX_UINT256); [|assumption|split; [apply ceil_nonneg; assumption|apply ceil_sq; lia]]. cbn [bind].
  rewrite (mulDivC_ok S A MAX_UINT256); [|assumption|split; [apply ceil_nonneg; assumption|apply ceil_sq; lia]]. cbn [bind].
  remember (Z.max ((t1 * t1 + MAX_UINT256 - 1) / MAX_UINT256) ((S * A + MAX_UINT256 - 1) / MAX_UINT256)) as f eqn:Ef.
  pose proof (factor_size (t1 * t1) (S * A) f MAX_UINT256 HM HN HSA Ef ltac:(lia)) as Hf.
  assert (Hf0 : 0 < f) by lia.
  rewrite (mulDivC_ok t1 t1 f); [|assumption|split; [apply ceil_nonneg; assumption|apply ceil_cap; lia]]. cbn [bind].
  rewrite (mulDivC_ok S A f); [|assumption|split; [apply ceil_nonneg; assumption|apply ceil_cap; lia]]. cbn [bind].
  pose proof (ceil_lt (t1 * t1) f Hf0) as H4. pose proof (ceil_lt (S * A) f Hf0) as H5.
  pose proof (ceil_ge (t1 * t1) f Hf0) as H4'. pose proof (ceil_ge (S * A) f Hf0) as H5'.
  pose proof (ceil_nonneg (t1 * t1) f HN Hf0) as P4. pose proof (ceil_nonneg (S * A) f HSA Hf0) as P5.
  assert (C4 : (t1 * t1 + f - 1) / f <= MAX_UINT256) by (apply ceil_cap; lia).
  assert (C50 : S = 0 -> (S * A + f - 1) / f = 0) by (intros ->; apply ceil0; assumption).
  set (d4 := (t1 * t1 + f - 1) / f) in *. set (d5 := (S * A + f - 1) / f) in *.
  replace ((d4 - 1) * f) with (d4 * f - f) in H4 by ring. replace ((d5 - 1) * f) with (d5 * f - f) in H5 by ring.
  clearbody d4 d5. clear Ef.
  destruct (d4 + d5 <=? MAX_UINT256) eqn:Eb; intros Hcore Easy.
  - rewrite pydiv_intro in * by lia. cbn [bind] in *. unfold mulDivF in *.
    assert (Hdd : 0 < d4 + d5).
    { destruct (Z.le_gt_cases (d4 + d5) 0) as [G|G]; [exfalso|assumption].
      assert (d4 = 0) by lia. assert (d5 = 0) by lia. subst. lia. }
    rewrite pydiv_intro in * by lia. cbn [bind] in *.
    set (r := T * (S / f) / (d4 + d5)) in *.
    assert (Hq0 : 0 <= S / f) by (apply Z.div_pos; lia).
    assert (Hr0 : 0 <= r) by (apply Z.div_pos; [apply Z.mul_nonneg_nonneg; lia|assumption]).
    assert (Hr : r * (S * A + t1 * t1) <= T * S).
    { pose proof (floor_le (T * (S / f)) (d4 + d5) Hdd) as G. fold r in G.
      pose proof (floor_le S f Hf0) as G'.
      assert (G1 : r * (S * A + t1 * t1) <= r * ((d4 + d5) * f)) by (apply mul_le_l; [assumption|lia]).
      assert (G2 : r * (d4 + d5) * f <= T * (S / f) * f) by (apply mul_le_r; lia).
      assert (G3 : T * (S / f * f) <= T * S) by (apply mul_le_l; lia).
      replace (r * ((d4 + d5) * f)) with (r * (d4 + d5) * f) in G1 by ring.
      replace (T * (S / f * f)) with (T * (S / f) * f) in G3 by ring. lia. }
    assert (HrK : r < 2 ^ 128).
    { apply (mul_lt_inv _ _ (S * A + t1 * t1)); [assumption|].
      replace ((S * A + t1 * t1) * r) with (r * (S * A + t1 * t1)) by ring.
      replace ((S * A + t1 * t1) * 2 ^ 128) with (2 ^ 128 * (S * A + t1 * t1)) by ring. lia. }
    right. exists r. split; [apply check_intro; rewrite max256; lia|left].
    rewrite max256 in Hf, HT.
    apply (src_near1 T S (t1 * t1) A f d4 d5 (S / f) r (2 ^ 128)); try assumption; try lia; try discriminate.
    + pose proof (floor_lt S f Hf0). lia.
    + unfold r. pose proof (floor_lt (T * (S / f)) (d4 + d5) Hdd). lia.
  - assert (HSp : 0 < S).
    { destruct (Z.eq_dec S 0) as [E|E]; [exfalso; pose proof (C50 E); lia|lia]. }
    destruct (mulDivC_cases t1 t1 S HSp HN) as [E|[E G]].
    2: { apply Easy. apply (src_zero T S (t1 * t1) A MAX_UINT256); try assumption; try lia. discriminate. }
    rewrite E in *. cbn [bind] in *.
    pose proof (ceil_nonneg (t1 * t1) S HN HSp) as Pc.
    destruct (add_cases A ((t1 * t1 + S - 1) / S) ltac:(lia)) as [E'|[E' G]].
    2: { apply Easy. apply (src_zero T S (t1 * t1) A MAX_UINT256); try assumption; try lia. discriminate. }
    rewrite E' in *. cbn [bind] in *. rewrite pydiv_intro in * by lia.
    right. eexists. split; [reflexivity|right].
    pose proof (ceil_lt (t1 * t1) S HSp) as Hc. set (c := (t1 * t1 + S - 1) / S) in *.
    replace ((c - 1) * S) with (c * S - S) in Hc by ring.
    apply (src_near2 T S (t1 * t1) A c); [lia|assumption|apply Z.div_pos; lia|lia|].
    pose proof (floor_lt T (A + c) ltac:(lia)). lia.
Qed.

Lemma src_total x y z A B :
  0 <= x -> 0 <= y -> 0 <= z -> 0 < A -> 0 <= B ->
  let T := y * A + z * B in
  T <= MAX_UINT256 -> z * ONE <= MAX_UINT256 -> T * x <= MAX_UINT256 ->
  let N := (z * ONE) * (z * ONE) in let D := (T * x) * A + N in
  0 < D -> T * (T * x) < 2 ^ 128 * D ->
  (tradeBySourceAmountFunc x y z A B = None /\ T * (T * x) < 2 * D) \/
  exists r, tradeBySourceAmountFunc x y z A B = Some r /\ 0 <= r < 2 ^ 128 /\
    (T * (T * x) < (r + 4) * D \/ T * (T * x) < (r + 1) * (D + T * x)).
Proof.
  intros Hx Hy Hz HA HB T HT Hz1 HTx N D HD HE.
  assert (Ht1 : 0 <= z * ONE) by (apply Z.mul_nonneg_nonneg; [lia|discriminate]).
  assert (HyA : 0 <= y * A) by (apply Z.mul_nonneg_nonneg; lia).
  assert (HzB : 0 <= z * B) by (apply Z.mul_nonneg_nonneg; lia).
  assert (HS : 0 <= T * x) by (apply Z.mul_nonneg_nonneg; lia).
  assert (Heq : tradeBySourceAmountFunc x y z A B = src_tail T (T * x) (z * ONE) A).
  { unfold tradeBySourceAmountFunc. destruct (A =? 0) eqn:EA; [lia|].
    rewrite mul_ok by lia. cbn [bind]. rewrite mul_ok by lia. cbn [bind]. rewrite mul_ok by lia. cbn [bind].
    rewrite add_ok by lia. cbn [bind]. fold T. rewrite mul_ok by lia. reflexivity. }
  assert (Hcore : forall r, src_tail T (T * x) (z * ONE) A = Some r -> 0 <= r /\ r * D <= T * (T * x)).
  { intros r Hr. rewrite <- Heq in Hr. destruct (src_core x y z A B r HA Hz Hr) as (R0 & _ & _ & _ & R). fold T N in R.
    replace (A * x * T + N) with D in R by (unfold D; ring). replace (x * T * T) with (T * (T * x)) in R by ring. auto. }
  rewrite Heq.
  destruct (src_tail_near T (T * x) (z * ONE) A) as [H|(r & Hr & H)]; try assumption; try lia.
  - left. exact H.
  - right. exists r. split; [assumption|]. destruct (Hcore r Hr) as [R0 R]. split; [|exact H].
    split; [assumption|]. apply (mul_lt_inv _ _ D); [assumption|].
    replace (D * r) with (r * D) by ring. replace (D * 2 ^ 128) with (2 ^ 128 * D) by ring. lia.
Qed.

(** ** The quotes *)
Lemma Qsqr_nonneg q : (0 <= q * q)%Q.
Proof. destruct q as [n d]. unfold Qle, Qmult. cbn [Qnum Qden]. rewrite Z.mul_1_r. apply sq_nonneg. Qed.
Lemma inj_div_lt_inv n d k : 0 < d -> (inject_Z n / inject_Z d < inject_Z k)%Q -> n < k * d.
Proof.
  intros Hd H. assert (Hd' : (0 < inject_Z d)%Q) by (change 0%Q with (inject_Z 0); rewrite <- Zlt_Qlt; assumption).
  assert (G : (inject_Z n / inject_Z d * inject_Z d < inject_Z k * inject_Z d)%Q) by (apply Qmult_lt_compat_r; assumption).
  setoid_replace (inject_Z n / inject_Z d * inject_Z d)%Q with (inject_Z n) in G by (field; intros E; rewrite E in Hd'; discriminate).
  rewrite <- inject_Z_mult, <- Zlt_Qlt in G. assumption.
Qed.
Lemma inj_div_lt n d k : 0 < d -> n < k * d -> (inject_Z n / inject_Z d < inject_Z k)%Q.
Proof.
  intros Hd H. apply Qlt_shift_div_r; [change 0%Q with (inject_Z 0); rewrite <- Zlt_Qlt; assumption|].
  rewrite <- inject_Z_mult, <- Zlt_Qlt. assumption.
Qed.

Lemma by_target_near o x :
  nonneg_order o -> 0 < x ->
  target_in_range (denoted (o_A o)) (denoted (o_B o)) (o_y o) (o_z o) ->
  deliverable (denoted (o_A o)) (denoted (o_B o)) (o_y o) (o_z o) x ->
  let e := exact_in (fix48 (denoted (o_A o))) (fix48 (denoted (o_B o))) (inject_Z (o_y o)) (inject_Z (o_z o)) (inject_Z x) in
  (e < inject_Z (2 ^ 128 - 4))%Q ->
  (inject_Z (tradeByTargetAmount x o) < e + 4)%Q.
Proof.
  intros Ho Hx Hr Hd e He. pose proof (dA_nonneg o Ho) as PA. pose proof (dB_nonneg o Ho) as PB.
  destruct Hr as [(E0 & Hb & HBB)|(P & HT & HS)].
  - (* constant price *)
    pose proof (is_ceil_exists e) as Hc.
    assert (Hv : Qceiling e < 2 ^ 128).
    { rewrite Zlt_Qlt. eapply Qlt_le_trans; [|apply Qle_refl].
      destruct Hc as [Hc _]. assert (G : (inject_Z (Qceiling e - 1) < inject_Z (2 ^ 128 - 4))%Q) by (eapply Qlt_trans; eassumption).
      rewrite <- Zlt_Qlt in G. rewrite <- Zlt_Qlt. lia. }
    rewrite (by_target_exact_ceil o x (Qceiling e)); try assumption; try lia; [|left; auto].
    destruct Hc as [Hc _]. unfold Z.sub in Hc. rewrite inject_Z_plus in Hc.
    change (inject_Z (- (1))) with (- (1))%Q in Hc. clear -Hc.
    assert (inject_Z (Qceiling e) < e + 1)%Q by Lqa.lra. Lqa.lra.
  - destruct Hd as [Hd|[_ Hd]]; [lia|].
    destruct Ho as (Hy & Hz & HA & HB).
    unfold tradeByTargetAmount, tradeFunc. rewrite !decodeFloat_denoted by assumption.
    unfold e in *. clear e.
    set (A := denoted (o_A o)) in *. set (B := denoted (o_B o)) in *. change (2 ^ 48) with ONE in HS.
    set (T := o_y o * A + o_z o * B) in *.
    assert (HAx : 0 < A * x) by (apply Z.mul_pos_pos; lia).
    assert (P14 : 0 < T * (T - A * x)) by (apply Z.mul_pos_pos; lia).
    pose proof (exact_in_A A B (o_y o) (o_z o) x ltac:(lia) ltac:(fold T; lia)) as Hx'. fold T in Hx'.
    rewrite Hx' in He |- *. clear Hx'.
    apply inj_div_lt_inv in He; [|assumption].
    assert (HM : 2 ^ 256 = MAX_UINT256 + 1) by reflexivity.
    destruct (tgt_total x (o_y o) (o_z o) A B) as (r & Er & Hr & Hfin); try assumption; try lia; fold T; try lia.
    fold T in Hfin. rewrite Er. cbn [bind]. rewrite MAX_128 by assumption.
    set (D := T * (T - A * x)) in *. set (Nn := x * (o_z o * ONE * (o_z o * ONE))) in *.
    assert (G : (inject_Z (r - 4) < inject_Z Nn / inject_Z D)%Q).
    { apply Qlt_shift_div_l; [change 0%Q with (inject_Z 0); rewrite <- Zlt_Qlt; assumption|].
      rewrite <- inject_Z_mult, <- Zlt_Qlt. replace ((r - 4) * D) with (r * D - 4 * D) by ring. lia. }
    unfold Z.sub in G. rewrite inject_Z_plus in G. change (inject_Z (- (4))) with (- (4))%Q in G.
    clear -G. Lqa.lra.
Qed.

Lemma near_arith T S D r e t : (0 < T -> 0 <= S -> 0 < D -> T * S < (r + 1) * (D + S) ->
  e == T * S / D -> t == T * S * S / (D * D) -> e < r + 4 + t)%Q.
Proof.
  intros HT HS HD H He Ht. rewrite He, Ht. clear He Ht.
  (* T S / (D + S) < r + 1 and T S / D - T S / (D + S) <= T S S / D D *)
  assert (G1 : (T * S / (D + S) < r + 1)%Q) by (apply Qlt_shift_div_r; [Lqa.lra|exact H]).
  assert (G2 : (T * S / D <= T * S / (D + S) + T * S * S / (D * D))%Q).
  { assert (G : (0 <= T * S / (D + S) + T * S * S / (D * D) - T * S / D)%Q).
    { setoid_replace (T * S / (D + S) + T * S * S / (D * D) - T * S / D)%Q with (T * S * S * S / ((D + S) * (D * D)))%Q.
      - apply Qle_shift_div_l; [apply Qmult_lt_0_compat; [Lqa.lra|apply Qmult_lt_0_compat; assumption]|].
        rewrite Qmult_0_l. repeat apply Qmult_le_0_compat; Lqa.lra.
      - field. split; intros E; Lqa.lra. }
    Lqa.lra. }
  Lqa.lra.
Qed.

Lemma by_source_near o x :
  nonneg_order o -> 0 <= x ->
  source_in_range (denoted (o_A o)) (denoted (o_B o)) (o_y o) (o_z o) x ->
  let e := exact_out (fix48 (denoted (o_A o))) (fix48 (denoted (o_B o))) (inject_Z (o_y o)) (inject_Z (o_z o)) (inject_Z x) in
  (e < inject_Z (2 ^ 128))%Q ->
  (e < inject_Z (tradeBySourceAmount x o) + 4 +
       e * e / inject_Z (o_y o * denoted (o_A o) + o_z o * denoted (o_B o)))%Q.
Proof.
  intros Ho Hx Hr e He. pose proof (dA_nonneg o Ho) as PA. pose proof (dB_nonneg o Ho) as PB.
  assert (Ho' := Ho). destruct Ho' as (Hy & Hz & HA & HB).
  assert (Hterm : (0 <= e * e / inject_Z (o_y o * denoted (o_A o) + o_z o * denoted (o_B o)))%Q).
  { assert (HT0 : 0 <= o_y o * denoted (o_A o) + o_z o * denoted (o_B o)) by (apply Z.add_nonneg_nonneg; apply Z.mul_nonneg_nonneg; assumption).
    rewrite Zle_Qle in HT0. apply Qmult_le_0_compat; [apply Qsqr_nonneg|apply Qinv_le_0_compat; exact HT0]. }
  destruct Hr as [(E0 & HBB)|(P & HT & HS & HTx)].
  - pose proof (is_floor_exists e) as Hc.
    assert (Hv : Qfloor e < 2 ^ 128).
    { rewrite Zlt_Qlt. destruct Hc as [Hc _]. eapply Qle_lt_trans; eassumption. }
    rewrite (by_source_exact_floor o x (Qfloor e)); try assumption; [|left; auto].
    destruct Hc as [_ Hc]. rewrite inject_Z_plus in Hc. change (inject_Z 1) with 1%Q in Hc.
    revert Hterm Hc. generalize (e * e / inject_Z (o_y o * denoted (o_A o) + o_z o * denoted (o_B o)))%Q. clear. intros. Lqa.lra.
  - unfold tradeBySourceAmount, tradeFunc. rewrite !decodeFloat_denoted by assumption.
    set (A := denoted (o_A o)) in *. set (B := denoted (o_B o)) in *. change (2 ^ 48) with ONE in HS.
    set (T := o_y o * A + o_z o * B) in *.
    assert (HyA : 0 <= o_y o * A) by (apply Z.mul_nonneg_nonneg; lia).
    assert (HzB : 0 <= o_z o * B) by (apply Z.mul_nonneg_nonneg; lia).
    assert (HT0 : 0 <= T) by lia.
    assert (HTx0 : 0 <= T * x) by (apply Z.mul_nonneg_nonneg; lia).
    assert (HTxA : 0 <= T * x * A) by (apply Z.mul_nonneg_nonneg; lia).
    pose proof (sq_nonneg (o_z o * ONE)) as HN.
    assert (HM : 2 ^ 256 = MAX_UINT256 + 1) by reflexivity.
    set (D := T * x * A + (o_z o * ONE) * (o_z o * ONE)) in *.
    destruct (Z.eq_dec D 0) as [E|E].
    { (* z = 0 and no input or no liquidity: the exact amount is zero *)
      assert (Hz0 : o_z o = 0).
      { assert (G : o_z o * ONE * (o_z o * ONE) = 0) by (unfold D in E; lia).
        apply Z.mul_eq_0 in G. destruct G as [G|G]; apply Z.mul_eq_0 in G; destruct G as [G|G]; try assumption; discriminate G. }
      assert (HTx' : T * x = 0).
      { unfold D in E. assert (G : T * x * A = 0) by lia. apply Z.mul_eq_0 in G. lia. }
      assert (He0 : (e == 0)%Q).
      { unfold e, exact_out. destruct (Qeq_bool (fix48 A) 0) eqn:EA.
        { apply Qeq_bool_iff in EA. apply (proj1 (fix48_zero A)) in EA. lia. }
        assert (G : (inject_Z x * (fix48 A * inject_Z (o_y o) + fix48 B * inject_Z (o_z o)) == 0)%Q).
        { setoid_replace (inject_Z x * (fix48 A * inject_Z (o_y o) + fix48 B * inject_Z (o_z o)))%Q with (inject_Z (T * x) / inject_Z ONE)%Q.
          - rewrite HTx'. reflexivity.
          - unfold fix48, T. rewrite !inject_Z_mult, inject_Z_plus, !inject_Z_mult. change (2 ^ 48) with ONE. field. apply inj_neq0. discriminate. }
        rewrite G. unfold Qdiv. ring. }
      pose proof (by_source_range x o) as Hrange. unfold tradeBySourceAmount, tradeFunc in Hrange.
      rewrite !decodeFloat_denoted in Hrange by assumption. fold A B in Hrange.
      set (quote := match _ with Some v => v | None => 0 end) in *.
      destruct Hrange as [Hq _]. rewrite Zle_Qle in Hq. change (inject_Z 0) with 0%Q in Hq.
      revert Hterm Hq He0. generalize (e * e / inject_Z T)%Q. generalize (inject_Z quote). clear. intros. Lqa.lra. }
    assert (HD : 0 < D) by (unfold D in *; lia).
    pose proof (exact_out_A A B (o_y o) (o_z o) x ltac:(lia) ltac:(fold T; replace (A * x * T) with (T * x * A) by ring; exact E)) as Hx'. fold T in Hx'.
    replace (A * x * T + o_z o * ONE * (o_z o * ONE)) with D in Hx' by (unfold D; ring).
    replace (x * T * T) with (T * (T * x)) in Hx' by ring. fold e in Hx'.
    assert (HE : T * (T * x) < 2 ^ 128 * D) by (apply inj_div_lt_inv; [assumption|rewrite <- Hx'; assumption]).
    set (t := (e * e / inject_Z T)%Q) in *.
    assert (HDq : (0 < inject_Z D)%Q) by (change 0%Q with (inject_Z 0); rewrite <- Zlt_Qlt; assumption).
    destruct (src_total x (o_y o) (o_z o) A B) as [(Er & Hlt)|(r & Er & Hr & Hlt)]; try assumption; fold T; try lia; try assumption.
    + rewrite Er. cbn [bind].
      assert (G : (e < 2)%Q) by (rewrite Hx'; change 2%Q with (inject_Z 2); apply inj_div_lt; assumption).
      change (inject_Z 0) with 0%Q. clearbody t e. clear -G Hterm. Lqa.lra.
    + rewrite Er. cbn [bind]. rewrite MAX_128 by assumption.
      destruct Hlt as [Hlt|Hlt].
      * assert (G : (e < inject_Z (r + 4))%Q) by (rewrite Hx'; apply inj_div_lt; assumption).
        rewrite inject_Z_plus in G. change (inject_Z 4) with 4%Q in G. clearbody t e. clear -G Hterm. Lqa.lra.
      * destruct (Z.eq_dec T 0) as [ET|ET].
        { rewrite ET in Hx'. rewrite Z.mul_0_l in Hx'. change (inject_Z 0) with 0%Q in Hx'.
          assert (He0 : (e == 0)%Q) by (rewrite Hx'; unfold Qdiv; ring).
          destruct Hr as [Hr _]. rewrite Zle_Qle in Hr. change (inject_Z 0) with 0%Q in Hr.
          clearbody t e. clear -He0 Hterm Hr. Lqa.lra. }
        assert (Hlt' : T * (T * x) < (r + 1) * (D + T * x)) by exact Hlt.
        set (S := T * x) in *.
        assert (HTq : (0 < inject_Z T)%Q) by (change 0%Q with (inject_Z 0); rewrite <- Zlt_Qlt; lia).
        assert (HSq : (0 <= inject_Z S)%Q) by (change 0%Q with (inject_Z 0); rewrite <- Zle_Qle; assumption).
        rewrite Zlt_Qlt in Hlt'. rewrite !inject_Z_mult, !inject_Z_plus in Hlt'. rewrite inject_Z_mult in Hx'.
        change (inject_Z 1) with 1%Q in Hlt'.
        assert (Ht : (t == inject_Z T * inject_Z S * inject_Z S / (inject_Z D * inject_Z D))%Q).
        { unfold t. rewrite Hx'. field. split; [intros G; rewrite G in HDq; discriminate|intros G; rewrite G in HTq; discriminate]. }
        clearbody t. clearbody e. revert HTq HSq HDq Hlt' Hx' Ht. clear.
        apply near_arith.
Qed.

(** ** Refused intermediate values *)
Lemma check_none v m : m < v -> check v m = None.
Proof. intros H. unfold check. destruct (v <=? m) eqn:E; [lia|]. rewrite andb_false_r. reflexivity. Qed.
Lemma by_source_overflow o x :
  nonneg_order o -> 0 <= x -> 0 < denoted (o_A o) ->
  2 ^ 256 <= o_z o * 2 ^ 48 \/ 2 ^ 256 <= o_y o * denoted (o_A o) + o_z o * denoted (o_B o) \/
  2 ^ 256 <= (o_y o * denoted (o_A o) + o_z o * denoted (o_B o)) * x ->
  tradeBySourceAmount x o = 0.
Proof.
  intros Ho Hx HAp H. destruct (tradeFunc_cases x o tradeBySourceAmountFunc 0) as [(r & Er & _ & _)|E]; [exfalso|exact E].
  destruct Ho as (Hy & Hz & HA & HB). rewrite !decodeFloat_denoted in Er by assumption.
  unfold tradeBySourceAmountFunc in Er. destruct (denoted (o_A o) =? 0) eqn:EA; [lia|].
  change (2 ^ 48) with ONE in H. assert (HM : 2 ^ 256 = MAX_UINT256 + 1) by reflexivity. inv_do. subst v v0 v1 v2 v3. lia.
Qed.
Lemma by_target_overflow o x :
  nonneg_order o -> 0 < denoted (o_A o) ->
  2 ^ 256 <= o_z o * 2 ^ 48 \/ 2 ^ 256 <= o_y o * denoted (o_A o) + o_z o * denoted (o_B o) ->
  tradeByTargetAmount x o = 2 ^ 128 - 1.
Proof.
  intros Ho HAp H. destruct (tradeFunc_cases x o tradeByTargetAmountFunc MAX_UINT128) as [(r & Er & _ & _)|E]; [exfalso|exact E].
  destruct Ho as (Hy & Hz & HA & HB). rewrite !decodeFloat_denoted in Er by assumption.
  unfold tradeByTargetAmountFunc in Er. destruct (denoted (o_A o) =? 0) eqn:EA; [lia|].
  change (2 ^ 48) with ONE in H. assert (HM : 2 ^ 256 = MAX_UINT256 + 1) by reflexivity. inv_do. subst v v0 v1 v2. lia.
Qed.

(** ** Round trips *)
Lemma near_round_trip o x :
  nonneg_order o -> 0 <= x < 2 ^ 128 - 4 -> 0 < o_z o ->
  source_in_range (denoted (o_A o)) (denoted (o_B o)) (o_y o) (o_z o) x ->
  target_in_range (denoted (o_A o)) (denoted (o_B o)) (o_y o) (o_z o) ->
  0 < tradeBySourceAmount x o ->
  tradeByTargetAmount (tradeBySourceAmount x o) o <= x + 3.
Proof.
  intros Ho Hx Hz Hs Ht Hq. pose proof (dA_nonneg o Ho) as PA. pose proof (dB_nonneg o Ho) as PB.
  pose proof (by_source_never_overpays o x Ho (proj1 Hx)) as Hle.
  set (q := tradeBySourceAmount x o) in *.
  assert (Ho' := Ho). destruct Ho' as (Hy & _ & HA & HB).
  destruct Ht as [(E0 & Hb & HBB)|(P & HT & HS)].
  { assert (0 < o_z o * denoted (o_B o)) by (apply Z.mul_pos_pos; assumption).
    assert (0 <= o_y o * denoted (o_A o)) by (apply Z.mul_nonneg_nonneg; assumption).
    pose proof (no_round_trip_profit o x Ho (proj1 Hx) ltac:(left; auto) Hz ltac:(lia)) as G. fold q in G. lia. }
  assert (Ht : target_in_range (denoted (o_A o)) (denoted (o_B o)) (o_y o) (o_z o)) by (right; auto).
  set (A := denoted (o_A o)) in *. set (B := denoted (o_B o)) in *.
  set (T := o_y o * A + o_z o * B) in *.
  assert (HyA : 0 <= o_y o * A) by (apply Z.mul_nonneg_nonneg; lia).
  assert (HzB : 0 <= o_z o * B) by (apply Z.mul_nonneg_nonneg; lia).
  assert (HT0 : 0 <= T) by lia.
  set (N := (o_z o * ONE) * (o_z o * ONE)).
  assert (HN : 0 < N) by (assert (0 < o_z o * ONE) by (apply Z.mul_pos_pos; [assumption|reflexivity]); apply Z.mul_pos_pos; assumption).
  assert (HAxT : 0 <= A * x * T) by (apply Z.mul_nonneg_nonneg; [apply Z.mul_nonneg_nonneg|]; lia).
  assert (Hcore : q * (A * x * T + N) <= x * T * T).
  { apply inj_div_le_inv; [lia|]. pose proof (exact_out_A A B (o_y o) (o_z o) x ltac:(lia) ltac:(fold T N; lia)) as Ex. cbn zeta in Ex. fold T N in Ex.
    eapply Qle_trans; [exact Hle|]. rewrite Ex. apply Qle_refl. }
  assert (HqN : 0 < q * N) by (apply Z.mul_pos_pos; assumption).
  assert (Hkey : q * N <= x * (T * (T - A * q))).
  { replace (x * (T * (T - A * q))) with (x * T * T - q * (A * x * T)) by ring.
    replace (q * (A * x * T + N)) with (q * (A * x * T) + q * N) in Hcore by ring. lia. }
  assert (Hpos : 0 < T * (T - A * q)).
  { destruct (Z.le_gt_cases (T * (T - A * q)) 0) as [G|G]; [exfalso|assumption].
    assert (x * (T * (T - A * q)) <= x * 0) by (apply mul_le_l; lia). lia. }
  assert (HTp : 0 < T) by (destruct (Z.eq_dec T 0) as [E|E]; [rewrite E in Hpos; lia|lia]).
  assert (Hdel : A * q < T).
  { assert (G : T * 0 < T * (T - A * q)) by lia. apply mul_lt_inv in G; [lia|assumption]. }
  assert (Hin : (exact_in (fix48 A) (fix48 B) (inject_Z (o_y o)) (inject_Z (o_z o)) (inject_Z q) <= inject_Z x)%Q).
  { pose proof (exact_in_A A B (o_y o) (o_z o) q ltac:(lia) ltac:(fold T; lia)) as Ex. cbn zeta in Ex. fold T N in Ex.
    rewrite Ex. apply inj_div_ge; assumption. }
  pose proof (by_target_near o q Ho Hq Ht ltac:(right; split; assumption)) as Hn. fold A B in Hn. cbn zeta in Hn.
  assert (Hlt : (exact_in (fix48 A) (fix48 B) (inject_Z (o_y o)) (inject_Z (o_z o)) (inject_Z q) < inject_Z (2 ^ 128 - 4))%Q).
  { eapply Qle_lt_trans; [exact Hin|]. rewrite <- Zlt_Qlt. lia. }
  specialize (Hn Hlt).
  assert (G : (inject_Z (tradeByTargetAmount q o) < inject_Z (x + 4))%Q).
  { rewrite inject_Z_plus. change (inject_Z 4) with 4%Q. clear -Hin Hn. Lqa.lra. }
  rewrite <- Zlt_Qlt in G. lia.
Qed.
