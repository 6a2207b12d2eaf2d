(** Proofs for BenchProps.v (3): the test of one quote, and greedy against optimal matching. *)
From Coq Require Import Reals ZArith QArith Qreals Qround Psatz Lia Lra List Bool Permutation.
From Verif Require Import CurveModel CurveProofs TradeModel TradeSpec TradeProofs TradeProofs2 TradeProofs3 TradeProofs4 MatchModel MatchSpec MatchProofs MatchProofs3 BenchModel BenchSpec BenchProofs BenchProofs2.
Import ListNotations.
Local Open Scope R_scope.

(** ** assertAlmostEqual *)
Lemma almost_pos a e ma mr : 0 < e ->
  (assertAlmostEqual a e ma mr = Ret tt <-> a = e \/ Rabs (a - e) <= ma \/ Rabs (a - e) <= mr * e) /\
  (assertAlmostEqual a e ma mr = Ret tt \/ assertAlmostEqual a e ma mr = Raise AssertionError).
Proof.
  intros He. unfold assertAlmostEqual. destruct (Req_EM_T a e) as [Q| Q].
  { rewrite req_true by exact Q. split; [split; [intros _; left; exact Q|reflexivity]|left; reflexivity]. }
  rewrite req_false by exact Q. rewrite rdiv_ok by lra. cbn [rbind].
  assert (D : Rabs (a - e) / e <= mr <-> Rabs (a - e) <= mr * e).
  { split; intros H.
    - apply Rmult_le_compat_r with (r := e) in H; [|lra]. replace (Rabs (a - e) / e * e) with (Rabs (a - e)) in H by (field; lra). exact H.
    - apply Rmult_le_reg_r with e; [lra|]. replace (Rabs (a - e) / e * e) with (Rabs (a - e)) by (field; lra). exact H. }
  destruct (Rle_lt_dec (Rabs (a - e)) ma) as [H1|H1].
  { rewrite rle_true by exact H1. cbn. tauto. }
  rewrite rle_false by exact H1. destruct (Rle_lt_dec (Rabs (a - e) / e) mr) as [H2|H2].
  { rewrite rle_true by exact H2. cbn. tauto. }
  rewrite rle_false by exact H2. cbn. split; [|right; reflexivity]. split; [discriminate|].
  intros [K|[K|K]]; [contradiction|lra|]. apply D in K. lra.
Qed.
Lemma almost_zero a ma mr : assertAlmostEqual a 0 ma mr = (if Req_EM_T a 0 then Ret tt else Raise ZeroDivision).
Proof.
  unfold assertAlmostEqual. destruct (Req_EM_T a 0) as [Q| Q]; [rewrite req_true by exact Q; reflexivity|].
  rewrite req_false by exact Q. unfold rdiv. rewrite req_true by reflexivity. reflexivity.
Qed.
Lemma almost_neg a e ma mr : e < 0 -> 0 <= mr -> assertAlmostEqual a e ma mr = Ret tt.
Proof.
  intros He Hm. unfold assertAlmostEqual. destruct (Req_EM_T a e) as [Q| Q]; [rewrite req_true by exact Q; reflexivity|].
  rewrite req_false by exact Q. rewrite rdiv_ok by lra. cbn [rbind]. rewrite (rle_true (Rabs (a - e) / e) mr).
  - rewrite orb_true_r. reflexivity.
  - assert (0 <= Rabs (a - e) * - / e); [|unfold Rdiv; lra]. apply Rmult_le_pos; [apply Rabs_pos|]. pose proof (Rinv_lt_0_compat e He). lra.
Qed.

(** ** the test of one quote *)
Lemma spec_execute_eq m amount y lo hi mg : (0 <= lo)%Q -> (0 <= hi)%Q -> (0 <= mg)%Q ->
  spec_execute m amount (whole y lo hi mg) =
  match m with BySource => spec_source | ByTarget => spec_target end (IZR amount) (IZR y) (sqrt (Q2R lo)) (sqrt (Q2R mg)).
Proof.
  intros A B C. apply Qle_Rle in A, B, C. rewrite RMicromega.Q2R_0 in A, B, C. unfold spec_execute, spec_order, whole. cbn [t_lo t_hi t_mg t_liq].
  rewrite !rsqrt_ok by assumption. cbn [rbind]. rewrite Q2R_inject. destruct m; reflexivity.
Qed.

Lemma resolved_pos e v : resolved e v -> 0 < sqrt (Q2R v).
Proof.
  intros [R1 R2]. pose proof (sqrt_pos (Q2R v)) as P. destruct (Rle_lt_or_eq_dec _ _ P) as [H|H]; [exact H|]. rewrite <- H in R2. lra.
Qed.

Lemma trade_test_source y lo hi mg o x e :
  (0 < y)%Z -> (0 <= lo)%Q -> (lo <= mg)%Q -> (mg <= hi)%Q -> encodeOrder (inject_Z y) lo hi mg = Some o -> (0 < x)%Z ->
  sqrt (Q2R lo) * sqrt (Q2R mg) * IZR x <= IZR y -> e <= / 8 -> (lo == 0)%Q \/ resolved e lo -> resolved e mg ->
  source_in_range (denoted (o_A o)) (denoted (o_B o)) (o_y o) (o_z o) x -> IZR y + 3 < IZR (2 ^ 128) ->
  trade_test BySource x (whole y lo hi mg) 8 (14 * e) = Ret tt.
Proof.
  intros Hy Hlo Hmg Hhi HE Hx HX He RL RM HR H128.
  pose proof (source_upper y lo hi mg o Hy Hlo Hmg Hhi HE x ltac:(lia) HX) as U.
  pose proof (source_lower y lo hi mg o Hy Hlo Hmg Hhi HE x ltac:(lia) HX e He RL RM HR H128) as L.
  unfold trade_test, impl_execute, encode, whole. cbn [t_liq t_lo t_hi t_mg]. rewrite HE. cbn [rbind]. fold (whole y lo hi mg).
  rewrite spec_execute_eq by eauto using Qle_trans. unfold quote_by, spec_source.
  destruct (order_curve y lo hi mg o Hy Hlo Hmg Hhi HE) as (_ & _ & y1 & _ & ((b0 & bl) & lm & _) & _).
  apply IZR_lt in Hx. pose proof (resolved_pos _ _ RM) as m0.
  pose proof (fden (IZR x) (IZR y) (sqrt (Q2R lo)) (sqrt (Q2R mg)) ltac:(lra) ltac:(lra) ltac:(lra)) as D.
  rewrite rdiv_ok by lra. cbn [rbind]. fold (fout (IZR x) (IZR y) (sqrt (Q2R lo)) (sqrt (Q2R mg))).
  assert (FP : 0 < fout (IZR x) (IZR y) (sqrt (Q2R lo)) (sqrt (Q2R mg))).
  { unfold fout. apply Rmult_lt_0_compat; [|apply Rinv_0_lt_compat; assumption]. repeat apply Rmult_lt_0_compat; lra. }
  set (F := fout (IZR x) (IZR y) (sqrt (Q2R lo)) (sqrt (Q2R mg))) in *. set (i := IZR (tradeBySourceAmount x o)) in *.
  apply (almost_pos i F 8 (14 * e) FP). right. destruct (e_facts mg e RM) as [e0 e1].
  assert (eF : 0 <= e * F) by (apply Rmult_le_pos; lra).
  destruct (Rle_lt_dec (e * F) (4 / 7)) as [K|K].
  - left. apply Rabs_le. split; lra.
  - right. apply Rabs_le. split; lra.
Qed.

Lemma trade_test_target y lo hi mg o x e :
  (0 < y)%Z -> (0 <= lo)%Q -> (lo <= mg)%Q -> (mg <= hi)%Q -> encodeOrder (inject_Z y) lo hi mg = Some o -> (0 < x <= y)%Z -> (0 < denoted (o_B o))%Z ->
  e <= / 8 -> resolved e lo -> target_in_range (denoted (o_A o)) (denoted (o_B o)) (o_y o) (o_z o) ->
  2 * gin (IZR x) (IZR y) (sqrt (Q2R lo)) (sqrt (Q2R mg)) < IZR (2 ^ 128 - 4) -> tradeByTargetAmount x o <> (2 ^ 128 - 1)%Z ->
  trade_test ByTarget x (whole y lo hi mg) 8 (16 * e + 2 / IZR y) = Ret tt.
Proof.
  intros Hy Hlo Hmg Hhi HE Hx HB He RL HR H2 HN.
  pose proof (target_lower y lo hi mg o Hy Hlo Hmg Hhi HE x Hx HB HN) as L.
  pose proof (target_upper y lo hi mg o Hy Hlo Hmg Hhi HE x Hx HB e He RL HR H2) as U.
  unfold trade_test, impl_execute, encode, whole. cbn [t_liq t_lo t_hi t_mg]. rewrite HE. cbn [rbind]. fold (whole y lo hi mg).
  rewrite spec_execute_eq by eauto using Qle_trans. unfold quote_by, spec_target.
  destruct (order_curve y lo hi mg o Hy Hlo Hmg Hhi HE) as (_ & _ & y1 & _ & ((b0 & bl) & lm & _) & _).
  pose proof (resolved_pos _ _ RL) as l0. assert (XB : 0 < IZR x <= IZR y) by (split; [apply IZR_lt|apply IZR_le]; lia).
  pose proof (gden (IZR x) (IZR y) (sqrt (Q2R lo)) (sqrt (Q2R mg)) XB ltac:(lra)) as D.
  pose proof (gin_pos (IZR x) (IZR y) (sqrt (Q2R lo)) (sqrt (Q2R mg)) XB ltac:(lra)) as GP.
  rewrite rdiv_ok by lra. cbn [rbind]. fold (gin (IZR x) (IZR y) (sqrt (Q2R lo)) (sqrt (Q2R mg))).
  set (G := gin (IZR x) (IZR y) (sqrt (Q2R lo)) (sqrt (Q2R mg))) in *. set (i := IZR (tradeByTargetAmount x o)) in *. set (Y := IZR y) in *. clearbody G i Y.
  apply (almost_pos i G 8 (16 * e + 2 / Y) GP). right. destruct (e_facts lo e RL) as [e0 e1].
  assert (eG : 0 <= e * G) by (apply Rmult_le_pos; lra).
  assert (IY : 0 < / Y) by (apply Rinv_0_lt_compat; lra).
  assert (YG : 0 <= 2 / Y * G) by (apply Rmult_le_pos; [unfold Rdiv; apply Rmult_le_pos|]; lra).
  assert (LL : G - i <= 2 / Y * G).
  { destruct (Rle_lt_dec i 0) as [N|N].
    { exfalso. assert (0 < G * Y * Y) by (repeat apply Rmult_lt_0_compat; lra). assert (0 <= - i * (Y + 1) * (Y + 1)) by (repeat apply Rmult_le_pos; lra). lra. }
    apply Rmult_le_reg_r with (Y * Y); [apply Rmult_lt_0_compat; lra|].
    replace (2 / Y * G * (Y * Y)) with (2 * Y * G) by (field; lra).
    destruct (Rle_lt_dec G i) as [K|K].
    - assert (0 <= 2 * Y * G) by (repeat apply Rmult_le_pos; lra). assert (0 <= (i - G) * (Y * Y)) by (repeat apply Rmult_le_pos; lra). lra.
    - assert (Q1 : 0 <= (G - i) * (2 * Y + 1)) by (apply Rmult_le_pos; lra).
      assert (Q2 : (G - i) * (Y * Y) <= i * (2 * Y + 1)) by (replace (i * (Y + 1) * (Y + 1)) with (i * (Y * Y) + i * (2 * Y + 1)) in L by ring; lra).
      assert (Q3 : (G - i) * ((Y + 1) * (Y + 1)) <= G * (2 * Y + 1)) by (replace ((G - i) * ((Y + 1) * (Y + 1))) with ((G - i) * (Y * Y) + (G - i) * (2 * Y + 1)) by ring; lra).
      apply Rmult_le_reg_r with ((Y + 1) * (Y + 1)); [apply Rmult_lt_0_compat; lra|].
      replace ((G - i) * (Y * Y) * ((Y + 1) * (Y + 1))) with (Y * Y * ((G - i) * ((Y + 1) * (Y + 1)))) by ring.
      apply Rle_trans with (Y * Y * (G * (2 * Y + 1))); [apply Rmult_le_compat_l; [apply Rmult_le_pos; lra|exact Q3]|].
      replace (2 * Y * G * ((Y + 1) * (Y + 1))) with (Y * G * (2 * ((Y + 1) * (Y + 1)))) by ring.
      replace (Y * Y * (G * (2 * Y + 1))) with (Y * G * (Y * (2 * Y + 1))) by ring. apply Rmult_le_compat_l; [apply Rmult_le_pos; lra|].
      assert (0 <= Y * Y) by (apply Rmult_le_pos; lra). lra. }
  destruct (Rle_lt_dec (e * G) (1 / 2)) as [K|K].
  - destruct (Rle_lt_dec G i) as [K2|K2].
    + left. apply Rabs_le. split; lra.
    + right. apply Rabs_le. split; lra.
  - right. apply Rabs_le. split; lra.
Qed.

(** past the end of the curve the expected amount is negative, and every answer is accepted *)
Lemma trade_test_past y lo hi mg o x ma mr :
  (0 < y)%Z -> (0 <= lo)%Q -> (lo <= mg)%Q -> (mg <= hi)%Q -> encodeOrder (inject_Z y) lo hi mg = Some o -> (0 < x)%Z ->
  0 < sqrt (Q2R mg) -> sqrt (Q2R mg) * IZR y < (sqrt (Q2R mg) - sqrt (Q2R lo)) * IZR x -> 0 <= mr ->
  trade_test ByTarget x (whole y lo hi mg) ma mr = Ret tt.
Proof.
  intros Hy Hlo Hmg Hhi HE Hx m0 HP Hm.
  unfold trade_test, impl_execute, encode, whole. cbn [t_liq t_lo t_hi t_mg]. rewrite HE. cbn [rbind]. fold (whole y lo hi mg).
  rewrite spec_execute_eq by eauto using Qle_trans. unfold quote_by, spec_target.
  set (l := sqrt (Q2R lo)) in *. set (m := sqrt (Q2R mg)) in *. apply IZR_lt in Hx, Hy.
  assert (D : m * (l - m) * IZR x + m * m * IZR y < 0).
  { replace (m * (l - m) * IZR x + m * m * IZR y) with (m * (m * IZR y - (m - l) * IZR x)) by ring.
    assert (0 < m * ((m - l) * IZR x - m * IZR y)) by (apply Rmult_lt_0_compat; lra). lra. }
  rewrite rdiv_ok by lra. cbn [rbind]. apply almost_neg; [|exact Hm].
  assert (0 < IZR x * IZR y * - / (m * (l - m) * IZR x + m * m * IZR y)); [|unfold Rdiv; lra].
  apply Rmult_lt_0_compat; [apply Rmult_lt_0_compat; lra|]. pose proof (Rinv_lt_0_compat _ D). lra.
Qed.
