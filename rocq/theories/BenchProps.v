(** C156-C157: how exact encoded quotes are, the test of quotes, and greedy against optimal
    matching as the benchmark's own tests compare them. *)
From Coq Require Import Reals ZArith QArith Qreals Lra Lia List Bool Permutation.
From Verif Require Import CurveModel TradeModel TradeSpec MatchModel MatchSpec MatchProofs MatchProofs2 BenchModel BenchSpec
  BenchProofs BenchProofs2 BenchProofs3 BenchProofs4 BenchProofs5.
Import ListNotations.
Local Open Scope R_scope.

(** ** C156: quotes of encoded orders are close to the quotes of the curve asked for *)
(** What an encoded order pays out exceeds what its curve would pay by at most 3 units (for any
    prices, however coarsely they are stored). *)
Theorem C156_source_upper y lo hi mg o x :
  (0 < y)%Z -> (0 <= lo)%Q -> (lo <= mg)%Q -> (mg <= hi)%Q -> encodeOrder (inject_Z y) lo hi mg = Some o -> (0 <= x)%Z ->
  sqrt (Q2R lo) * sqrt (Q2R mg) * IZR x <= IZR y ->
  IZR (tradeBySourceAmount x o) <= curve_out (IZR x) (IZR y) (sqrt (Q2R lo)) (sqrt (Q2R mg)) + 3.
Proof. intros Hy Hlo Hmg Hhi HE Hx HX. exact (source_upper y lo hi mg o Hy Hlo Hmg Hhi HE x Hx HX). Qed.

(** It falls short of it by at most 4 units and seven times the precision of its prices. *)
Theorem C156_source_lower y lo hi mg o x e :
  (0 < y)%Z -> (0 <= lo)%Q -> (lo <= mg)%Q -> (mg <= hi)%Q -> encodeOrder (inject_Z y) lo hi mg = Some o -> (0 <= x)%Z ->
  sqrt (Q2R lo) * sqrt (Q2R mg) * IZR x <= IZR y -> e <= / 8 -> (lo == 0)%Q \/ resolved e lo -> resolved e mg ->
  source_in_range (denoted (o_A o)) (denoted (o_B o)) (o_y o) (o_z o) x -> IZR y + 3 < IZR (2 ^ 128) ->
  (1 - 7 * e) * curve_out (IZR x) (IZR y) (sqrt (Q2R lo)) (sqrt (Q2R mg)) - 4 < IZR (tradeBySourceAmount x o).
Proof. intros Hy Hlo Hmg Hhi HE Hx HX He RL RM HR H. exact (source_lower y lo hi mg o Hy Hlo Hmg Hhi HE x Hx HX e He RL RM HR H). Qed.

(** What it asks for is never less than the curve's price but for the factor (y/(y+1))². *)
Theorem C156_target_lower y lo hi mg o x :
  (0 < y)%Z -> (0 <= lo)%Q -> (lo <= mg)%Q -> (mg <= hi)%Q -> encodeOrder (inject_Z y) lo hi mg = Some o -> (0 < x <= y)%Z ->
  (0 < denoted (o_B o))%Z -> tradeByTargetAmount x o <> (2 ^ 128 - 1)%Z ->
  curve_in (IZR x) (IZR y) (sqrt (Q2R lo)) (sqrt (Q2R mg)) * IZR y * IZR y <= IZR (tradeByTargetAmount x o) * (IZR y + 1) * (IZR y + 1).
Proof. intros Hy Hlo Hmg Hhi HE Hx HB HN. exact (target_lower y lo hi mg o Hy Hlo Hmg Hhi HE x Hx HB HN). Qed.

(** It is more than the curve's price by less than 4 units and eight times the precision. *)
Theorem C156_target_upper y lo hi mg o x e :
  (0 < y)%Z -> (0 <= lo)%Q -> (lo <= mg)%Q -> (mg <= hi)%Q -> encodeOrder (inject_Z y) lo hi mg = Some o -> (0 < x <= y)%Z ->
  (0 < denoted (o_B o))%Z -> e <= / 8 -> resolved e lo ->
  target_in_range (denoted (o_A o)) (denoted (o_B o)) (o_y o) (o_z o) ->
  2 * curve_in (IZR x) (IZR y) (sqrt (Q2R lo)) (sqrt (Q2R mg)) < IZR (2 ^ 128 - 4) ->
  IZR (tradeByTargetAmount x o) < (1 + 8 * e) * curve_in (IZR x) (IZR y) (sqrt (Q2R lo)) (sqrt (Q2R mg)) + 4.
Proof. intros Hy Hlo Hmg Hhi HE Hx HB He RL HR H. exact (target_upper y lo hi mg o Hy Hlo Hmg Hhi HE x Hx HB e He RL HR H). Qed.

(** So the benchmark's test of a quote passes for all such orders and amounts. *)
Theorem C156_source_accepted y lo hi mg o x e :
  (0 < y)%Z -> (0 <= lo)%Q -> (lo <= mg)%Q -> (mg <= hi)%Q -> encodeOrder (inject_Z y) lo hi mg = Some o -> (0 < x)%Z ->
  sqrt (Q2R lo) * sqrt (Q2R mg) * IZR x <= IZR y -> e <= / 8 -> (lo == 0)%Q \/ resolved e lo -> resolved e mg ->
  source_in_range (denoted (o_A o)) (denoted (o_B o)) (o_y o) (o_z o) x -> IZR y + 3 < IZR (2 ^ 128) ->
  trade_test BySource x (whole y lo hi mg) 8 (14 * e) = Ret tt.
Proof. exact (trade_test_source y lo hi mg o x e). Qed.
Theorem C156_target_accepted y lo hi mg o x e :
  (0 < y)%Z -> (0 <= lo)%Q -> (lo <= mg)%Q -> (mg <= hi)%Q -> encodeOrder (inject_Z y) lo hi mg = Some o -> (0 < x <= y)%Z -> (0 < denoted (o_B o))%Z ->
  e <= / 8 -> resolved e lo -> target_in_range (denoted (o_A o)) (denoted (o_B o)) (o_y o) (o_z o) ->
  2 * curve_in (IZR x) (IZR y) (sqrt (Q2R lo)) (sqrt (Q2R mg)) < IZR (2 ^ 128 - 4) -> tradeByTargetAmount x o <> (2 ^ 128 - 1)%Z ->
  trade_test ByTarget x (whole y lo hi mg) 8 (16 * e + 2 / IZR y) = Ret tt.
Proof. exact (trade_test_target y lo hi mg o x e). Qed.

(** What the test accepts. *)
Theorem C156_accepts_iff actual expected maxAbs maxRel : 0 < expected ->
  (assertAlmostEqual actual expected maxAbs maxRel = Ret tt <-> actual = expected \/ Rabs (actual - expected) <= maxAbs \/ Rabs (actual - expected) <= maxRel * expected) /\
  (assertAlmostEqual actual expected maxAbs maxRel = Ret tt \/ assertAlmostEqual actual expected maxAbs maxRel = Raise AssertionError).
Proof. exact (almost_pos actual expected maxAbs maxRel). Qed.
Theorem C156_accepts_zero actual maxAbs maxRel :
  assertAlmostEqual actual 0 maxAbs maxRel = (if Req_EM_T actual 0 then Ret tt else Raise ZeroDivision).
Proof. exact (almost_zero actual maxAbs maxRel). Qed.
Theorem C156_accepts_negative actual expected maxAbs maxRel : expected < 0 -> 0 <= maxRel -> assertAlmostEqual actual expected maxAbs maxRel = Ret tt.
Proof. exact (almost_neg actual expected maxAbs maxRel). Qed.
(** For targets behind the pole of the curve, where no input suffices, the expected amount is
    negative and the test passes whatever the quote is. *)
Theorem C156_past_accepted y lo hi mg o x maxAbs maxRel :
  (0 < y)%Z -> (0 <= lo)%Q -> (lo <= mg)%Q -> (mg <= hi)%Q -> encodeOrder (inject_Z y) lo hi mg = Some o -> (0 < x)%Z ->
  0 < sqrt (Q2R mg) -> sqrt (Q2R mg) * IZR y < (sqrt (Q2R mg) - sqrt (Q2R lo)) * IZR x -> 0 <= maxRel ->
  trade_test ByTarget x (whole y lo hi mg) maxAbs maxRel = Ret tt.
Proof. exact (trade_test_past y lo hi mg o x maxAbs maxRel). Qed.

Lemma sqrt_four : sqrt (Q2R 4) = 2.
Proof. replace (Q2R 4) with (2 * 2) by (unfold Q2R; cbn; field). apply sqrt_square. lra. Qed.
Lemma sqrt_one : sqrt (Q2R 1) = 1.
Proof. replace (Q2R 1) with 1 by (unfold Q2R; cbn; field). exact sqrt_1. Qed.
Lemma resolved_40 v : 1 <= sqrt (Q2R v) -> resolved (/ IZR (2 ^ 40)) v.
Proof.
  intros H. split; [apply Rinv_le_contravar; [apply IZR_lt; reflexivity|apply IZR_le; discriminate]|].
  change (IZR (2 ^ 48)) with (IZR (256 * 2 ^ 40)). rewrite mult_IZR.
  assert (P : 0 < IZR (2 ^ 40)) by (apply IZR_lt; reflexivity).
  replace (/ IZR (2 ^ 40) * (sqrt (Q2R v) * (256 * IZR (2 ^ 40)))) with (256 * sqrt (Q2R v)) by (field; lra). lra.
Qed.
(** an order over 10^18 tokens from price 4 down to 1: half of it, both ways; and the largest
    number of the machine passes as the price of 201 out of 100 tokens *)
Definition order18 : order := mkOrder (10 ^ 18) (10 ^ 18) (encodeFloat (2 ^ 48)) (encodeFloat (2 ^ 48)).
Lemma order18_is : encodeOrder (inject_Z (10 ^ 18)) 1 4 4 = Some order18.
Proof. vm_compute. reflexivity. Qed.
Example C156_ex :
  trade_test BySource (10 ^ 17) (whole (10 ^ 18) 1 4 4) 8 (14 * / IZR (2 ^ 40)) = Ret tt /\
  trade_test ByTarget (5 * 10 ^ 17) (whole (10 ^ 18) 1 4 4) 8 (16 * / IZR (2 ^ 40) + 2 / IZR (10 ^ 18)) = Ret tt.
Proof.
  assert (E8 : / IZR (2 ^ 40) <= / 8) by (apply Rinv_le_contravar; [lra|apply IZR_le; discriminate]).
  split.
  - apply (C156_source_accepted (10 ^ 18) 1 4 4 order18 (10 ^ 17) (/ IZR (2 ^ 40)) ltac:(lia) ltac:(discriminate) ltac:(discriminate) ltac:(discriminate) order18_is ltac:(lia)).
    + rewrite sqrt_one, sqrt_four. rewrite Rmult_1_l. rewrite <- mult_IZR. apply IZR_le. vm_compute. discriminate.
    + exact E8.
    + right. apply resolved_40. rewrite sqrt_one. lra.
    + apply resolved_40. rewrite sqrt_four. lra.
    + right. repeat split; vm_compute; reflexivity.
    + rewrite <- plus_IZR. apply IZR_lt. reflexivity.
  - apply (C156_target_accepted (10 ^ 18) 1 4 4 order18 (5 * 10 ^ 17) (/ IZR (2 ^ 40)) ltac:(lia) ltac:(discriminate) ltac:(discriminate) ltac:(discriminate) order18_is ltac:(lia)).
    + vm_compute. reflexivity.
    + exact E8.
    + apply resolved_40. rewrite sqrt_one. lra.
    + right. repeat split; vm_compute; reflexivity.
    + rewrite sqrt_one, sqrt_four. unfold curve_in. set (t := IZR (10 ^ 17)). assert (T0 : 0 < t) by (apply IZR_lt; reflexivity).
      replace (IZR (5 * 10 ^ 17)) with (5 * t) by (unfold t; rewrite <- mult_IZR; reflexivity). replace (IZR (10 ^ 18)) with (10 * t) by (unfold t; rewrite <- mult_IZR; reflexivity).
      assert (T1 : 4 * t < IZR (2 ^ 128 - 4)) by (unfold t; rewrite <- mult_IZR; apply IZR_lt; reflexivity). clearbody t.
      replace (2 * (5 * t * (10 * t) / (2 * (1 - 2) * (5 * t) + 2 * 2 * (10 * t)))) with (10 / 3 * t) by (field; lra). lra.
    + intros H. apply (f_equal (fun z => (z <? 2 ^ 100)%Z)) in H. vm_compute in H. discriminate.
Qed.
Definition order100 : order := mkOrder 100 100 (encodeFloat (2 ^ 48)) (encodeFloat (2 ^ 48)).
Lemma order100_is : encodeOrder (inject_Z 100) 1 4 4 = Some order100.
Proof. vm_compute. reflexivity. Qed.
Theorem C156_past_refuted :
  exists o, encodeOrder (inject_Z 100) 1 4 4 = Some o /\ tradeByTargetAmount 201 o = (2 ^ 128 - 1)%Z /\
  trade_test ByTarget 201 (whole 100 1 4 4) 0 0 = Ret tt.
Proof.
  exists order100. split; [exact order100_is|]. split; [vm_compute; reflexivity|].
  apply (C156_past_accepted 100 1 4 4 order100 201 0 0 ltac:(lia) ltac:(discriminate) ltac:(discriminate) ltac:(discriminate) order100_is ltac:(lia)).
  - rewrite sqrt_four. lra.
  - rewrite sqrt_one, sqrt_four. lra.
  - lra.
Qed.
Print Assumptions C156_source_upper.
Print Assumptions C156_source_lower.
Print Assumptions C156_target_lower.
Print Assumptions C156_target_upper.
Print Assumptions C156_source_accepted.
Print Assumptions C156_target_accepted.
Print Assumptions C156_accepts_iff.
Print Assumptions C156_accepts_zero.
Print Assumptions C156_accepts_negative.
Print Assumptions C156_past_accepted.
Print Assumptions C156_past_refuted.

(** ** C157: greedy and optimal matching *)
Local Open Scope Z_scope.
(** With one order both matchings are the one trade the order allows. *)
Theorem C157_single_target (sort : sorter) o amount : (forall c l, Permutation (sort c l) l) ->
  let x := Z.min amount (o_y o) in let out := tradeByTargetAmount x o in
  let acts := if (0 <? x) && (0 <? out) then [mkAction 0 x out] else [] in
  matchByTargetFast sort amount [o] = Some acts /\ matchByTargetBest sort amount [o] = Some acts.
Proof. exact (single_target sort o amount). Qed.
Theorem C157_single_source (sort : sorter) o amount : (forall c l, Permutation (sort c l) l) -> clamp_safe o ->
  exists r, rateBySourceAmount amount o = Some r /\
  let acts := if (0 <? r_input r) && (0 <? r_output r) then [mkAction 0 (r_input r) (r_output r)] else [] in
  matchBySourceFast sort amount [o] = Some acts /\ matchBySourceBest sort amount [o] = Some acts.
Proof. exact (single_source sort o amount). Qed.
(** With orders of fixed prices both matchings by target are the same. *)
Theorem C157_fixed_prices (sort : sorter) orders amount : (forall c l, Permutation (sort c l) l) -> orders <> [] -> Forall fixed orders -> 0 < amount ->
  matchByTargetBest sort amount orders = matchByTargetFast sort amount orders.
Proof. exact (fixed_same sort orders amount). Qed.

(** The test of matchings: every action of the optimal matching passes; by target everything
    passes for the greedy matching, by source its total and its liquidity do. *)
Theorem C157_best_actions (sort : sorter) m amount os f b : (forall c l, Permutation (sort c l) l) -> os <> [] -> Forall sane os ->
  match_execute sort m amount os = Ret (f, b) -> check_actions m os b = Ret tt.
Proof. exact (best_checks sort m amount os f b). Qed.
Theorem C157_fast_by_target (sort : sorter) amount os f b : (forall c l, Permutation (sort c l) l) -> 0 <= amount ->
  match_execute sort ByTarget amount os = Ret (f, b) -> check_matching ByTarget amount os f = Ret tt.
Proof. exact (fast_checks sort amount os f b). Qed.
Theorem C157_fast_by_source (sort : sorter) amount os f b : (forall c l, Permutation (sort c l) l) -> 0 <= amount -> Forall sane os ->
  match_execute sort BySource amount os = Ret (f, b) ->
  total_in f <= amount /\ forall a, In a f -> exists o q, nth_error os (a_id a) = Some o /\ a_output a <= liquidity o /\ impl_execute BySource (a_input a) o = Ret q /\ a_output a <= q.
Proof. exact (fast_checks_source sort amount os f b). Qed.
(** The whole test passes for books of one order and of fixed prices, by target, unless nothing
    is matched: then it raises ValueError. *)
Theorem C157_single_test (sort : sorter) amount o e : (forall c l, Permutation (sort c l) l) -> 0 <= amount -> encode o = Some e ->
  match_test sort ByTarget amount [o] =
  if (0 <? Z.min amount (liquidity o)) && (0 <? tradeByTargetAmount (Z.min amount (liquidity o)) e) then Ret tt else Raise ValueError.
Proof. exact (single_test sort amount o e). Qed.
Theorem C157_fixed_test (sort : sorter) amount os es : (forall c l, Permutation (sort c l) l) -> 0 < amount -> os <> [] -> mapM encode os = Some es -> Forall fixed es ->
  exists f, match_execute sort ByTarget amount os = Ret (f, f) /\ match_test sort ByTarget amount os = match f with [] => Raise ValueError | _ => Ret tt end.
Proof. exact (fixed_test sort amount os es). Qed.

(** Optimal matching is not optimal: for less than half a token it pays out less than greedy
    matching, out of the same two orders. *)
Definition book_less : list text_order :=
  [whole 348555155673543657 (79#100) (53#50) (53#50); whole 215866286077952483 (103#100) (6#5) (6#5); whole 648605110245530120 (103#100) (26#25) (26#25)].
Theorem C157_best_pays_less_refuted :
  match_execute isort BySource 423993160926588712 book_less =
    Ret ([mkAction 1 194167073207671162 215866286077952483; mkAction 2 229826087718917550 238595391897385004],
         [mkAction 1 156534847478891715 176544661716249091; mkAction 2 267458313447696997 277582944097351437]) /\
  176544661716249091 + 277582944097351437 < 215866286077952483 + 238595391897385004 /\
  match_test isort BySource 423993160926588712 book_less = Raise AssertionError.
Proof. split; [vm_compute; reflexivity|]. split; [reflexivity|vm_compute; reflexivity]. Qed.
(** It can use more than the amount it was given: by target 18% more, by source three times as
    much. *)
Definition book_over_target : list text_order :=
  [whole 759311380805776886 (43#50) (119#100) (119#100); whole 521741088220608020 (123#100) (167#100) (167#100); whole 380172407681502852 (26#25) (11#10) (529#500)].
Definition book_over_source : list text_order :=
  [whole 313579167899716785 (109#100) (127#100) (59#50); whole 652874939403139969 1 (123#100) (148#125); whole 23876403710558628 (109#100) (71#50) (1189#1000)].
Theorem C157_overfill_refuted :
  (exists f b, match_execute isort ByTarget 673076364527479084 book_over_target = Ret (f, b) /\ 673076364527479084 < total_in b /\ total_in f <= 673076364527479084) /\
  match_test isort ByTarget 673076364527479084 book_over_target = Raise AssertionError /\
  (exists f, match_execute isort BySource 201199403155888796 book_over_source = Ret (f, [mkAction 1 600004002309747789 652874939403139969])) /\
  match_test isort BySource 201199403155888796 book_over_source = Raise AssertionError.
Proof.
  split; [|split; [vm_compute; reflexivity|split; [|vm_compute; reflexivity]]].
  - eexists. eexists. split; [vm_compute; reflexivity|]. split; [reflexivity|vm_compute; discriminate].
  - eexists. vm_compute. reflexivity.
Qed.
(** It can find nothing although greedy matching does; the test then fails with ValueError. *)
Theorem C157_nothing_refuted :
  let book := [whole 1 (81#100) (119#100) (144#125); whole 82 (79#100) (24#25) (24#25)] in
  (exists f, match_execute isort BySource 1 book = Ret (f, [])) /\ match_test isort BySource 1 book = Raise ValueError.
Proof. split; [eexists|]; vm_compute; reflexivity. Qed.

(** two fixed prices and one order by target; one order by source *)
Example C157_ex :
  match_test isort ByTarget 150 [whole 100 (1#4) (1#4) (1#4); whole 100 1 1 1] = Ret tt /\
  match_execute isort ByTarget 150 [whole 100 (1#4) (1#4) (1#4); whole 100 1 1 1] = Ret ([mkAction 1 100 100; mkAction 0 50 200], [mkAction 1 100 100; mkAction 0 50 200]) /\
  match_test isort ByTarget 60 [whole 100 1 4 4] = Ret tt /\ match_test isort BySource 20 [whole 100 1 4 4] = Ret tt /\
  match_test isort ByTarget 60 [whole 0 1 4 4] = Raise ValueError.
Proof. repeat split; vm_compute; reflexivity. Qed.
Example C157_fixed_ex : exists e1 e2, mapM encode [whole 100 (1#4) (1#4) (1#4); whole 100 1 1 1] = Some [e1; e2] /\ Forall fixed [e1; e2].
Proof.
  eexists. eexists. split; [vm_compute; reflexivity|]. repeat constructor; try (vm_compute; reflexivity); try (vm_compute; discriminate).
Qed.
Print Assumptions C157_single_target.
Print Assumptions C157_single_source.
Print Assumptions C157_fixed_prices.
Print Assumptions C157_best_actions.
Print Assumptions C157_fast_by_target.
Print Assumptions C157_fast_by_source.
Print Assumptions C157_single_test.
Print Assumptions C157_fixed_test.
Print Assumptions C157_best_pays_less_refuted.
Print Assumptions C157_overfill_refuted.
Print Assumptions C157_nothing_refuted.
