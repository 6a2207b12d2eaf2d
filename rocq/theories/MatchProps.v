(** Properties C08-C11, C59 and C65: matching a requested amount against a book of
    integer orders (benchmark/core/match). Proofs are in MatchProofs*.v. *)
From Coq Require Import ZArith QArith List Permutation.
From Verif Require Import TradeModel TradeSpec TradeProps MatchModel MatchSpec MatchProofs MatchProofs2 MatchProofs3.
Import ListNotations.
Local Open Scope Z_scope.

(** A book for the examples: two curved orders, one flat order, one empty order. *)
Definition ex_book : list order :=
  [ex_order; mkOrder (10 ^ 17) (10 ^ 18) (2 ^ 41) (encodeFloat (2 ^ 48)); mkOrder 1000 1000 0 (encodeFloat (2 ^ 48)); mkOrder 0 0 0 0].
Lemma ex_book_nonneg : nonneg_book ex_book.
Proof. repeat constructor; discriminate. Qed.

(** C08: greedy matching by source. For every permutation-producing sort the call
    succeeds; the used orders are distinct and exist; every action has positive input and
    output, pays out at most the order's liquidity and at most the integer quote of its
    input; the inputs sum to at most the request. If they sum to less, then every order
    with a positive quote is used in full or the remainder buys nothing from some order. *)
Theorem C08_fast_by_source : forall (sort : sorter) orders amount,
  (forall c l, Permutation (sort c l) l) -> nonneg_book orders -> 0 <= amount ->
  exists acts, matchBySourceFast sort amount orders = Some acts /\
    NoDup (map a_id acts) /\ 0 <= total_in acts <= amount /\
    (forall a, In a acts -> 0 < a_input a /\ 0 < a_output a /\
       exists o, nth_error orders (a_id a) = Some o /\
         a_output a <= o_y o /\ a_output a <= tradeBySourceAmount (a_input a) o) /\
    (total_in acts < amount ->
       (forall i o r, nth_error orders i = Some o -> rateBySourceAmount amount o = Some r ->
          0 < r_input r -> 0 < r_output r -> In (mkAction i (r_input r) (r_output r)) acts) \/
       (exists i o r, nth_error orders i = Some o /\
          rateBySourceAmount (amount - total_in acts) o = Some r /\ r_output r <= 0)).
Proof. exact fast_by_source. Qed.
Print Assumptions C08_fast_by_source.

(** C08, by target: here "input" is the amount taken from the order. *)
Theorem C08_fast_by_target : forall (sort : sorter) orders amount,
  (forall c l, Permutation (sort c l) l) -> 0 <= amount ->
  exists acts, matchByTargetFast sort amount orders = Some acts /\
    NoDup (map a_id acts) /\ 0 <= total_in acts <= amount /\
    (forall a, In a acts -> 0 < a_input a /\ 0 < a_output a /\
       exists o, nth_error orders (a_id a) = Some o /\
         a_input a <= o_y o /\ a_output a = tradeByTargetAmount (a_input a) o) /\
    (total_in acts < amount ->
       (forall i o r, nth_error orders i = Some o -> rateByTargetAmount amount o = Some r ->
          0 < r_input r -> 0 < r_output r -> In (mkAction i (r_input r) (r_output r)) acts) \/
       (exists i o r, nth_error orders i = Some o /\
          rateByTargetAmount (amount - total_in acts) o = Some r /\ r_output r <= 0)).
Proof. exact fast_by_target. Qed.
Print Assumptions C08_fast_by_target.

Example C08_case :
  (forall c l, Permutation (isort c l) l) /\ nonneg_book ex_book /\
  option_map (map a_id) (matchBySourceFast isort (3 * 10 ^ 17) ex_book) = Some [1; 2; 0]%nat /\
  option_map total_in (matchBySourceFast isort (3 * 10 ^ 17) ex_book) = Some (3 * 10 ^ 17) /\
  option_map (map a_id) (matchByTargetFast isort (2 * 10 ^ 18) ex_book) = Some [1; 2; 0]%nat /\
  option_map total_in (matchByTargetFast isort (2 * 10 ^ 18) ex_book) = Some (1100000000000001000).
Proof. split; [exact isort_perm|]. split; [exact ex_book_nonneg|]. vm_compute. repeat split; reflexivity. Qed.

(** C09: the clamp terminates, pays at most the liquidity, reports the exact quote of the
    reported input, and reports the largest input up to the computed cap that fits. *)
Theorem C09_clamp : forall (o : order) (x : Z), nonneg_order o ->
  exists r, rateBySourceAmount x o = Some r /\
    r_output r <= o_y o /\
    r_output r = tradeBySourceAmount (r_input r) o /\
    ((tradeBySourceAmount x o <= o_y o /\ r_input r = x) \/
     (o_y o < tradeBySourceAmount x o /\ 0 <= r_input r <= tradeByTargetAmount (o_y o) o /\
      forall k, r_input r < k <= tradeByTargetAmount (o_y o) o -> o_y o < tradeBySourceAmount k o)).
Proof. exact rateBySource_spec. Qed.
Print Assumptions C09_clamp.

(** both cases occur; in the second the loop lowers the input from 1 to 0 *)
Example C09_case :
  nonneg_order ex_order /\
  rateBySourceAmount (10 ^ 17) ex_order = Some (mkRate (10 ^ 17) 25193224083484857) /\
  (let o := mkOrder 5 5 0 (encodeFloat (3 * 2 ^ 48)) in
   nonneg_order o /\ o_y o < tradeBySourceAmount 5 o /\ rateBySourceAmount 5 o = Some (mkRate 0 0)).
Proof. vm_compute. repeat split; try reflexivity; discriminate. Qed.

(** C10: the optimal matcher can overfill. Requesting 600 from a book that results from
    encoding two ordinary orders (liquidity, lowest, highest, marginal rate) makes it
    sell 1000. *)
Definition c10_rate (b : Z) : Q := (inject_Z (b * b) / inject_Z (2 ^ 96))%Q.
Theorem C10_overfill_refuted :
  exists l1 low1 high1 l2 low2 high2 o1 o2 amount acts,
    encodeOrder l1 low1 high1 high1 = Some o1 /\ encodeOrder l2 low2 high2 high2 = Some o2 /\
    nonneg_book [o1; o2] /\
    matchByTargetBest isort amount [o1; o2] = Some acts /\ amount < total_in acts.
Proof.
  exists 1000%Q, (c10_rate (2 ^ 20)), (c10_rate (2 ^ 20 + 2)), 1%Q, (c10_rate (2 ^ 20 + 1)), (c10_rate (2 ^ 20 + 1)).
  exists (mkOrder 1000 1000 2 (2 ^ 20)), (mkOrder 1 1 0 (2 ^ 20 + 1)), 600.
  eexists. split; [vm_compute; reflexivity|]. split; [vm_compute; reflexivity|].
  split; [repeat constructor; discriminate|]. split; vm_compute; reflexivity.
Qed.
Print Assumptions C10_overfill_refuted.

(** C10: the total before dropping non-positive rates never exceeds the request, so if no
    corrected input is negative the returned actions do not overfill. By target: *)
Theorem C10_bound_by_target : forall (sort : sorter) orders amount qs rates,
  (forall c l, Permutation (sort c l) l) -> orders <> [] ->
  quotes_of amount orders rateByTargetAmount = Some qs ->
  matchBestRates amount orders (sort sortByMaxRate qs) rateByTargetAmount equalizeByTargetAmount = Some rates ->
  sum_inputs rates <= amount /\
  ((forall r, In r rates -> 0 <= r_input r) ->
   forall acts, matchByTargetBest sort amount orders = Some acts -> total_in acts <= amount).
Proof. exact best_total_by_target. Qed.
Print Assumptions C10_bound_by_target.

(** By source, for orders whose full liquidity can be quoted without 256-bit overflow. *)
Theorem C10_bound_by_source : forall (sort : sorter) orders amount qs rates,
  (forall c l, Permutation (sort c l) l) -> orders <> [] ->
  Forall clamp_safe orders ->
  quotes_of amount orders rateBySourceAmount = Some qs ->
  matchBestRates amount orders (sort sortByMinRate qs) rateBySourceAmount equalizeBySourceAmount = Some rates ->
  sum_inputs rates <= amount /\
  ((forall r, In r rates -> 0 <= r_input r) ->
   forall acts, matchBySourceBest sort amount orders = Some acts -> total_in acts <= amount).
Proof. exact best_total_by_source. Qed.
Print Assumptions C10_bound_by_source.

Definition ex_book2 : list order := [ex_order; mkOrder (10 ^ 17) (10 ^ 18) (2 ^ 41) (encodeFloat (2 ^ 48))].
Example C10_case :
  Forall clamp_safe ex_book2 /\
  option_map total_in (matchBySourceBest isort (10 ^ 17) ex_book2) = Some (10 ^ 17) /\
  option_map (@length action) (matchBySourceBest isort (2 * 10 ^ 18) ex_book2) = Some 2%nat /\
  option_map total_in (matchByTargetBest isort (10 ^ 17) ex_book2) = Some (10 ^ 17).
Proof.
  split; [|vm_compute; repeat split; reflexivity].
  repeat constructor; try discriminate; right; vm_compute; repeat split; discriminate.
Qed.

(** C11: every action of the optimal matcher is a genuine quote; all loops terminate
    (the call never fails on a non-empty book); an empty book raises. *)
Theorem C11_best_by_source : forall (sort : sorter) orders amount,
  (forall c l, Permutation (sort c l) l) -> orders <> [] -> nonneg_book orders ->
  exists acts, matchBySourceBest sort amount orders = Some acts /\
    NoDup (map a_id acts) /\
    (forall a, In a acts -> 0 < a_input a /\ 0 < a_output a /\
       exists o, nth_error orders (a_id a) = Some o /\
         a_output a <= o_y o /\ a_output a = tradeBySourceAmount (a_input a) o).
Proof. exact best_by_source. Qed.
Print Assumptions C11_best_by_source.

Theorem C11_best_by_target : forall (sort : sorter) orders amount,
  (forall c l, Permutation (sort c l) l) -> orders <> [] ->
  exists acts, matchByTargetBest sort amount orders = Some acts /\
    NoDup (map a_id acts) /\
    (forall a, In a acts -> 0 < a_input a /\ 0 < a_output a /\
       exists o, nth_error orders (a_id a) = Some o /\
         a_input a <= o_y o /\ a_output a = tradeByTargetAmount (a_input a) o).
Proof. exact best_by_target. Qed.
Print Assumptions C11_best_by_target.

Theorem C11_best_empty_book : forall sort amount, (forall c l, Permutation (sort c l) l) ->
  matchBySourceBest sort amount [] = None /\ matchByTargetBest sort amount [] = None.
Proof. exact best_empty. Qed.
Print Assumptions C11_best_empty_book.

Example C11_case :
  option_map (map a_id) (matchBySourceBest isort (3 * 10 ^ 17) ex_book2) = Some [1; 0]%nat /\
  option_map (map a_id) (matchByTargetBest isort (2 * 10 ^ 17) ex_book2) = Some [1; 0]%nat.
Proof. vm_compute. split; reflexivity. Qed.

(** C59: greedy matching by source uses the orders with the best quoted rate first: an
    action never has a worse quote (for the whole request) than a later one, nor than an
    unused order. [isort] is the stable sort; for a total preorder Python's sort agrees. *)
Theorem C59_ranking_by_source : forall orders amount acts,
  (forall i r, quoted rateBySourceAmount orders amount i r -> 0 < r_input r) ->
  matchBySourceFast isort amount orders = Some acts ->
  (forall i j ra rb, (i < j)%nat ->
     (exists a, nth_error acts i = Some a /\ quoted rateBySourceAmount orders amount (a_id a) ra) ->
     (exists b, nth_error acts j = Some b /\ quoted rateBySourceAmount orders amount (a_id b) rb) ->
     (unit_rate rb <= unit_rate ra)%Q) /\
  (forall a k ra rk, In a acts -> quoted rateBySourceAmount orders amount (a_id a) ra ->
     ~ In k (map a_id acts) -> quoted rateBySourceAmount orders amount k rk -> 0 < r_output rk ->
     (unit_rate rk <= unit_rate ra)%Q).
Proof.
  intros orders amount acts.
  exact (fast_ranking sortByMinRate rateBySourceAmount orders amount acts
           (fun a b => (unit_rate b <= unit_rate a)%Q) sort_min_sorted).
Qed.
Print Assumptions C59_ranking_by_source.

(** By target the cheapest orders come first. *)
Theorem C59_ranking_by_target : forall orders amount acts,
  (forall i r, quoted rateByTargetAmount orders amount i r -> 0 < r_input r) ->
  matchByTargetFast isort amount orders = Some acts ->
  (forall i j ra rb, (i < j)%nat ->
     (exists a, nth_error acts i = Some a /\ quoted rateByTargetAmount orders amount (a_id a) ra) ->
     (exists b, nth_error acts j = Some b /\ quoted rateByTargetAmount orders amount (a_id b) rb) ->
     (unit_rate ra <= unit_rate rb)%Q) /\
  (forall a k ra rk, In a acts -> quoted rateByTargetAmount orders amount (a_id a) ra ->
     ~ In k (map a_id acts) -> quoted rateByTargetAmount orders amount k rk -> 0 < r_output rk ->
     (unit_rate ra <= unit_rate rk)%Q).
Proof.
  intros orders amount acts.
  exact (fast_ranking sortByMaxRate rateByTargetAmount orders amount acts
           (fun a b => (unit_rate a <= unit_rate b)%Q) sort_max_sorted).
Qed.
Print Assumptions C59_ranking_by_target.

Example C59_case :
  (forall i r, quoted rateBySourceAmount ex_book2 (10 ^ 17) i r -> 0 < r_input r) /\
  option_map (map a_id) (matchBySourceFast isort (10 ^ 18) ex_book2) = Some [1; 0]%nat.
Proof.
  split; [|vm_compute; reflexivity].
  intros i r (o & Eo & Er). destruct i as [|[|[|i]]]; try discriminate; injection Eo as <-;
    vm_compute in Er; injection Er as <-; reflexivity.
Qed.

(** C65: the limit of an order is its marginal rate, rounded down. *)
Theorem C65_limit_is_marginal_rate : forall o, 0 < o_z o ->
  let A := decodeFloat (o_A o) in let B := decodeFloat (o_B o) in
  o_z o * getLimit o <= o_y o * A + o_z o * B < o_z o * getLimit o + o_z o.
Proof. exact limit_floor. Qed.
Print Assumptions C65_limit_is_marginal_rate.
(** Taking the equalizing amount leaves the order at the limit: the marginal rate of the
    remaining liquidity is at least the limit, and would be below it after taking one more
    unit. A flat order is taken completely. *)
Theorem C65_equalize : forall o limit,
  let A := decodeFloat (o_A o) in let B := decodeFloat (o_B o) in
  let x := equalizeByTargetAmount o limit in
  equalizeBySourceAmount o limit = tradeByTargetAmount x o /\
  (0 < A -> o_z o * limit <= (o_y o - x) * A + o_z o * B /\ (o_y o - (x + 1)) * A + o_z o * B < o_z o * limit) /\
  (A <= 0 -> x = o_y o).
Proof.
  intros o limit. cbv zeta. split; [reflexivity|]. split; [|apply equalize_flat].
  intros HA. destruct (equalize_floor o limit HA) as [H1 H2]. split; [exact H1|].
  apply (Z.add_lt_mono_r _ _ (decodeFloat (o_A o))). eapply Z.le_lt_trans; [|exact H2]. apply Z.eq_le_incl. ring.
Qed.
Print Assumptions C65_equalize.
(** At its own limit an order gives (almost) nothing; lower limits take more. *)
Theorem C65_own_limit : forall o, 0 < o_z o -> 0 < decodeFloat (o_A o) ->
  let x := equalizeByTargetAmount o (getLimit o) in 0 <= x /\ x * decodeFloat (o_A o) < o_z o.
Proof. exact equalize_own. Qed.
Print Assumptions C65_own_limit.
Theorem C65_monotone : forall o limit limit', 0 <= o_z o -> limit' <= limit ->
  equalizeByTargetAmount o limit <= equalizeByTargetAmount o limit'.
Proof. exact equalize_mono. Qed.
Print Assumptions C65_monotone.
Example C65_case : 0 < o_z ex_order /\ 0 < decodeFloat (o_A ex_order) /\
  0 < equalizeByTargetAmount ex_order (getLimit ex_order - 10 ^ 11) < o_y ex_order.
Proof. vm_compute. repeat split. Qed.
