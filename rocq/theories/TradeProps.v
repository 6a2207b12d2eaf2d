(** Properties C01-C07, C138: integer trade functions and order encoding
    (benchmark/core/trade). Only statements; proofs are in TradeProofs*.v. *)
From Coq Require Import ZArith QArith Qround.
From Verif Require Import TradeModel TradeSpec TradeProofs TradeProofs2 TradeProofs3 TradeProofs4.
Local Open Scope Z_scope.

(** A concrete order used in the examples: y = 10^18, z = 2*10^18,
    A denotes 2^40, B denotes 2^47 (all below the rescaling limit), and a huge one
    whose products overflow 256 bits. *)
Definition ex_order : order := mkOrder (10 ^ 18) (2 * 10 ^ 18) (2 ^ 40) (2 ^ 47).
Definition ex_huge : order := mkOrder (2 ^ 120) (2 ^ 121) (encodeFloat (2 ^ 60)) (encodeFloat (2 ^ 61)).
Definition ex_flat : order := mkOrder 1000 1000 0 (2 ^ 48).

(** C01: for a non-negative amount the by-source quote never exceeds the exact curve. *)
Theorem C01_by_source_never_overpays : forall (o : order) (x : Z),
  nonneg_order o -> 0 <= x ->
  (inject_Z (tradeBySourceAmount x o) <=
   exact_out (fix48 (denoted (o_A o))) (fix48 (denoted (o_B o)))
             (inject_Z (o_y o)) (inject_Z (o_z o)) (inject_Z x))%Q.
Proof. exact by_source_never_overpays. Qed.
Print Assumptions C01_by_source_never_overpays.

(** C01, negative amounts: nothing is paid out. *)
Theorem C01_by_source_negative : forall (o : order) (x : Z),
  nonneg_order o -> x < 0 -> tradeBySourceAmount x o = 0.
Proof. exact by_source_negative. Qed.
Print Assumptions C01_by_source_negative.

Example C01_case : nonneg_order ex_order /\ tradeBySourceAmount (10 ^ 17) ex_order = 25193224083484857.
Proof. split; [repeat split; discriminate|vm_compute; reflexivity]. Qed.
(** the rescaling branch *)
Example C01_case_huge : nonneg_order ex_huge /\ 0 < tradeBySourceAmount (2 ^ 60) ex_huge.
Proof. split; [repeat split; discriminate|vm_compute; reflexivity]. Qed.

(** C02 *)
Theorem C02_by_target_never_undercharges : forall (o : order) (x : Z),
  nonneg_order o ->
  tradeByTargetAmount x o <> 2 ^ 128 - 1 ->
  deliverable (denoted (o_A o)) (denoted (o_B o)) (o_y o) (o_z o) x /\
  (exact_in (fix48 (denoted (o_A o))) (fix48 (denoted (o_B o)))
            (inject_Z (o_y o)) (inject_Z (o_z o)) (inject_Z x)
   <= inject_Z (tradeByTargetAmount x o))%Q.
Proof. exact by_target_never_undercharges. Qed.
Print Assumptions C02_by_target_never_undercharges.

Example C02_case : nonneg_order ex_order /\ tradeByTargetAmount (10 ^ 17) ex_order <> 2 ^ 128 - 1
  /\ 0 < tradeByTargetAmount (10 ^ 17) ex_order.
Proof. split; [repeat split; discriminate|vm_compute; split; [discriminate|reflexivity]]. Qed.
Example C02_case_huge : tradeByTargetAmount (2 ^ 100) ex_huge <> 2 ^ 128 - 1.
Proof. vm_compute. discriminate. Qed.

(** C03: no hypothesis at all on the order or the amount. *)
Theorem C03_by_source_range : forall x o, 0 <= tradeBySourceAmount x o <= 2 ^ 128 - 1.
Proof. exact by_source_range. Qed.
Print Assumptions C03_by_source_range.
Theorem C03_by_target_range : forall x o, 0 <= tradeByTargetAmount x o <= 2 ^ 128 - 1.
Proof. exact by_target_range. Qed.
Print Assumptions C03_by_target_range.

(** degenerate order: division by zero inside, absorbed by the fall-back values *)
Example C03_case : tradeBySourceAmount 5 (mkOrder 0 0 0 0) = 0 /\ tradeByTargetAmount 5 (mkOrder 0 0 0 0) = 2 ^ 128 - 1.
Proof. split; vm_compute; reflexivity. Qed.

(** C04 *)
Theorem C04_by_source_exact_floor : forall (o : order) (x v : Z),
  nonneg_order o -> 0 <= x ->
  source_fits (denoted (o_A o)) (denoted (o_B o)) (o_y o) (o_z o) x ->
  is_floor (exact_out (fix48 (denoted (o_A o))) (fix48 (denoted (o_B o)))
                      (inject_Z (o_y o)) (inject_Z (o_z o)) (inject_Z x)) v ->
  v < 2 ^ 128 ->
  tradeBySourceAmount x o = v.
Proof. exact by_source_exact_floor. Qed.
Print Assumptions C04_by_source_exact_floor.

Theorem C04_by_target_exact_ceil : forall (o : order) (x v : Z),
  nonneg_order o -> 0 <= x ->
  target_fits (denoted (o_A o)) (denoted (o_B o)) (o_y o) (o_z o) ->
  deliverable (denoted (o_A o)) (denoted (o_B o)) (o_y o) (o_z o) x ->
  is_ceil (exact_in (fix48 (denoted (o_A o))) (fix48 (denoted (o_B o)))
                    (inject_Z (o_y o)) (inject_Z (o_z o)) (inject_Z x)) v ->
  v < 2 ^ 128 ->
  tradeByTargetAmount x o = v.
Proof. exact by_target_exact_ceil. Qed.
Print Assumptions C04_by_target_exact_ceil.

Theorem C04_by_source_monotone : forall (o : order) (x1 x2 : Z),
  nonneg_order o -> 0 <= x1 <= x2 ->
  source_fits (denoted (o_A o)) (denoted (o_B o)) (o_y o) (o_z o) x2 ->
  (exact_out (fix48 (denoted (o_A o))) (fix48 (denoted (o_B o)))
             (inject_Z (o_y o)) (inject_Z (o_z o)) (inject_Z x2) < inject_Z (2 ^ 128))%Q ->
  tradeBySourceAmount x1 o <= tradeBySourceAmount x2 o.
Proof. exact by_source_monotone. Qed.
Print Assumptions C04_by_source_monotone.

Theorem C04_no_round_trip_profit : forall (o : order) (x : Z),
  nonneg_order o -> 0 <= x ->
  target_fits (denoted (o_A o)) (denoted (o_B o)) (o_y o) (o_z o) ->
  0 < o_z o -> 0 < o_y o * denoted (o_A o) + o_z o * denoted (o_B o) ->
  tradeByTargetAmount (tradeBySourceAmount x o) o <= x.
Proof. exact no_round_trip_profit. Qed.
Print Assumptions C04_no_round_trip_profit.

(** Paying the by-target quote delivers at least the requested amount. *)
Theorem C04_quoted_price_is_enough : forall (o : order) (x : Z),
  nonneg_order o -> 0 <= x ->
  tradeByTargetAmount x o <> 2 ^ 128 - 1 ->
  source_fits (denoted (o_A o)) (denoted (o_B o)) (o_y o) (o_z o) (tradeByTargetAmount x o) ->
  (exact_out (fix48 (denoted (o_A o))) (fix48 (denoted (o_B o)))
             (inject_Z (o_y o)) (inject_Z (o_z o)) (inject_Z (tradeByTargetAmount x o)) < inject_Z (2 ^ 128))%Q ->
  0 < o_z o ->
  x <= tradeBySourceAmount (tradeByTargetAmount x o) o.
Proof. exact quoted_price_is_enough. Qed.
Print Assumptions C04_quoted_price_is_enough.

Definition ex_small : order := mkOrder 1000000 2000000 (2 ^ 40) (2 ^ 47).
Example C04_case :
  nonneg_order ex_small
  /\ source_fits (denoted (o_A ex_small)) (denoted (o_B ex_small)) (o_y ex_small) (o_z ex_small) 5000
  /\ target_fits (denoted (o_A ex_small)) (denoted (o_B ex_small)) (o_y ex_small) (o_z ex_small)
  /\ deliverable (denoted (o_A ex_small)) (denoted (o_B ex_small)) (o_y ex_small) (o_z ex_small) 1254
  /\ tradeBySourceAmount 5000 ex_small = 1259
  /\ tradeByTargetAmount 1254 ex_small = 4978
  /\ tradeByTargetAmount (tradeBySourceAmount 4999 ex_small) ex_small <= 4999.
Proof.
  split; [repeat split; discriminate|].
  split; [right; vm_compute; repeat split; discriminate|].
  split; [right; vm_compute; repeat split; discriminate|].
  split; [right; vm_compute; repeat split; discriminate|].
  repeat split; try (vm_compute; reflexivity). vm_compute. discriminate.
Qed.

(** C05 *)
Theorem C05_round_down : forall v, 0 <= v ->
  0 <= decodeFloat (encodeFloat v) <= v /\
  (v - decodeFloat (encodeFloat v)) * 2 ^ 47 <= v /\
  (v < 2 ^ 48 -> decodeFloat (encodeFloat v) = v) /\
  (0 < v -> (v - decodeFloat (encodeFloat v)) * 2 ^ 47 < v).
Proof. exact float_round_down. Qed.
Print Assumptions C05_round_down.
Theorem C05_monotone : forall v w, 0 <= v <= w ->
  encodeFloat v <= encodeFloat w /\ decodeFloat (encodeFloat v) <= decodeFloat (encodeFloat w).
Proof. exact float_monotone. Qed.
Print Assumptions C05_monotone.
Theorem C05_idempotent : forall v, 0 <= v ->
  encodeFloat (decodeFloat (encodeFloat v)) = encodeFloat v.
Proof. exact float_idempotent. Qed.
Print Assumptions C05_idempotent.
(** The format: what decodeFloat reads is mantissa * 2^exponent. *)
Theorem C05_format : forall v, 0 <= v -> decodeFloat v = denoted v.
Proof. exact decodeFloat_denoted. Qed.
Print Assumptions C05_format.
Example C05_case : decodeFloat (encodeFloat (2 ^ 60 + 12345)) = 2 ^ 60 + 8192 /\ encodeFloat (2 ^ 60) = 2 ^ 47 + 13 * 2 ^ 48.
Proof. split; vm_compute; reflexivity. Qed.

(** C06 *)
Theorem C06_rate_bounds : forall v, (0 <= v)%Q ->
  exists L, encodeRate v = Some L /\ 0 <= L /\
   (inject_Z (L * L) <= v * inject_Z (2 ^ 96))%Q /\
   (v * inject_Z (2 ^ 96) < inject_Z ((L + 1) * (L + 1)) \/
    v * inject_Z (2 ^ 96) * inject_Z (2 ^ 94) < inject_Z (L * (2 ^ 47 + 1) * (L * (2 ^ 47 + 1))))%Q.
Proof. exact encodeRate_bounds. Qed.
Print Assumptions C06_rate_bounds.
Theorem C06_rate_monotone : forall v w L M,
  encodeRate v = Some L -> encodeRate w = Some M -> (v <= w)%Q -> L <= M.
Proof. exact encodeRate_mono. Qed.
Print Assumptions C06_rate_monotone.
Theorem C06_rate_representable : forall v L, encodeRate v = Some L -> decodeFloat (encodeFloat L) = L.
Proof. exact encodeRate_representable. Qed.
Print Assumptions C06_rate_representable.
Theorem C06_order_relations : forall liq lo hi mg o,
  (0 <= liq)%Q -> (lo <= mg)%Q -> (mg <= hi)%Q ->
  encodeOrder liq lo hi mg = Some o ->
  is_floor liq (o_y o) /\ 0 <= o_y o <= o_z o /\ nonneg_order o /\
  encodeRate lo = Some (decodeFloat (o_B o)) /\
  (exists H, encodeRate hi = Some H /\
     (decodeFloat (o_A o) + decodeFloat (o_B o) <= H /\
     (H - (decodeFloat (o_A o) + decodeFloat (o_B o))) * 2 ^ 47 <= H)) /\
  exists lo' hi' mg',
    decodeOrder o = Some (inject_Z (o_y o), lo', hi', mg') /\
    (lo' <= lo)%Q /\ (lo' <= mg')%Q /\ (mg' <= hi')%Q /\ (hi' <= hi)%Q.
Proof. exact encodeOrder_relations. Qed.
Print Assumptions C06_order_relations.
(** When encoding raises: only if the marginal rate collapses onto the lowest one. *)
Theorem C06_order_fails_iff : forall liq lo hi mg,
  (0 <= lo)%Q -> (lo <= mg)%Q -> (mg <= hi)%Q ->
  (encodeOrder liq lo hi mg = None <-> encodeRate mg = encodeRate lo /\ encodeRate hi <> encodeRate mg).
Proof. exact encodeOrder_fails_iff. Qed.
Print Assumptions C06_order_fails_iff.
Example C06_case : exists o, encodeOrder (1001 # 2) (1 # 4) (3 # 1) (2 # 1) = Some o /\ o_y o = 500 /\ o_z o = 673.
Proof. eexists. split; [vm_compute; reflexivity|split; reflexivity]. Qed.

(** C07 *)
Theorem C07_source : forall x y L M H : Q,
  (0 <= x -> 0 < y -> 0 <= L -> L < M -> M <= H ->
   exact_out (H - L) L y (y * (H - L) / (M - L)) x == spec_tradeBySourceAmountFunc x y L M)%Q.
Proof. exact spec_source_eq. Qed.
Print Assumptions C07_source.
Theorem C07_target : forall x y L M H : Q,
  (0 <= x -> x <= y -> 0 < y -> 0 < L -> L < M -> M <= H ->
   exact_in (H - L) L y (y * (H - L) / (M - L)) x == spec_tradeByTargetAmountFunc x y L M)%Q.
Proof. exact spec_target_eq. Qed.
Print Assumptions C07_target.
(** constant price orders: L = M = H *)
Theorem C07_source_constant : forall x y L : Q, (0 < y)%Q ->
  (exact_out (L - L) L y y x == spec_tradeBySourceAmountFunc x y L L)%Q.
Proof. exact spec_source_eq_const. Qed.
Print Assumptions C07_source_constant.
Theorem C07_target_constant : forall x y L : Q, (0 < y)%Q -> (0 < L)%Q ->
  (exact_in (L - L) L y y x == spec_tradeByTargetAmountFunc x y L L)%Q.
Proof. exact spec_target_eq_const. Qed.
Print Assumptions C07_target_constant.
Example C07_case : (spec_tradeBySourceAmountFunc 10 100 1 2 == 4000 # 120)%Q
  /\ (exact_out (3 - 1) 1 100 (100 * (3 - 1) / (2 - 1)) 10 == 4000 # 120)%Q.
Proof. split; vm_compute; reflexivity. Qed.

(** C138: in the rescaled regime. [source_in_range]/[target_in_range] say that no checked
    intermediate value is refused; the products may exceed 256 bits. *)
Theorem C138_by_source_near : forall (o : order) (x : Z),
  nonneg_order o -> 0 <= x ->
  source_in_range (denoted (o_A o)) (denoted (o_B o)) (o_y o) (o_z o) x ->
  let e := exact_out (fix48 (denoted (o_A o))) (fix48 (denoted (o_B o)))
                     (inject_Z (o_y o)) (inject_Z (o_z o)) (inject_Z x) in
  (e < inject_Z (2 ^ 128))%Q ->
  (e < inject_Z (tradeBySourceAmount x o) + 4 +
       e * e / inject_Z (o_y o * denoted (o_A o) + o_z o * denoted (o_B o)))%Q.
Proof. exact by_source_near. Qed.
Print Assumptions C138_by_source_near.
Theorem C138_by_target_near : forall (o : order) (x : Z),
  nonneg_order o -> 0 < x ->
  target_in_range (denoted (o_A o)) (denoted (o_B o)) (o_y o) (o_z o) ->
  deliverable (denoted (o_A o)) (denoted (o_B o)) (o_y o) (o_z o) x ->
  let e := exact_in (fix48 (denoted (o_A o))) (fix48 (denoted (o_B o)))
                    (inject_Z (o_y o)) (inject_Z (o_z o)) (inject_Z x) in
  (e < inject_Z (2 ^ 128 - 4))%Q ->
  (inject_Z (tradeByTargetAmount x o) < e + 4)%Q.
Proof. exact by_target_near. Qed.
Print Assumptions C138_by_target_near.
Theorem C138_round_trip : forall (o : order) (x : Z),
  nonneg_order o -> 0 <= x < 2 ^ 128 - 4 -> 0 < o_z o ->
  source_in_range (denoted (o_A o)) (denoted (o_B o)) (o_y o) (o_z o) x ->
  target_in_range (denoted (o_A o)) (denoted (o_B o)) (o_y o) (o_z o) ->
  0 < tradeBySourceAmount x o ->
  tradeByTargetAmount (tradeBySourceAmount x o) o <= x + 3.
Proof. exact near_round_trip. Qed.
Print Assumptions C138_round_trip.
(** a refused intermediate value: nothing is paid, or the largest amount is asked *)
Theorem C138_by_source_overflow : forall (o : order) (x : Z),
  nonneg_order o -> 0 <= x -> 0 < denoted (o_A o) ->
  2 ^ 256 <= o_z o * 2 ^ 48 \/ 2 ^ 256 <= o_y o * denoted (o_A o) + o_z o * denoted (o_B o) \/
  2 ^ 256 <= (o_y o * denoted (o_A o) + o_z o * denoted (o_B o)) * x ->
  tradeBySourceAmount x o = 0.
Proof. exact by_source_overflow. Qed.
Print Assumptions C138_by_source_overflow.
Theorem C138_by_target_overflow : forall (o : order) (x : Z),
  nonneg_order o -> 0 < denoted (o_A o) ->
  2 ^ 256 <= o_z o * 2 ^ 48 \/ 2 ^ 256 <= o_y o * denoted (o_A o) + o_z o * denoted (o_B o) ->
  tradeByTargetAmount x o = 2 ^ 128 - 1.
Proof. exact by_target_overflow. Qed.
Print Assumptions C138_by_target_overflow.
(** an order of about a million tokens of 18 decimals *)
Definition ex_drop : order := mkOrder (2 ^ 80 - 1) (2 ^ 80 + 1) (2 ^ 40) (2 ^ 40).
(** the loss is not bounded by a few units, and rescaled quotes are not monotone: one more unit
    paid in gives 549755813885 units less *)
Theorem C138_constant_loss_refuted : exists (o : order) (x : Z),
  nonneg_order o /\ 0 <= x /\
  source_in_range (denoted (o_A o)) (denoted (o_B o)) (o_y o) (o_z o) x /\
  let e := exact_out (fix48 (denoted (o_A o))) (fix48 (denoted (o_B o)))
                     (inject_Z (o_y o)) (inject_Z (o_z o)) (inject_Z x) in
  (e < inject_Z (2 ^ 128))%Q /\ (inject_Z (tradeBySourceAmount x o + 549755813000) < e)%Q.
Proof.
  exists ex_drop, 39614081257132168796771909632. split; [repeat split; discriminate|]. split; [discriminate|].
  split; [right; vm_compute; repeat split; discriminate|]. split; vm_compute; reflexivity.
Qed.
Print Assumptions C138_constant_loss_refuted.
Theorem C138_monotone_refuted : exists (o : order) (x : Z),
  nonneg_order o /\ 0 <= x /\
  source_in_range (denoted (o_A o)) (denoted (o_B o)) (o_y o) (o_z o) (x + 1) /\
  tradeBySourceAmount (x + 1) o + 549755813885 = tradeBySourceAmount x o.
Proof.
  exists ex_drop, 39614081257132168796771909631. split; [repeat split; discriminate|]. split; [discriminate|].
  split; [right; vm_compute; repeat split; discriminate|]. vm_compute. reflexivity.
Qed.
Print Assumptions C138_monotone_refuted.
Example C138_case :
  source_in_range (denoted (o_A ex_huge)) (denoted (o_B ex_huge)) (o_y ex_huge) (o_z ex_huge) (2 ^ 60)
  /\ target_in_range (denoted (o_A ex_huge)) (denoted (o_B ex_huge)) (o_y ex_huge) (o_z ex_huge)
  /\ deliverable (denoted (o_A ex_huge)) (denoted (o_B ex_huge)) (o_y ex_huge) (o_z ex_huge) (2 ^ 70)
  /\ 0 < tradeBySourceAmount (2 ^ 60) ex_huge /\ tradeByTargetAmount (2 ^ 70) ex_huge < 2 ^ 128 - 4.
Proof.
  split; [right; vm_compute; repeat split; discriminate|]. split; [right; vm_compute; repeat split; discriminate|].
  split; [right; vm_compute; repeat split; discriminate|]. split; vm_compute; reflexivity.
Qed.
Example C138_case_overflow : nonneg_order (mkOrder 1 (2 ^ 210) 1 1) /\ tradeBySourceAmount 5 (mkOrder 1 (2 ^ 210) 1 1) = 0
  /\ 2 ^ 256 <= 2 ^ 210 * 2 ^ 48 /\ 0 < denoted 1.
Proof. split; [repeat split; discriminate|]. repeat split; vm_compute; congruence. Qed.
