(** Proofs for BenchProps.v: how far integer quotes of an encoded order are from the curve that
    was asked for. *)
From Coq Require Import Reals ZArith QArith Qreals Qround Psatz Lia Lra List Bool.
From Verif Require Import TradeModel TradeSpec TradeProofs TradeProofs2 TradeProofs3 TradeProofs4.
Import ListNotations.
Local Open Scope R_scope.

(** ** the curve in the square roots of the prices *)
Definition fout (x y l m : R) : R := m * m * x * y / (m * (m - l) * x + y).
Definition gin (x y l m : R) : R := x * y / (m * (l - m) * x + m * m * y).

Lemma div_le a b c d : 0 < b -> 0 < d -> a * d <= c * b -> a / b <= c / d.
Proof.
  intros Hb Hd H. apply Rmult_le_reg_r with b; [exact Hb|]. apply Rmult_le_reg_r with d; [exact Hd|].
  replace (a / b * b * d) with (a * d) by (field; lra). replace (c / d * b * d) with (c * b) by (field; lra). exact H.
Qed.
Lemma fden x y l m : 0 <= x -> 0 < y -> 0 <= l <= m -> 0 < m * (m - l) * x + y.
Proof. intros. assert (0 <= m * (m - l) * x); [|lra]. apply Rmult_le_pos; [apply Rmult_le_pos; lra|lra]. Qed.
Lemma fout_pos x y l m : 0 <= x -> 0 < y -> 0 <= l <= m -> 0 <= fout x y l m.
Proof.
  intros Hx Hy H. pose proof (fden x y l m Hx Hy H). unfold fout. apply Rmult_le_pos; [|left; apply Rinv_0_lt_compat; assumption].
  apply Rmult_le_pos; [apply Rmult_le_pos; [apply Rmult_le_pos; lra|lra]|lra].
Qed.
Lemma fout_le_y x y l m : 0 <= x -> 0 < y -> 0 <= l <= m -> l * m * x <= y -> fout x y l m <= y.
Proof.
  intros Hx Hy H Hl. pose proof (fden x y l m Hx Hy H) as D. unfold fout. replace y with (y / 1) at 3 by field.
  apply div_le; [exact D|lra|]. replace (m * m * x * y * 1) with (y * (m * m * x)) by ring. apply Rmult_le_compat_l; [lra|]. lra.
Qed.
Lemma fout_le_2y x y l m : 0 <= x -> 0 < y -> 0 <= l <= m -> l * m * x <= 2 * y -> fout x y l m <= 2 * y.
Proof.
  intros Hx Hy H Hl. pose proof (fden x y l m Hx Hy H) as D. unfold fout. replace (2 * y) with (2 * y / 1) by field.
  assert (0 <= m * (m - l) * x) by (apply Rmult_le_pos; [apply Rmult_le_pos; lra|lra]).
  apply div_le; [exact D|lra|]. replace (m * m * x * y * 1) with (y * (m * m * x)) by ring. replace (2 * y * (m * (m - l) * x + y)) with (y * (2 * (m * (m - l) * x + y))) by ring.
  apply Rmult_le_compat_l; [lra|]. lra.
Qed.
Lemma fout_mono_l x y l1 l2 m : 0 <= x -> 0 < y -> 0 <= l1 <= l2 -> l2 <= m -> fout x y l1 m <= fout x y l2 m.
Proof.
  intros Hx Hy H1 H2. pose proof (fden x y l1 m Hx Hy ltac:(lra)) as D1. pose proof (fden x y l2 m Hx Hy ltac:(lra)) as D2.
  unfold fout. apply div_le; [assumption|assumption|]. apply Rmult_le_compat_l.
  - apply Rmult_le_pos; [apply Rmult_le_pos; [apply Rmult_le_pos; lra|lra]|lra].
  - assert (0 <= m * (l2 - l1) * x) by (apply Rmult_le_pos; [apply Rmult_le_pos; lra|lra]). lra.
Qed.
Lemma fout_mono_m x y l m1 m2 : 0 <= x -> 0 < y -> 0 <= l <= m1 -> m1 <= m2 -> l * m2 * x <= 2 * y -> fout x y l m1 <= fout x y l m2.
Proof.
  intros Hx Hy H1 H2 H. pose proof (fden x y l m1 Hx Hy ltac:(lra)) as D1. pose proof (fden x y l m2 Hx Hy ltac:(lra)) as D2.
  unfold fout. apply div_le; [assumption|assumption|].
  assert (K : m1 * (l * m2 * x) <= y * (m1 + m2)).
  { apply Rle_trans with (m1 * (2 * y)); [apply Rmult_le_compat_l; lra|]. replace (y * (m1 + m2)) with (m1 * (2 * y) + y * (m2 - m1)) by ring.
    assert (0 <= y * (m2 - m1)) by (apply Rmult_le_pos; lra). lra. }
  assert (P : 0 <= x * y) by (apply Rmult_le_pos; lra).
  assert (Q : 0 <= (x * y) * ((m2 - m1) * (y * (m1 + m2) - m1 * (l * m2 * x)))) by (apply Rmult_le_pos; [exact P|apply Rmult_le_pos; lra]).
  apply Rminus_le. apply Rle_trans with (- ((x * y) * ((m2 - m1) * (y * (m1 + m2) - m1 * (l * m2 * x))))); [|lra]. apply Req_le. ring.
Qed.
Lemma fout_scale x y l m s : 0 <= x -> 0 < y -> 0 <= l <= m -> 0 <= s <= 1 -> s * s * fout x y l m <= fout x y (s * l) (s * m).
Proof.
  intros Hx Hy H Hs. assert (0 <= s * l <= s * m) by (split; [apply Rmult_le_pos; lra|apply Rmult_le_compat_l; lra]).
  pose proof (fden x y l m Hx Hy H) as D1. pose proof (fden x y (s * l) (s * m) Hx Hy H0) as D2.
  unfold fout. replace (s * s * (m * m * x * y / (m * (m - l) * x + y))) with (s * s * (m * m * x * y) / (m * (m - l) * x + y)) by (field; lra).
  apply div_le; [assumption|assumption|]. replace (s * m * (s * m) * x * y) with (s * s * (m * m * x * y)) by ring.
  apply Rmult_le_compat_l.
  - apply Rmult_le_pos; [apply Rmult_le_pos; lra|]. apply Rmult_le_pos; [apply Rmult_le_pos; [apply Rmult_le_pos; lra|lra]|lra].
  - assert (s * s <= 1) by (apply Rle_trans with (1 * 1); [apply Rmult_le_compat; lra|lra]).
    assert (E : 0 <= m * (m - l) * x) by (apply Rmult_le_pos; [apply Rmult_le_pos; lra|lra]).
    replace (s * m * (s * m - s * l) * x) with (s * s * (m * (m - l) * x)) by ring.
    assert (0 <= (1 - s * s) * (m * (m - l) * x)) by (apply Rmult_le_pos; lra). lra.
Qed.
Lemma fout_up x y l m m' : 0 <= x -> 0 < y -> 0 <= l <= m -> 0 < m -> m <= m' -> fout x y l m' <= fout x y l m * ((m' / m) * (m' / m)).
Proof.
  intros Hx Hy H Hm H'. pose proof (fden x y l m Hx Hy H) as D1. pose proof (fden x y l m' Hx Hy ltac:(lra)) as D2.
  unfold fout. replace (m * m * x * y / (m * (m - l) * x + y) * (m' / m * (m' / m))) with (m' * m' * x * y / (m * (m - l) * x + y)) by (field; split; lra).
  apply div_le; [assumption|assumption|]. apply Rmult_le_compat_l.
  - apply Rmult_le_pos; [apply Rmult_le_pos; [apply Rmult_le_pos; lra|lra]|lra].
  - assert (m * (m - l) <= m' * (m' - l)) by (apply Rmult_le_compat; lra).
    assert (m * (m - l) * x <= m' * (m' - l) * x) by (apply Rmult_le_compat_r; lra). lra.
Qed.

(** by target: with all square roots multiplied by s *)
Lemma gden x y l m : 0 < x <= y -> 0 < l <= m -> 0 < m * (l - m) * x + m * m * y.
Proof.
  intros Hx H. replace (m * (l - m) * x + m * m * y) with (m * (m * (y - x) + l * x)) by ring.
  apply Rmult_lt_0_compat; [lra|]. assert (0 <= m * (y - x)) by (apply Rmult_le_pos; lra). assert (0 < l * x) by (apply Rmult_lt_0_compat; lra). lra.
Qed.
Lemma gin_pos x y l m : 0 < x <= y -> 0 < l <= m -> 0 < gin x y l m.
Proof. intros Hx H. pose proof (gden x y l m Hx H). unfold gin. apply Rmult_lt_0_compat; [apply Rmult_lt_0_compat; lra|apply Rinv_0_lt_compat; assumption]. Qed.
Lemma gin_compare x y l m l' m' s : 0 < x <= y -> 0 < l <= m -> 0 < l' <= m' -> 0 < s -> l' <= s * l -> m' <= s * m ->
  gin x y l m <= s * s * gin x y l' m'.
Proof.
  intros Hx H H' Hs Hl Hm. pose proof (gden x y l m Hx H) as D. pose proof (gden x y l' m' Hx H') as D'.
  unfold gin. replace (s * s * (x * y / (m' * (l' - m') * x + m' * m' * y))) with (s * s * (x * y) / (m' * (l' - m') * x + m' * m' * y)) by (field; lra).
  apply div_le; [assumption|assumption|].
  replace (s * s * (x * y) * (m * (l - m) * x + m * m * y)) with (x * y * ((s * m) * ((s * m) * (y - x) + (s * l) * x))) by ring.
  replace (m' * (l' - m') * x + m' * m' * y) with (m' * (m' * (y - x) + l' * x)) by ring.
  apply Rmult_le_compat_l; [apply Rmult_le_pos; lra|]. apply Rmult_le_compat; [lra| |exact Hm|].
  - apply Rplus_le_le_0_compat; apply Rmult_le_pos; lra.
  - apply Rplus_le_compat; apply Rmult_le_compat_r; lra.
Qed.

(** ** what the integers of an encoded order say *)
Definition T : R := IZR (2 ^ 48).
Lemma T_pos : 0 < T. Proof. unfold T. apply IZR_lt. reflexivity. Qed.
Lemma T_eq : T = 281474976710656. Proof. unfold T. apply f_equal. reflexivity. Qed.

Lemma order_parts y lo hi mg o : (0 <= y)%Z -> (0 <= lo)%Q -> (lo <= mg)%Q -> (mg <= hi)%Q ->
  encodeOrder (inject_Z y) lo hi mg = Some o ->
  exists L H M, encodeRate lo = Some L /\ encodeRate hi = Some H /\ encodeRate mg = Some M /\ (0 <= L <= M /\ M <= H)%Z /\
    o_y o = y /\ denoted (o_B o) = L /\ (0 <= denoted (o_A o) <= H - L)%Z /\ ((H - L - denoted (o_A o)) * 2 ^ 47 <= H - L)%Z /\
    (M = H /\ o_z o = y \/ M <> H /\ (L < M)%Z /\ (o_z o = y * (H - L) / (M - L))%Z) /\ (y <= o_z o)%Z /\ nonneg_order o.
Proof.
  intros Hy Hlo Hmg Hhi HE.
  pose proof (encodeOrder_relations (inject_Z y) lo hi mg o ltac:(unfold Qle; cbn; lia) Hmg Hhi HE) as (_ & Y & N & RB & _).
  unfold encodeOrder in HE.
  destruct (encodeRate_bounds lo Hlo) as (L & EL & L0 & _). destruct (encodeRate_bounds mg (Qle_trans _ _ _ Hlo Hmg)) as (M & EM & M0 & _).
  destruct (encodeRate_bounds hi (Qle_trans _ _ _ Hlo (Qle_trans _ _ _ Hmg Hhi))) as (H & EH & H0 & _).
  rewrite EL, EH, EM in HE. cbn [bind] in HE. rewrite Qfloor_Z in HE.
  pose proof (encodeRate_mono _ _ _ _ EL EM Hmg) as LM. pose proof (encodeRate_mono _ _ _ _ EM EH Hhi) as MH.
  exists L, H, M. destruct N as (N1 & N2 & N3 & N4).
  assert (RBd : decodeFloat (o_B o) = L) by congruence.
  destruct (H =? M)%Z eqn:E.
  - apply Z.eqb_eq in E. injection HE as <-. cbn [o_y o_z o_A o_B] in *.
    rewrite decodeFloat_denoted in RBd by assumption. rewrite <- (decodeFloat_denoted (encodeFloat (H - L))) by assumption.
    destruct (float_round_down (H - L) ltac:(lia)) as (F1 & F2 & _). repeat split; try assumption; try lia.
  - unfold pydiv in HE. destruct (M - L =? 0)%Z eqn:E2; [discriminate|]. apply Z.eqb_neq in E, E2. cbn [bind] in HE. injection HE as <-. cbn [o_y o_z o_A o_B] in *.
    rewrite decodeFloat_denoted in RBd by assumption. rewrite <- (decodeFloat_denoted (encodeFloat (H - L))) by assumption.
    destruct (float_round_down (H - L) ltac:(lia)) as (F1 & F2 & _). repeat split; try assumption; try lia.
Qed.

(** the price root of the encoded order, times T z *)
Lemma marg_upper y z L H M D : (0 < y)%Z -> (0 <= L <= M)%Z -> (M <= H)%Z -> (0 <= D <= H - L)%Z ->
  (M = H /\ z = y \/ M <> H /\ (L < M)%Z /\ (z = y * (H - L) / (M - L))%Z) -> (D * y + L * z <= M * z + M)%Z.
Proof.
  intros Hy HL HM HD [[-> ->]|(N & LM & ->)].
  - assert (D * y <= (H - L) * y)%Z by (apply Z.mul_le_mono_nonneg_r; lia). lia.
  - set (z := (y * (H - L) / (M - L))%Z). pose proof (Z.mul_succ_div_gt (y * (H - L)) (M - L) ltac:(lia)) as G. fold z in G.
    assert (D * y <= (H - L) * y)%Z by (apply Z.mul_le_mono_nonneg_r; lia). lia.
Qed.
Lemma marg_lower y z L H M D : (0 < y)%Z -> (0 <= L <= M)%Z -> (M <= H)%Z -> (0 <= D <= H - L)%Z -> ((H - L - D) * 2 ^ 47 <= H - L)%Z -> (y <= z)%Z ->
  (M = H /\ z = y \/ M <> H /\ (L < M)%Z /\ (z = y * (H - L) / (M - L))%Z) -> ((2 ^ 47 - 1) * (M * z) <= 2 ^ 47 * (D * y + L * z))%Z.
Proof.
  intros Hy HL HM HD HR Hz HC.
  assert (K : (z * (M - L) <= y * (H - L))%Z).
  { destruct HC as [[-> ->]|(N & LM & ->)]; [lia|]. rewrite Z.mul_comm. apply Z.mul_div_le. lia. }
  assert (D1 : ((2 ^ 47 - 1) * (H - L) <= 2 ^ 47 * D)%Z) by lia.
  assert (D2 : ((2 ^ 47 - 1) * (H - L) * y <= 2 ^ 47 * D * y)%Z) by (apply Z.mul_le_mono_nonneg_r; lia).
  assert (D3 : ((2 ^ 47 - 1) * (z * (M - L)) <= (2 ^ 47 - 1) * (y * (H - L)))%Z) by (apply Z.mul_le_mono_nonneg_l; lia).
  assert (0 <= L * z)%Z by (apply Z.mul_nonneg_nonneg; lia). lia.
Qed.

(** ** the rates *)
Lemma Q2R_inject n : Q2R (inject_Z n) = IZR n.
Proof. unfold Q2R. cbn. rewrite RMicromega.Rinv_1. reflexivity. Qed.
Lemma le_sqrt_iff a b : 0 <= a -> a * a <= b -> a <= sqrt b.
Proof. intros Ha H. rewrite <- (sqrt_square a Ha). apply sqrt_le_1_alt. exact H. Qed.
Lemma rate_upper v L : encodeRate v = Some L -> IZR L <= sqrt (Q2R v) * T.
Proof.
  intros E. destruct (encodeRate_nonneg _ _ E) as [V L0]. destruct (encodeRate_bounds v V) as (L' & E' & _ & B & _).
  rewrite E in E'. injection E' as <-. apply Qle_Rle in B. rewrite Q2R_mult, !Q2R_inject in B.
  replace (IZR (2 ^ 96)) with (T * T) in B by (unfold T; rewrite <- mult_IZR; reflexivity).
  rewrite mult_IZR in B. apply Qle_Rle in V. rewrite RMicromega.Q2R_0 in V. apply IZR_le in L0. pose proof T_pos as TP.
  rewrite <- (sqrt_square T) by lra. rewrite <- sqrt_mult; [|assumption|apply Rmult_le_pos; lra]. apply le_sqrt_iff; assumption.
Qed.
Lemma rate_lower v L e : encodeRate v = Some L -> / IZR (2 ^ 47) <= e <= 1 -> 1 <= e * (sqrt (Q2R v) * T) -> (1 - e) * (sqrt (Q2R v) * T) <= IZR L.
Proof.
  intros E He H1. destruct (encodeRate_nonneg _ _ E) as [V L0]. destruct (encodeRate_bounds v V) as (L' & E' & _ & _ & B).
  rewrite E in E'. injection E' as <-. apply Qle_Rle in V. rewrite RMicromega.Q2R_0 in V. apply IZR_le in L0. pose proof T_pos as TP.
  set (w := sqrt (Q2R v) * T) in *. assert (W : w * w = Q2R v * (T * T)).
  { unfold w. replace (sqrt (Q2R v) * T * (sqrt (Q2R v) * T)) with (sqrt (Q2R v) * sqrt (Q2R v) * (T * T)) by ring. rewrite sqrt_sqrt by assumption. reflexivity. }
  assert (W0 : 0 <= w) by (apply Rmult_le_pos; [apply sqrt_pos|lra]).
  set (P := IZR (2 ^ 47)) in *. assert (PP : 0 < P) by (unfold P; apply IZR_lt; reflexivity).
  destruct B as [B|B]; apply Qlt_Rlt in B.
  - rewrite Q2R_mult, !Q2R_inject in B. replace (IZR (2 ^ 96)) with (T * T) in B by (unfold T; rewrite <- mult_IZR; reflexivity). rewrite <- W in B.
    rewrite mult_IZR, plus_IZR in B. assert (w < IZR L + 1).
    { destruct (Rlt_le_dec w (IZR L + 1)) as [K|K]; [exact K|]. exfalso. assert ((IZR L + 1) * (IZR L + 1) <= w * w) by (apply Rmult_le_compat; lra). lra. }
    lra.
  - rewrite !Q2R_mult, !Q2R_inject in B. replace (IZR (2 ^ 96)) with (T * T) in B by (unfold T; rewrite <- mult_IZR; reflexivity).
    replace (IZR (2 ^ 94)) with (P * P) in B by (unfold P; rewrite <- mult_IZR; reflexivity). rewrite <- W in B.
    rewrite !mult_IZR, plus_IZR in B. fold P in B. assert (K : w * P < IZR L * (P + 1)).
    { destruct (Rlt_le_dec (w * P) (IZR L * (P + 1))) as [K|K]; [exact K|]. exfalso.
      assert (IZR L * (P + 1) * (IZR L * (P + 1)) <= w * P * (w * P)) by (apply Rmult_le_compat; try assumption; apply Rmult_le_pos; lra). lra. }
    apply Rmult_le_reg_r with (P + 1); [lra|]. apply Rle_trans with (w * P); [|lra].
    assert (1 <= e * P) by (destruct He as [He _]; apply Rmult_le_compat_r with (r := P) in He; [rewrite Rinv_l in He; lra|lra]).
    assert (0 <= w * (e * P - 1)) by (apply Rmult_le_pos; lra). assert (0 <= w * e) by (apply Rmult_le_pos; [lra|]; destruct He as [He _]; apply Rle_trans with (/ P); [left; apply Rinv_0_lt_compat; lra|exact He]).
    lra.
Qed.

(** ** the exact curve of the integers is [fout] and [gin] *)
Lemma fix48_R v : Q2R (fix48 v) = IZR v / T.
Proof. unfold fix48. rewrite Q2R_div by discriminate. rewrite !Q2R_inject. reflexivity. Qed.
Lemma fix48_zero v : Qeq_bool (fix48 v) 0 = (v =? 0)%Z.
Proof.
  destruct (Z.eqb_spec v 0) as [->|N].
  - reflexivity.
  - apply Bool.not_true_is_false. intros K. apply Qeq_bool_eq in K. apply Qeq_eqR in K. rewrite fix48_R, RMicromega.Q2R_0 in K. pose proof T_pos.
    apply N. apply eq_IZR. apply Rmult_eq_reg_r with (/ T); [rewrite Rmult_0_l; exact K|]. apply Rgt_not_eq, Rinv_0_lt_compat. lra.
Qed.
Lemma exact_out_R D L y z x : (0 <= D)%Z -> (0 <= L)%Z -> (0 < y)%Z -> (0 < z)%Z -> (0 <= x)%Z ->
  Q2R (exact_out (fix48 D) (fix48 L) (inject_Z y) (inject_Z z) (inject_Z x)) = fout (IZR x) (IZR y) (IZR L / T) (IZR L / T + IZR D / T * IZR y / IZR z).
Proof.
  intros HD HL Hy Hz Hx. apply IZR_le in HD, HL, Hx. apply IZR_lt in Hy, Hz. pose proof T_pos as TP.
  unfold exact_out. rewrite fix48_zero. destruct (Z.eqb_spec D 0) as [->|N].
  - rewrite !Q2R_mult, Q2R_inject, fix48_R. replace (IZR L / T + 0 / T * IZR y / IZR z) with (IZR L / T) by (field; split; lra).
    unfold fout. set (b := IZR L / T). replace (b * (b - b) * IZR x + IZR y) with (IZR y) by ring. field. lra.
  - assert (a0 : 0 <= IZR D / T) by (apply Rmult_le_pos; [lra|left; apply Rinv_0_lt_compat; lra]).
    assert (b0 : 0 <= IZR L / T) by (apply Rmult_le_pos; [lra|left; apply Rinv_0_lt_compat; lra]).
    set (a := IZR D / T) in *. set (b := IZR L / T) in *. set (Y := IZR y) in *. set (Z := IZR z) in *. set (X := IZR x) in *.
    assert (U : 0 <= a * Y + b * Z) by (apply Rplus_le_le_0_compat; apply Rmult_le_pos; lra).
    assert (V : 0 < a * X * (a * Y + b * Z) + Z * Z).
    { assert (0 <= a * X * (a * Y + b * Z)) by (apply Rmult_le_pos; [apply Rmult_le_pos; lra|lra]). assert (0 < Z * Z) by (apply Rmult_lt_0_compat; lra). lra. }
    rewrite Q2R_div.
    + rewrite !Q2R_mult, !Q2R_plus, !Q2R_mult, !Q2R_plus, !Q2R_mult, !Q2R_inject, !fix48_R. fold a b X Y Z. unfold fout.
      assert (E : 0 < (b + a * Y / Z) * (b + a * Y / Z - b) * X + Y).
      { apply fden; [lra|lra|]. split; [lra|]. assert (0 <= a * Y / Z) by (apply Rmult_le_pos; [apply Rmult_le_pos; lra|left; apply Rinv_0_lt_compat; lra]). lra. }
      apply Rmult_eq_reg_r with (a * X * (a * Y + b * Z) + Z * Z); [|lra]. apply Rmult_eq_reg_r with ((b + a * Y / Z) * (b + a * Y / Z - b) * X + Y); [|lra].
      replace (X * (a * Y + b * Z) * (a * Y + b * Z) / (a * X * (a * Y + b * Z) + Z * Z) * (a * X * (a * Y + b * Z) + Z * Z)) with (X * (a * Y + b * Z) * (a * Y + b * Z)) by (field; lra).
      replace ((b + a * Y / Z) * (b + a * Y / Z) * X * Y / ((b + a * Y / Z) * (b + a * Y / Z - b) * X + Y) * (a * X * (a * Y + b * Z) + Z * Z) * ((b + a * Y / Z) * (b + a * Y / Z - b) * X + Y))
        with ((b + a * Y / Z) * (b + a * Y / Z) * X * Y * (a * X * (a * Y + b * Z) + Z * Z)) by (set (E0 := (b + a * Y / Z) * (b + a * Y / Z - b) * X + Y) in *; clearbody E0; field; lra).
      field. lra.
    + intros K. apply Qeq_eqR in K. rewrite RMicromega.Q2R_0, !Q2R_plus, !Q2R_mult, !Q2R_plus, !Q2R_mult, !Q2R_inject, !fix48_R in K. fold a b X Y Z in K. lra.
Qed.
Lemma exact_in_R D L y z x : (0 <= D)%Z -> (0 < L)%Z -> (0 < x <= y)%Z -> (y <= z)%Z ->
  Q2R (exact_in (fix48 D) (fix48 L) (inject_Z y) (inject_Z z) (inject_Z x)) = gin (IZR x) (IZR y) (IZR L / T) (IZR L / T + IZR D / T * IZR y / IZR z).
Proof.
  intros HD HL [Hx Hxy] Hz. apply IZR_le in HD, Hz, Hxy. apply IZR_lt in HL, Hx. pose proof T_pos as TP.
  unfold exact_in. rewrite fix48_zero. assert (b0 : 0 < IZR L / T) by (apply Rmult_lt_0_compat; [lra|apply Rinv_0_lt_compat; lra]).
  destruct (Z.eqb_spec D 0) as [->|N].
  - rewrite Q2R_div.
    + rewrite !Q2R_mult, Q2R_inject, fix48_R. replace (IZR L / T + 0 / T * IZR y / IZR z) with (IZR L / T) by (field; split; lra).
      unfold gin. set (b := IZR L / T) in *. replace (b * (b - b) * IZR x + b * b * IZR y) with (b * b * IZR y) by ring. field. split; lra.
    + intros K. apply Qeq_eqR in K. rewrite RMicromega.Q2R_0, Q2R_mult, fix48_R in K. assert (0 < IZR L / T * (IZR L / T)) by (apply Rmult_lt_0_compat; lra). lra.
  - assert (a0 : 0 <= IZR D / T) by (apply Rmult_le_pos; [lra|left; apply Rinv_0_lt_compat; lra]).
    set (a := IZR D / T) in *. set (b := IZR L / T) in *. set (Y := IZR y) in *. set (Z := IZR z) in *. set (X := IZR x) in *.
    assert (BZ : 0 < b * Z) by (apply Rmult_lt_0_compat; lra).
    assert (U : 0 < a * Y + b * Z) by (assert (0 <= a * Y) by (apply Rmult_le_pos; lra); lra).
    assert (W : 0 < a * Y + b * Z - a * X) by (assert (0 <= a * (Y - X)) by (apply Rmult_le_pos; lra); lra).
    assert (UW : 0 < (a * Y + b * Z) * (a * Y + b * Z - a * X)) by (apply Rmult_lt_0_compat; assumption).
    rewrite Q2R_div.
    + rewrite !Q2R_mult, !Q2R_plus, !Q2R_minus, !Q2R_plus, !Q2R_mult, !Q2R_inject, !fix48_R. fold a b X Y Z. unfold gin.
      replace ((b + a * Y / Z) * (b - (b + a * Y / Z)) * X + (b + a * Y / Z) * (b + a * Y / Z) * Y) with (Y * ((a * Y + b * Z) * (a * Y + b * Z - a * X)) / (Z * Z)) by (field; lra).
      field. repeat split; lra.
    + intros K. apply Qeq_eqR in K. rewrite RMicromega.Q2R_0, !Q2R_mult, !Q2R_minus, !Q2R_plus, !Q2R_mult, !Q2R_inject, !fix48_R in K. fold a b X Y Z in K. lra.
Qed.
