(** Proofs about UiModel.v. *)
From Coq Require Import Reals ZArith List Bool String Lra Lia.
From Verif Require Import TradeModel PairModel PairSpec PairProofs CurveModel CurveSpec CurveProofs CurveProofs2 CurveProofs3 CurveProofs4 CurveProofs5 UiModel UiSpec.
From Verif Require SdkModel.
Import ListNotations.
Local Open Scope R_scope.

(** ** rounding *)
Lemma ip_spec x : IZR (Int_part x) <= x < IZR (Int_part x) + 1.
Proof. destruct (base_Int_part x). lra. Qed.
Lemma ip_unique x z : IZR z <= x < IZR z + 1 -> Int_part x = z.
Proof.
  intros [A B]. destruct (ip_spec x) as [C D]. assert (IZR (Int_part x) < IZR (z + 1)) by (rewrite plus_IZR; lra). assert (IZR z < IZR (Int_part x + 1)) by (rewrite plus_IZR; lra).
  apply lt_IZR in H, H0. lia.
Qed.
Lemma pow10_pos z : 0 < powerRZ 10 z. Proof. apply powerRZ_lt. lra. Qed.
Lemma pow10_add a b : powerRZ 10 (a + b) = powerRZ 10 a * powerRZ 10 b. Proof. apply powerRZ_add. lra. Qed.
Lemma pow10_neg a : powerRZ 10 (- a) = / powerRZ 10 a. Proof. apply powerRZ_neg'. Qed.
Lemma pow10_lt a b : (a < b)%Z -> powerRZ 10 a < powerRZ 10 b.
Proof. intros H. rewrite !powerRZ_Rpower by lra. apply Rpower_lt; [lra|]. apply IZR_lt. exact H. Qed.
Lemma mag_spec x : 0 < x -> powerRZ 10 (magnitude x) <= x < powerRZ 10 (magnitude x + 1).
Proof.
  intros H. unfold magnitude. destruct (ip_spec (ln x / ln 10)) as [A B]. assert (L : 0 < ln 10) by (rewrite <- ln_1; apply ln_increasing; lra).
  rewrite !powerRZ_Rpower by lra. rewrite plus_IZR. unfold Rpower. set (z := IZR (Int_part (ln x / ln 10))) in *. assert (E : ln x / ln 10 * ln 10 = ln x) by (field; lra).
  assert (X : exp (ln x) = x) by (apply exp_ln; exact H). split.
  - rewrite <- X. assert (C : z * ln 10 <= ln x) by (rewrite <- E; apply Rmult_le_compat_r; lra). destruct C as [C|C]; [left; apply exp_increasing; exact C|right; rewrite C; reflexivity].
  - rewrite <- X at 1. apply exp_increasing. rewrite <- E. apply Rmult_lt_compat_r; lra.
Qed.
Lemma mag_unique x m : 0 < x -> powerRZ 10 m <= x < powerRZ 10 (m + 1) -> magnitude x = m.
Proof.
  intros H [A B]. destruct (mag_spec x H) as [C D]. destruct (Z.lt_trichotomy (magnitude x) m) as [L|[E|L]]; [|exact E|]; exfalso.
  - assert (powerRZ 10 (magnitude x + 1) <= powerRZ 10 m); [|lra]. destruct (Z.eq_dec (magnitude x + 1) m) as [->|N]; [lra|]. left. apply pow10_lt. lia.
  - assert (powerRZ 10 (m + 1) <= powerRZ 10 (magnitude x)); [|lra]. destruct (Z.eq_dec (m + 1) (magnitude x)) as [->|N]; [lra|]. left. apply pow10_lt. lia.
Qed.
Lemma round0_near x : Rabs (IZR (round0 x) - x) <= / 2.
Proof.
  destruct (ip_spec x) as [A B]. unfold round0, rlt. set (f := Int_part x) in *. destruct (Rlt_dec (x - IZR f) (/ 2)); [rewrite Rabs_left1 by lra; lra|].
  destruct (Rlt_dec (/ 2) (x - IZR f)); [rewrite plus_IZR, Rabs_right by lra; lra|]. destruct (Z.even f); [rewrite Rabs_left1 by lra; lra|rewrite plus_IZR, Rabs_right by lra; lra].
Qed.
Lemma round0_int z : round0 (IZR z) = z.
Proof. unfold round0. rewrite (ip_unique (IZR z) z) by lra. rewrite rlt_true by lra. reflexivity. Qed.
(** both branches round to a multiple of a power of ten *)
Definition unit_exp (m n : Z) : Z := if Z.leb m n then (m + 1 - n)%Z else (m - n)%Z.
Lemma roundsd_pos x n : 0 < x -> let u := powerRZ 10 (unit_exp (magnitude x) n) in roundsd x (Some n) = IZR (round0 (x / u)) * u.
Proof.
  intros H u. unfold roundsd. rewrite rle_false by lra. cbv zeta. unfold u, unit_exp. destruct (Z.leb_spec (magnitude x) n) as [L|L].
  - unfold round_to. replace (n - magnitude x - 1)%Z with (- (magnitude x + 1 - n))%Z by lia. rewrite pow10_neg. pose proof (pow10_pos (magnitude x + 1 - n)). unfold Rdiv. rewrite Rinv_inv. reflexivity.
  - rewrite Rmult_comm. reflexivity.
Qed.
Lemma roundsd_spec x n m : 0 < x -> powerRZ 10 m <= x < powerRZ 10 (m + 1) -> let u := powerRZ 10 (if Z.leb m n then m + 1 - n else m - n) in
  Rabs (roundsd x (Some n) - x) <= u / 2 /\ exists k, roundsd x (Some n) = IZR k * u.
Proof.
  intros H M u. rewrite roundsd_pos by exact H. rewrite (mag_unique x m H M). fold (unit_exp m n) in u. fold u. pose proof (pow10_pos (unit_exp m n)) as P. fold u in P. split; [|eexists; reflexivity].
  pose proof (round0_near (x / u)) as N. replace (IZR (round0 (x / u)) * u - x) with ((IZR (round0 (x / u)) - x / u) * u) by (field; lra). rewrite Rabs_mult, (Rabs_right u) by lra. apply (Rmult_le_compat_r u) in N; lra.
Qed.
Lemma roundsd_tie x n m k : 0 < x -> powerRZ 10 m <= x < powerRZ 10 (m + 1) -> let u := powerRZ 10 (if Z.leb m n then m + 1 - n else m - n) in
  x = (IZR k + / 2) * u -> roundsd x (Some n) = IZR (if Z.even k then k else k + 1) * u.
Proof.
  intros H M u E. rewrite roundsd_pos by exact H. rewrite (mag_unique x m H M). fold (unit_exp m n) in u. fold u. pose proof (pow10_pos (unit_exp m n)) as P. fold u in P.
  replace (x / u) with (IZR k + / 2) by (rewrite E; field; lra). unfold round0. rewrite (ip_unique (IZR k + / 2) k) by lra. rewrite !rlt_false by lra. reflexivity.
Qed.
Lemma pow10_int a : (0 <= a)%Z -> exists k, powerRZ 10 a = IZR k.
Proof. intros H. exists (10 ^ a)%Z. rewrite <- (Z2Nat.id a H). rewrite <- pow_powerRZ. rewrite pow_IZR. reflexivity. Qed.
Lemma roundsd_exact k e n x : 0 < x -> x = IZR k * powerRZ 10 e -> (unit_exp (magnitude x) n <= e)%Z -> roundsd x (Some n) = x.
Proof.
  intros H E L. rewrite roundsd_pos by exact H. set (d := unit_exp (magnitude x) n) in *. destruct (pow10_int (e - d) ltac:(lia)) as (j & J). pose proof (pow10_pos d) as P.
  assert (X : x / powerRZ 10 d = IZR (k * j)). { rewrite mult_IZR, <- J. rewrite E at 1. replace e with (e - d + d)%Z at 1 by lia. rewrite pow10_add. field. lra. }
  rewrite X, round0_int, <- X. field. lra.
Qed.
Lemma roundsd_idem x n : (1 <= n)%Z -> roundsd (roundsd x (Some n)) (Some n) = roundsd x (Some n).
Proof.
  intros Hn. destruct (Rle_dec x 0) as [L|L]; [assert (E : roundsd x (Some n) = x) by (unfold roundsd; rewrite rle_true by exact L; reflexivity); rewrite !E; reflexivity|].
  assert (H : 0 < x) by lra. set (m := magnitude x). pose proof (mag_spec x H) as M. fold m in M. destruct (roundsd_spec x n m H M) as (N & k & K). cbv zeta in N, K.
  set (r := roundsd x (Some n)) in *. fold (unit_exp m n) in N, K. set (e := unit_exp m n) in *. set (u := powerRZ 10 e) in *. assert (U : 0 < u) by apply pow10_pos.
  assert (Le : (e <= m)%Z) by (unfold e, unit_exp; destruct (Z.leb_spec m n); lia).
  destruct (pow10_int (m - e) ltac:(lia)) as (k1 & K1). destruct (pow10_int (m + 1 - e) ltac:(lia)) as (k2 & K2).
  assert (P1 : powerRZ 10 m = IZR k1 * u) by (rewrite <- K1; unfold u; rewrite <- pow10_add; f_equal; lia). assert (P2 : powerRZ 10 (m + 1) = IZR k2 * u) by (rewrite <- K2; unfold u; rewrite <- pow10_add; f_equal; lia).
  rewrite K in N. assert (N1 : - (u / 2) <= IZR k * u - x <= u / 2) by (unfold Rabs in N; destruct (Rcase_abs _) in N; lra). rewrite P1, P2 in M.
  assert (B1 : (k1 <= k)%Z). { assert (IZR k1 * u < IZR (k + 1) * u) by (rewrite plus_IZR; lra). apply Rmult_lt_reg_r in H0; [|exact U]. apply lt_IZR in H0. lia. }
  assert (B2 : (k <= k2)%Z). { assert (IZR k * u < IZR (k2 + 1) * u) by (rewrite plus_IZR; lra). apply Rmult_lt_reg_r in H0; [|exact U]. apply lt_IZR in H0. lia. }
  assert (R1 : powerRZ 10 m <= r) by (rewrite K, P1; apply Rmult_le_compat_r; [lra|apply IZR_le; exact B1]). assert (R0 : 0 < r) by (pose proof (pow10_pos m); lra).
  destruct (Z.eq_dec k k2) as [->|Ne].
  - assert (Er : r = powerRZ 10 (m + 1)) by (rewrite K, P2; reflexivity). apply (roundsd_exact 1 (m + 1)); [exact R0|rewrite Er; ring|].
    assert (Mr : magnitude r = (m + 1)%Z). { apply mag_unique; [exact R0|]. rewrite Er. split; [lra|]. apply pow10_lt. lia. } rewrite Mr. unfold unit_exp. destruct (Z.leb_spec (m + 1) n); lia.
  - apply (roundsd_exact k e); [exact R0|exact K|]. assert (Mr : magnitude r = m). { apply mag_unique; [exact R0|]. split; [exact R1|]. rewrite K, P2. apply Rmult_lt_compat_r; [exact U|]. apply IZR_lt. lia. } rewrite Mr. unfold e. lia.
Qed.

(** ** strategies of the SDK *)
Lemma set2_spec a b c d : set2_eqb a b c d = true <-> ((a = c \/ a = d) /\ (b = c \/ b = d) /\ (c = a \/ c = b) /\ (d = a \/ d = b)).
Proof. unfold set2_eqb. rewrite !andb_true_iff, !orb_true_iff, !String.eqb_eq. tauto. Qed.
Lemma sdk_name_spec tokens a d n : names_as tokens a d n -> sdk_name tokens a d = Ret n.
Proof. unfold names_as, sdk_name, SdkModel.byticker. destruct (SdkModel.dget _ _) as [t|]; intros ->; reflexivity. Qed.
Lemma pair_again nb nq : plain nb -> plain nq -> exists p, mk_pair NoSlash (Some nb) (Some nq) false = Some p /\ exists p', mk_pair (SlashPair p) None None false = Some p' /\ tknb p' = nb /\ tknq p' = nq.
Proof.
  intros [U1 S1] [U2 S2]. apply no_slash_free in S1, S2. unfold mk_pair at 1. cbn [slash_truthy str_truthy orb]. eexists. split; [reflexivity|].
  unfold mk_pair. cbn [slash_truthy str_truthy orb]. unfold slashpair_of. cbn [tknb tknq]. rewrite U1, U2. rewrite split_app by assumption. eexists. split; [reflexivity|]. cbn. auto.
Qed.
Lemma from_sdk tokens k nsd nb nq yb zb yq zq : let r v := roundsd v nsd in
  k_base k <> k_quote k ->
  (k_token0 k = k_base k /\ k_token1 k = k_quote k /\ (yb, zb, yq, zq) = (k_y0 k, k_z0 k, k_y1 k, k_z1 k) \/
   k_token1 k = k_base k /\ k_token0 k = k_quote k /\ (yb, zb, yq, zq) = (k_y1 k, k_z1 k, k_y0 k, k_z0 k)) ->
  names_as tokens (k_base k) "TKNB" nb -> names_as tokens (k_quote k) "TKNQ" nq -> plain nb -> plain nq -> nb <> nq ->
  0 < r (k_buyLow k) -> 0 < r (k_buyHigh k) -> 0 < r (k_sellLow k) -> 0 < r (k_sellHigh k) -> 0 <= r (k_buyBudget k) -> 0 <= r (k_sellBudget k) ->
  (0 <= yb <= zb)%Z -> (0 < zb)%Z -> (0 <= yq <= zq)%Z -> (0 < zq)%Z ->
  exists buy sell, from_SDK tokens k nsd = Ret (buy, sell) /\
   u_tkn sell = nb /\ u_tkn buy = nq /\ (tknb (u_pair sell) = nb /\ tknq (u_pair sell) = nq) /\ (tknb (u_pair buy) = nb /\ tknq (u_pair buy) = nq) /\
   (c_base (u_curve sell) = true /\ c_yint (u_curve sell) = r (k_sellBudget k) /\ c_y (u_curve sell) = r (k_sellBudget k) * (IZR yb / IZR zb) /\
    pminmax (u_curve sell) = Ret (Some (Rmin (r (k_sellLow k)) (r (k_sellHigh k)), Rmax (r (k_sellLow k)) (r (k_sellHigh k))))) /\
   (c_base (u_curve buy) = false /\ c_yint (u_curve buy) = r (k_buyBudget k) /\ c_y (u_curve buy) = r (k_buyBudget k) * (IZR yq / IZR zq) /\
    pminmax (u_curve buy) = Ret (Some (Rmin (r (k_buyLow k)) (r (k_buyHigh k)), Rmax (r (k_buyLow k)) (r (k_buyHigh k))))).
Proof.
  intros r Nbq Tok Hb Hq Pb Pq Nn B1 B2 S1 S2 Bb Sb Yb Zb Yq Zq. unfold from_SDK.
  assert (S2e : set2_eqb (k_base k) (k_quote k) (k_token0 k) (k_token1 k) = true) by (apply set2_spec; intuition). rewrite S2e. cbn [negb].
  assert (Sel : (if String.eqb (k_base k) (k_token0 k) then (k_y0 k, k_z0 k, k_y1 k, k_z1 k) else (k_y1 k, k_z1 k, k_y0 k, k_z0 k)) = (yb, zb, yq, zq)).
  { destruct Tok as [(A & B & C)|(A & B & C)]; rewrite C; destruct (String.eqb_spec (k_base k) (k_token0 k)); congruence. }
  rewrite Sel. rewrite (sdk_name_spec _ _ _ _ Hq), (sdk_name_spec _ _ _ _ Hb). cbn [rbind]. unfold ratio. destruct (Z.eqb_spec zq 0); [lia|]. destruct (Z.eqb_spec zb 0); [lia|]. cbn [rbind].
  destruct (pair_again nb nq Pb Pq) as (p & E & p' & E' & T1 & T2). rewrite E.
  assert (Hfr : forall y z, (0 <= y <= z)%Z -> (0 < z)%Z -> 0 <= IZR y / IZR z <= 1).
  { intros y z Hy Hz. apply IZR_lt in Hz. destruct Hy as [Y1 Y2]. apply IZR_le in Y1, Y2. split; [apply Rmult_le_pos; [exact Y1|left; apply Rinv_0_lt_compat; exact Hz]|]. apply (Rmult_le_reg_r (IZR z)); [exact Hz|]. unfold Rdiv. rewrite Rmult_assoc, Rinv_l by lra. lra. }
  assert (Fb := Hfr yb zb Yb Zb). assert (Fq := Hfr yq zq Yq Zq). fold (r (k_sellLow k)) (r (k_sellHigh k)) (r (k_sellBudget k)) (r (k_buyLow k)) (r (k_buyHigh k)) (r (k_buyBudget k)).
  assert (Bnd : forall v f, 0 <= v -> 0 <= f <= 1 -> 0 <= v * f <= v). { intros v f V F. split; [apply Rmult_le_pos; lra|]. rewrite <- (Rmult_1_r v) at 2. apply Rmult_le_compat_l; lra. }
  unfold ui_from_prices. rewrite E'. assert (H1 : has_basetoken p' nb = true) by (unfold has_basetoken; rewrite T1; apply String.eqb_refl). assert (H2 : has_basetoken p' nq = false) by (unfold has_basetoken; rewrite T1; apply String.eqb_neq; congruence).
  assert (H3 : has_token p' nb = true) by (unfold has_token; rewrite H1; destruct (has_quotetoken p' nb); reflexivity). assert (H4 : has_token p' nq = true) by (unfold has_token, has_quotetoken; rewrite T2, String.eqb_refl; reflexivity).
  destruct Pb as [Ub _]. destruct Pq as [Uq _]. rewrite Ub, Uq, H1, H2, H3, H4.
  destruct (from_prices_ok true _ _ _ _ S1 S2 (Bnd _ _ Sb Fb)) as (cs & Es & K1 & K2 & K3 & _ & _ & _ & K7 & _). rewrite Es. cbn [rbind].
  destruct (from_prices_ok false _ _ _ _ B2 B1 (Bnd _ _ Bb Fq)) as (cb & Eb & L1 & L2 & L3 & _ & _ & _ & L7 & _). rewrite Eb. cbn [rbind].
  do 2 eexists. split; [reflexivity|]. cbn [u_tkn u_pair u_curve]. rewrite K1, K2, K3, K7, L1, L2, L3, L7. rewrite (Rmin_comm (r (k_buyHigh k))), (Rmax_comm (r (k_buyHigh k))). auto 20.
Qed.
Lemma from_sdk_errors tokens k nsd : let same := forall t, (t = k_base k \/ t = k_quote k) <-> (t = k_token0 k \/ t = k_token1 k) in
  (~ same -> from_SDK tokens k nsd = Raise ValueError) /\ (same -> k_z0 k = 0%Z \/ k_z1 k = 0%Z -> from_SDK tokens k nsd = Raise ZeroDivision).
Proof.
  intros same. unfold from_SDK. split.
  - intros H. destruct (set2_eqb _ _ _ _) eqn:E; [|reflexivity]. apply set2_spec in E. exfalso. apply H. intros t. destruct E as (A & B & C & D). split; (intros [-> | ->]; assumption).
  - intros H Z. assert (E : set2_eqb (k_base k) (k_quote k) (k_token0 k) (k_token1 k) = true).
    { apply set2_spec. repeat split; [exact (proj1 (H _) (or_introl eq_refl))|exact (proj1 (H _) (or_intror eq_refl))|exact (proj2 (H _) (or_introl eq_refl))|exact (proj2 (H _) (or_intror eq_refl))]. }
    rewrite E. cbn [negb].
    assert (G : forall yb zb yq zq, zb = 0%Z \/ zq = 0%Z -> forall f, (let* tknq := sdk_name tokens (k_quote k) "TKNQ" in let* tknql := ratio yq zq in let* tknb := sdk_name tokens (k_base k) "TKNB" in let* tknbl := ratio yb zb in f tknq tknql tknb tknbl) = Raise ZeroDivision :> res (ui * ui)).
    { intros yb zb yq zq Hz f. unfold sdk_name, SdkModel.byticker, SdkModel.not_found. destruct (SdkModel.dget (upper (k_quote k)) _), (SdkModel.dget (upper (k_base k)) _); cbn [rbind]; unfold ratio; destruct (Z.eqb_spec zq 0); [reflexivity| |reflexivity| |reflexivity| |reflexivity|]; cbn [rbind]; (destruct (Z.eqb_spec zb 0); [reflexivity|exfalso; tauto]). }
    destruct (String.eqb (k_base k) (k_token0 k)); [apply (G (k_y0 k) (k_z0 k) (k_y1 k) (k_z1 k)); tauto|apply (G (k_y1 k) (k_z1 k) (k_y0 k) (k_z0 k)); tauto].
Qed.

(** ** parameters for the contract *)
Lemma trunc_pos x : 0 <= x -> IZR (truncR x) <= x < IZR (truncR x) + 1.
Proof. intros H. unfold truncR. rewrite rlt_false by exact H. apply ip_spec. Qed.
Lemma half_sq d : Rpower 10 (IZR d / 2) * Rpower 10 (IZR d / 2) = powerRZ 10 d /\ 0 < Rpower 10 (IZR d / 2).
Proof. split; [rewrite <- Rpower_plus; replace (IZR d / 2 + IZR d / 2) with (IZR d) by field; symmetry; apply powerRZ_Rpower; lra|unfold Rpower; apply exp_pos]. Qed.
Lemma yz_spec u sx db dq : tknb_decimals (u_pair u) = Some db -> tknq_decimals (u_pair u) = Some dq -> 0 <= c_B (u_curve u) -> 0 <= c_S (u_curve u) ->
  let c := u_curve u in let decy := if c_base c then db else dq in let decx := if c_base c then dq else db in
  exists d, yzABS u sx = Ret d /\ z_y d = c_y c * powerRZ 10 decy /\ z_z d = c_yint c * powerRZ 10 decy /\ z_S d = (2 ^ Z.of_nat sx)%Z /\
   (IZR (z_A d) <= c_S c * sqrt (powerRZ 10 (decy - decx)) * 2 ^ sx < IZR (z_A d) + 1) /\ (IZR (z_B d) <= c_B c * sqrt (powerRZ 10 (decy - decx)) * 2 ^ sx < IZR (z_B d) + 1).
Proof.
  intros Db Dq HB HS c decy decx. unfold yzABS. rewrite Db, Dq. fold c. fold decy decx. eexists. split; [reflexivity|]. cbn [z_y z_z z_S z_A z_B]. destruct (half_sq (decy - decx)) as [Sq Pos].
  assert (F : sqrt (powerRZ 10 (decy - decx)) = Rpower 10 (IZR (decy - decx) / 2)) by (rewrite <- Sq; apply sqrt_square; lra). rewrite F. assert (P2 : 0 < 2 ^ sx) by (apply pow_lt; lra).
  repeat (split; [reflexivity|]). split; apply trunc_pos; (apply Rmult_le_pos; [apply Rmult_le_pos; [assumption|lra]|lra]).
Qed.
Lemma yz_price u sx db dq d : tknb_decimals (u_pair u) = Some db -> tknq_decimals (u_pair u) = Some dq -> valid (u_curve u) -> yzABS u sx = Ret d ->
  let c := u_curve u in let decy := if c_base c then db else dq in let decx := if c_base c then dq else db in
  let q := B_unscaled d + A_unscaled d * (z_y d / z_z d) in let exact := sqrt (raw_price c (c_y c) * powerRZ 10 (decy - decx)) in
  exact - 2 / 2 ^ sx < q <= exact.
Proof.
  intros Db Dq V E c decy decx q ex. pose proof V as (HB & HS & HZ & HY). destruct (yz_spec u sx db dq Db Dq ltac:(lra) HS) as (d' & E' & Y & Z & Sc & A & B). rewrite E in E'. injection E' as <-. fold c in HB, HS, HZ, HY, Y, Z, A, B. fold decy decx in Y, Z, A, B.
  assert (P2 : 0 < 2 ^ sx) by (apply pow_lt; lra). set (w := sqrt (powerRZ 10 (decy - decx))) in *. assert (W : 0 < w) by (apply sqrt_lt_R0, pow10_pos). set (t := c_y c / c_yint c). assert (Ht : 0 <= t <= 1).
  { unfold t. split; [apply Rmult_le_pos; [lra|left; apply Rinv_0_lt_compat; exact HZ]|]. apply (Rmult_le_reg_r (c_yint c)); [exact HZ|]. unfold Rdiv. rewrite Rmult_assoc, Rinv_l by lra. lra. }
  assert (Ex : ex = (c_B c + c_S c * t) * w). { unfold ex, raw_price. fold t. rewrite sqrt_mult; [|apply pow2_ge_0|left; apply pow10_pos]. fold w. rewrite sqrt_pow2; [reflexivity|]. assert (0 <= c_S c * t) by (apply Rmult_le_pos; lra). lra. }
  assert (Tt : z_y d / z_z d = t). { rewrite Y, Z. unfold t. pose proof (pow10_pos decy). field. lra. }
  assert (Sr : IZR (z_S d) = 2 ^ sx) by (rewrite Sc, <- pow_IZR; reflexivity).
  unfold q, A_unscaled, B_unscaled. rewrite Tt, Sr. set (a := IZR (z_A d)) in *. set (b := IZR (z_B d)) in *. assert (Q : b / 2 ^ sx + a / 2 ^ sx * t = (b + a * t) / 2 ^ sx) by (field; lra). rewrite Q, Ex.
  assert (X1 : a * t <= c_S c * w * 2 ^ sx * t) by (apply Rmult_le_compat_r; lra). assert (X2 : (c_S c * w * 2 ^ sx - 1) * t <= a * t) by (apply Rmult_le_compat_r; lra).
  assert (Eq : (c_B c + c_S c * t) * w = (c_B c * w * 2 ^ sx + c_S c * w * 2 ^ sx * t) / 2 ^ sx) by (field; lra). rewrite Eq. split.
  - replace (_ / 2 ^ sx - 2 / 2 ^ sx) with ((c_B c * w * 2 ^ sx + c_S c * w * 2 ^ sx * t - 2) / 2 ^ sx) by (field; lra). apply Rmult_lt_compat_r; [apply Rinv_0_lt_compat; exact P2|]. lra.
  - apply Rmult_le_compat_r; [left; apply Rinv_0_lt_compat; exact P2|]. lra.
Qed.
Lemma yz_error u sx : tknb_decimals (u_pair u) = None \/ tknq_decimals (u_pair u) = None -> yzABS u sx = Raise ValueError.
Proof. intros [H|H]; unfold yzABS; rewrite H; [reflexivity|]. destruct (tknb_decimals _); reflexivity. Qed.
