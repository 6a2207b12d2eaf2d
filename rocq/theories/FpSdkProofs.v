(** Encoded orders in double precision. *)
From Coq Require Import ZArith QArith Qreals Qround Reals Bool Lia Lra String.
From Flocq Require Import Core Relative Mult_error IEEE754.BinarySingleNaN IEEE754.Binary IEEE754.Bits.
From Verif Require Import TradeModel CurveModel SdkModel FpModel FpSpec FpProofs FpProofs2 FpProofs3 FpSdkModel.
Local Open Scope R_scope.

Lemma val_ONE : val fONE = bpow radix2 48.
Proof.
  unfold val, fONE, B2R, F2R. cbn [Fnum Fexp cond_Zopp]. change (IZR 4503599627370496) with (bpow radix2 52).
  rewrite <- bpow_plus. reflexivity.
Qed.
Lemma val_finite : forall s m e H, val (B754_finite 53 1024 s m e H) = IZR (cond_Zopp s (Z.pos m)) * bpow radix2 e.
Proof. reflexivity. Qed.
(** truncation *)
Lemma fint_floor : forall f, finite f -> 0 <= val f -> fint f = Ret (Zfloor (val f)).
Proof.
  intros f Ff P. destruct f as [s | s | s pl e | s m e He]; try discriminate.
  - cbn [fint]. change (val (B754_zero 53 1024 s)) with (IZR 0). rewrite Zfloor_IZR. reflexivity.
  - destruct s.
    { exfalso. exact (Rlt_not_le _ _ (F2R_lt_0 radix2 (Float radix2 (Z.neg m) e) (eq_refl _)) P). }
    cbn [fint cond_Zopp]. rewrite val_finite. cbn [cond_Zopp]. f_equal. symmetry.
    destruct (Z.leb_spec 0 e) as [L | L].
    + rewrite <- IZR_Zpower by assumption. rewrite <- mult_IZR. apply Zfloor_IZR.
    + replace (bpow radix2 e) with (/ bpow radix2 (- e)) by (rewrite <- bpow_opp; f_equal; lia).
      rewrite <- IZR_Zpower by lia. fold (IZR (Z.pos m) / IZR (radix2 ^ (- e))).
      apply Zfloor_div. pose proof (Zpower_gt_0 radix2 (- e)). lia.
Qed.
(** multiplying by a power of two is exact *)
Lemma mul_ONE : forall f, finite f -> fits 200 (val f) -> finite (fmul f fONE) /\ val (fmul f fONE) = val f * bpow radix2 48.
Proof.
  intros f Ff F. pose proof (fits_pos _ _ F) as P.
  pose proof (Bmult_correct 53 1024 (eq_refl _) (eq_refl _) binop_nan_pl64 mode_NE f fONE) as C.
  fold (val f) in C. fold (val fONE) in C. rewrite val_ONE in C.
  rewrite round_generic in C; [| auto with typeclass_instances |].
  - rewrite Rlt_bool_true in C.
    + destruct C as (C1 & C2 & _). unfold finite in Ff. rewrite Ff in C2. split; [exact C2 | exact C1].
    + rewrite Rabs_pos_eq by (apply Rmult_le_pos; [exact P | apply bpow_ge_0]).
      apply Rle_lt_trans with (bpow radix2 200 * bpow radix2 48).
      * apply Rmult_le_compat_r; [apply bpow_ge_0 |]. destruct F as [F | [_ F]]; [rewrite F; apply bpow_ge_0 | exact F].
      * rewrite <- bpow_plus. apply bpow_lt. lia.
  - change (SpecFloat.fexp 53 1024) with (FLT_exp (-1074) 53). apply mult_bpow_pos_exact_FLT; [| lia].
    apply (generic_format_B2R 53 1024).
Qed.
(** floor of a number and integer root of the floor of its square *)
Lemma sqrt_floor : forall x, 0 <= x -> Z.sqrt (Zfloor (x * x)) = Zfloor x.
Proof.
  intros x P. pose proof (Zfloor_lb x) as L. pose proof (Zfloor_ub x) as U.
  assert (N : (0 <= Zfloor x)%Z) by (apply Zfloor_lub; exact P).
  apply IZR_le in N. apply Z.sqrt_unique. split.
  - apply Zfloor_lub. rewrite mult_IZR. apply Rmult_le_compat; assumption.
  - apply lt_IZR. apply Rle_lt_trans with (x * x); [apply Zfloor_lb |]. unfold Z.succ. rewrite mult_IZR, plus_IZR.
    apply Rmult_le_0_lt_compat; assumption.
Qed.
Lemma Qfloor_Zfloor : forall q, Qfloor q = Zfloor (Q2R q).
Proof.
  intros q. symmetry. apply Zfloor_imp. pose proof (Qfloor_le q) as H1. pose proof (Qlt_floor q) as H2. split.
  - apply Qle_Rle in H1. unfold inject_Z in H1. unfold Q2R at 1 in H1. simpl in H1. lra.
  - apply Qlt_Rlt in H2. unfold inject_Z in H2. unfold Q2R at 2 in H2. simpl in H2. lra.
Qed.
(** the rational value of a float *)
Definition toQ (f : fl) : Q :=
  match f with
  | B754_finite _ _ s m e _ => if (0 <=? e)%Z then inject_Z (cond_Zopp s (Z.pos m) * 2 ^ e) else (cond_Zopp s (Z.pos m) # Z.to_pos (2 ^ (- e)))
  | _ => 0%Q
  end.
Lemma toQ_val : forall f, Q2R (toQ f) = val f.
Proof.
  intros [s | s | s pl e | s m e He]; cbn [toQ]; try (change (val _) with 0; unfold Q2R; simpl; lra).
  rewrite val_finite. destruct (Z.leb_spec 0 e) as [L | L].
  - unfold Q2R, inject_Z. cbn [Qnum Qden]. rewrite mult_IZR, (IZR_Zpower radix2) by assumption. field.
  - unfold Q2R. cbn [Qnum Qden].
    assert (E : Z.pos (Z.to_pos (2 ^ (- e))) = (2 ^ (- e))%Z) by (apply Z2Pos.id; apply (Zpower_gt_0 radix2); lia).
    rewrite E, (IZR_Zpower radix2) by lia. rewrite <- bpow_opp. do 2 f_equal. lia.
Qed.
Lemma Q2R_ONE2 : Q2R (inject_Z (ONE * ONE)) = bpow radix2 48 * bpow radix2 48.
Proof. rewrite <- bpow_plus. unfold Q2R, inject_Z. cbn [Qnum Qden]. change (ONE * ONE)%Z with (radix2 ^ (48 + 48))%Z. rewrite IZR_Zpower by lia. field. Qed.

(** the rate of a float is the rate of a rational number close to it *)
Lemma rate_same : forall v, finite v -> fits 100 (val v) ->
  exists s, fsqrt v = Ret s /\ near 1 (sqrt (val v)) s /\ val s = round radix2 (SpecFloat.fexp 53 1024) (round_mode mode_NE) (sqrt (val v)) /\
    feo_encodeRate v = eo_encodeRate (toQ s * toQ s)%Q.
Proof.
  intros v Fv F. pose proof (fits_pos _ _ F) as P.
  destruct (near_sqrt 0 (val v) v) as (s & E & N & V).
  { apply near_0; assumption. } { apply few_small; lia. } { apply fits_le with 100%Z; [lia | exact F]. }
  exists s. split; [exact E |]. split; [exact N |]. split; [exact V |].
  assert (Fs : fits 51 (val s)).
  { apply (fits_of_near 1 50 (sqrt (val v))); [exact N | apply few_small; lia | | lia]. apply sqrt_fits; [lia | exact F]. }
  destruct (mul_ONE s (proj1 N)) as (M1 & M2); [apply fits_le with 51%Z; [lia | exact Fs] |].
  pose proof (fits_pos _ _ Fs) as Ps.
  assert (Pm : 0 <= val (fmul s fONE)) by (rewrite M2; apply Rmult_le_pos; [exact Ps | apply bpow_ge_0]).
  unfold feo_encodeRate. rewrite E. cbn [rbind]. rewrite (fint_floor _ M1 Pm). cbn [rbind].
  unfold eo_encodeRate, encodeRate.
  assert (Hq : Qle_bool 0 (toQ s * toQ s) = true).
  { apply Qle_bool_iff. apply Rle_Qle. rewrite Q2R_mult, toQ_val. replace (Q2R 0) with 0 by (unfold Q2R; simpl; lra). apply Rmult_le_pos; exact Ps. }
  rewrite Hq. rewrite Qfloor_Zfloor, !Q2R_mult, toQ_val, Q2R_ONE2.
  replace (val s * val s * (bpow radix2 48 * bpow radix2 48)) with (val (fmul s fONE) * val (fmul s fONE)) by (rewrite M2; ring).
  rewrite sqrt_floor by exact Pm. reflexivity.
Qed.
Lemma square_near : forall x s, near 1 (sqrt x) s -> 0 <= x -> Rabs (Q2R (toQ s * toQ s) - x) <= bpow radix2 (-51) * x.
Proof.
  intros x s N Px. rewrite Q2R_mult, toQ_val. pose proof (near_pos _ _ _ N) as Ps. destruct N as (_ & N0 & N1 & N2).
  rewrite pow_1 in N1, N2. pose proof (sqrt_sqrt x Px) as E. set (r := sqrt x) in *. set (t := val s) in *.
  pose proof u_pos. pose proof u_small. pose proof c_ge. pose proof c_inv. pose proof c_pos.
  assert (Eu : bpow radix2 (-51) = 4 * u).
  { unfold u. change 4 with (bpow radix2 2). rewrite <- bpow_plus. reflexivity. }
  rewrite Eu, <- E.
  assert (C2 : c <= 1 + 3 / 2 * u).
  { apply Rmult_le_reg_r with (1 - u); [lra |]. rewrite c_inv. nra. }
  assert (L : r * (1 - u) <= t).
  { apply Rmult_le_reg_r with c; [assumption |]. replace (r * (1 - u) * c) with (r * (c * (1 - u))) by ring. rewrite c_inv. lra. }
  assert (U : t <= r * (1 + 3 / 2 * u)) by nra.
  assert (T1 : r * (1 - u) * (r * (1 - u)) <= t * t) by (apply Rmult_le_compat; nra).
  assert (T2 : t * t <= r * (1 + 3 / 2 * u) * (r * (1 + 3 / 2 * u))) by (apply Rmult_le_compat; nra).
  assert (Q0 : 0 <= r * r) by nra.
  apply Rabs_le. split.
  - assert ((1 - u) * (1 - u) >= 1 - 4 * u) by nra. nra.
  - assert ((1 + 3 / 2 * u) * (1 + 3 / 2 * u) <= 1 + 4 * u) by nra. nra.
Qed.

Lemma encode_same : forall y hi lo z t, finite hi -> fits 100 (val hi) -> finite lo -> fits 100 (val lo) ->
  exists qh ql : Q, Rabs (Q2R qh - val hi) <= bpow radix2 (-51) * val hi /\ Rabs (Q2R ql - val lo) <= bpow radix2 (-51) * val lo /\
    (val lo <= val hi -> (ql <= qh)%Q) /\ (0 <= ql)%Q /\
    feo_encode y hi lo z t = eo_encode (inject_Z y) qh ql None (option_map inject_Z z) t.
Proof.
  intros y hi lo z t Fh Rh Fl Rl.
  destruct (rate_same hi Fh Rh) as (sh & _ & Nh & Vh & Eh). destruct (rate_same lo Fl Rl) as (sl & _ & Nl & Vl & El).
  exists (toQ sh * toQ sh)%Q, (toQ sl * toQ sl)%Q.
  split; [apply square_near; [exact Nh | apply (fits_pos _ _ Rh)] |].
  split; [apply square_near; [exact Nl | apply (fits_pos _ _ Rl)] |].
  pose proof (near_pos _ _ _ Nl) as Pl.
  split; [| split].
  - intros L. apply Rle_Qle. rewrite !Q2R_mult, !toQ_val.
    assert (val sl <= val sh).
    { rewrite Vl, Vh. apply round_le; auto with typeclass_instances.
      - change (Valid_exp (FLT_exp (-1074) 53)). apply FLT_exp_valid. reflexivity.
      - apply sqrt_le_1_alt. exact L. }
    apply Rmult_le_compat; assumption.
  - apply Rle_Qle. rewrite Q2R_mult, toQ_val. replace (Q2R 0) with 0 by (unfold Q2R; simpl; lra). apply Rmult_le_pos; exact Pl.
  - unfold feo_encode, eo_encode. rewrite Eh, El. destruct z as [z |]; cbn [option_map];
      (destruct (eo_encodeRate (toQ sh * toQ sh)); [| reflexivity]); cbn [rbind];
      (destruct (eo_encodeRate (toQ sl * toQ sl)); [| reflexivity]); cbn [rbind]; f_equal;
      unfold qtrunc; rewrite ?Qfloor_Z, ?Qceiling_Z; repeat (destruct (Qle_bool _ _)); reflexivity.
Qed.
Lemma encode_neg : forall y hi lo z t, (finite hi /\ val hi < 0) \/ (finite hi /\ fits 100 (val hi) /\ finite lo /\ val lo < 0) ->
  feo_encode y hi lo z t = Raise ValueError.
Proof.
  assert (W : forall v, finite v -> val v < 0 -> feo_encodeRate v = Raise ValueError).
  { intros v Fv Nv. unfold feo_encodeRate, fsqrt. rewrite (flt_correct _ _ Fv fin_zero), val_zero. unfold rlt.
    destruct (Rlt_dec (val v) 0); [reflexivity | lra]. }
  intros y hi lo z t [(Fh & Nh) | (Fh & Rh & Fl & Nl)]; unfold feo_encode.
  - rewrite (W hi Fh Nh). reflexivity.
  - destruct (rate_same hi Fh Rh) as (sh & _ & _ & _ & Eh). rewrite Eh. unfold eo_encodeRate.
    destruct (encodeRate (toQ sh * toQ sh)); [cbn [rbind]; rewrite (W lo Fl Nl); reflexivity | reflexivity].
Qed.

(** decoding is exact *)
Definition small_exponent (v : Z) : Prop := (0 <= v / ONE <= 200)%Z.
Lemma decode_same : forall v, small_exponent v ->
  exists f q, feo_decode v = Ret f /\ eo_decode v = Ret q /\ finite f /\ val f = Q2R q /\ fits 250 (val f).
Proof.
  intros v (L & U). unfold feo_decode, eo_decode. destruct (Z.ltb_spec (v / ONE) 0) as [H | _]; [lia |].
  assert (PO : (0 < ONE)%Z) by reflexivity.
  pose proof (Z.mod_pos_bound v ONE PO) as (M0 & M1). set (m := (v mod ONE)%Z) in *. set (k := (v / ONE)%Z) in *.
  assert (ED : decodeFloat v = (m * 2 ^ k)%Z) by (unfold decodeFloat; fold m k; apply Z.shiftl_mul_pow2; exact L).
  set (x := IZR m * bpow radix2 (k - 48)).
  assert (EX : F2R (Float radix2 (decodeFloat v) (-48)) = x).
  { unfold F2R. cbn [Fnum Fexp]. rewrite ED, mult_IZR, (IZR_Zpower radix2) by lia. unfold x. rewrite Rmult_assoc, <- bpow_plus. reflexivity. }
  assert (FX : generic_format radix2 (SpecFloat.fexp 53 1024) x).
  { change (SpecFloat.fexp 53 1024) with (FLT_exp (-1074) 53). apply generic_format_FLT.
    exists (Float radix2 m (k - 48)).
    - reflexivity.
    - cbn [Fnum]. rewrite Z.abs_eq by assumption. apply Z.lt_trans with (1 := M1). reflexivity.
    - cbn [Fexp]. lia. }
  assert (Ft : fits 250 x).
  { destruct (Z.eq_dec m 0) as [E0 | E0]; [left; unfold x; rewrite E0; ring |]. right. unfold x.
    assert (1 <= IZR m) by (apply IZR_le; lia).
    assert (IZR m <= bpow radix2 48) by (change (bpow radix2 48) with (IZR ONE); apply IZR_le; lia).
    split.
    - apply Rle_trans with (1 * bpow radix2 (k - 48)); [rewrite Rmult_1_l; apply bpow_le; lia |]. apply Rmult_le_compat_r; [apply bpow_ge_0 | assumption].
    - apply Rle_trans with (bpow radix2 48 * bpow radix2 (k - 48)); [apply Rmult_le_compat_r; [apply bpow_ge_0 | assumption] |].
      rewrite <- bpow_plus. apply bpow_le. lia. }
  pose proof (binary_normalize_correct 53 1024 (eq_refl _) (eq_refl _) mode_NE (decodeFloat v) (-48) false) as C.
  rewrite EX in C. rewrite round_generic in C by (auto with typeclass_instances). rewrite Rlt_bool_true in C.
  - destruct C as (C1 & C2 & _). unfold fdiv_one. cbn zeta. rewrite C2.
    eexists. eexists. split; [reflexivity |]. split; [reflexivity |]. split; [exact C2 |].
    match goal with |- val ?f = _ /\ _ => assert (V : val f = x) by exact C1 end. rewrite V. split; [| exact Ft].
    rewrite Q2R_div by discriminate. rewrite <- EX. unfold F2R. cbn [Fnum Fexp]. unfold Q2R, inject_Z. cbn [Qnum Qden].
    change (bpow radix2 (-48)) with (/ IZR ONE). field. unfold ONE. apply IZR_neq. discriminate.
  - rewrite Rabs_pos_eq by (apply (fits_pos _ _ Ft)). destruct Ft as [E0 | [_ U']]; [rewrite E0; apply bpow_gt_0 |].
    apply Rle_lt_trans with (1 := U'). apply bpow_lt. lia.
Qed.
Lemma p_end_same : forall o, small_exponent (eo_B o) ->
  exists f q, feo_p_end o = Ret f /\ eo_p_end o = Ret q /\ close (bpow radix2 (-52)) f (Q2R q).
Proof.
  intros o H. destruct (decode_same _ H) as (b & q & E1 & E2 & Fb & V & Ft).
  unfold feo_p_end, eo_p_end, feo_B_, eo_B_. rewrite E1, E2. cbn [rbind]. eexists. eexists. split; [reflexivity |]. split; [reflexivity |].
  rewrite Q2R_mult, <- V. pose proof (near_0 b Fb (fits_pos _ _ Ft)) as N.
  assert (M : near 1 (val b * val b) (fmul b b)).
  { apply (near_mul 0 0); try assumption; [apply few_small; lia |]. apply fits_le with 500%Z; [lia |]. apply (fits_mul 250 250); assumption. }
  pose proof u_pos. pose proof u_small. apply near_close_gen with (1 := M); simpl INR; [lra |]. rewrite Rmult_1_l.
  replace (bpow radix2 (-52)) with (2 * u) by (unfold u; change 2 with (bpow radix2 1); rewrite <- bpow_plus; reflexivity).
  apply Rmult_le_reg_r with (1 - u); [lra |]. replace (u / (1 - u) * (1 - u)) with u by (field; lra).
  assert (0 <= u * (1 - 2 * u)) by (apply Rmult_le_pos; lra). lra.
Qed.
Lemma p_start_same : forall pw o, accurate pw -> small_exponent (eo_A o) -> small_exponent (eo_B o) ->
  exists f q, feo_p_start pw o = Ret f /\ eo_p_start o = Ret q /\ close (bpow radix2 (-50)) f (Q2R q).
Proof.
  intros pw o A HA HB. destruct (decode_same _ HB) as (b & q & E1 & E2 & Fb & V & Ft). destruct (decode_same _ HA) as (a & r & E3 & E4 & Fa & V' & Ft').
  unfold feo_p_start, eo_p_start, feo_B_, eo_B_, feo_A_, eo_A_. rewrite E1, E2. cbn [rbind]. rewrite E3, E4. cbn [rbind].
  eexists. eexists. split; [reflexivity |]. split; [reflexivity |].
  rewrite Q2R_mult, !Q2R_plus, <- V, <- V'.
  pose proof (near_0 b Fb (fits_pos _ _ Ft)) as N. pose proof (near_0 a Fa (fits_pos _ _ Ft')) as N'.
  assert (Fs : fits 251 (val b + val a)) by (apply (fits_add 250); [lia | assumption | assumption]).
  assert (M : near 1 (val b + val a) (fadd b a)).
  { apply near_add; [exact N | exact N' | apply few_small; lia | apply fits_le with 251%Z; [lia | exact Fs]]. }
  assert (M2 : near 5 ((val b + val a) ^ 2) (pw (fadd b a))).
  { apply (near_pw pw 1); [exact A | exact M | apply fits_le with 251%Z; [lia | exact Fs] | apply few_small; lia]. }
  replace ((val b + val a) * (val b + val a)) with ((val b + val a) ^ 2) by ring.
  pose proof u_pos. pose proof u_small. replace (INR 5) with 5 in * by (simpl; lra).
  assert (I5 : INR 5 = 5) by (simpl; lra).
  apply near_close_gen with (1 := M2); rewrite I5; [lra |].
  replace (bpow radix2 (-50)) with (8 * u) by (unfold u; change 8 with (bpow radix2 3); rewrite <- bpow_plus; reflexivity).
  apply Rmult_le_reg_r with (1 - 5 * u); [lra |]. replace (5 * u / (1 - 5 * u) * (1 - 5 * u)) with (5 * u) by (field; lra).
  assert (0 <= u * (3 - 40 * u)) by (apply Rmult_le_pos; lra). lra.
Qed.
