(** Lemmas for FpCpc4Props.v. *)
From Coq Require Import ZArith Reals Bool List Lia Lra.
From Flocq Require Import Core IEEE754.BinarySingleNaN IEEE754.Binary IEEE754.Bits.
From Verif Require Import CurveModel FpModel FpSpec FpProofs FpProofs2 FpProofs3 FpCpcModel FpCpcSpec FpCpcProofs FpCpcProofs2 FpCpc2Model FpCpc2Spec FpCpc2Proofs FpCpc3Proofs FpCpc4Model.
Local Open Scope R_scope.

Lemma strict : forall f : fl, finite f -> val f <> 0 -> is_finite_strict 53 1024 f = true.
Proof. intros [s | s | s pl e | s m e He] F N; try reflexivity; try discriminate. exfalso. apply N. reflexivity. Qed.
(** adding the opposite is subtracting *)
Lemma add_opp : forall f g, finite f -> finite g -> Rabs (val f - val g) <= bpow radix2 900 -> 0 < val (fsub f g) -> fadd f (b64_opp g) = fsub f g.
Proof.
  intros f g F G H P. destruct (fsub_val f g F G H) as (F1 & V1 & _).
  assert (VO : val (b64_opp g) = - val g) by (unfold val, b64_opp; apply B2R_Bopp).
  assert (FO : finite (b64_opp g)) by (unfold finite, b64_opp; rewrite is_finite_Bopp; exact G).
  destruct (fadd_val f (b64_opp g) F FO) as (F2 & V2 & _); [rewrite VO; exact H |]. rewrite VO in V2. change (val f + - val g) with (val f - val g) in V2. rewrite <- V1 in V2.
  apply (B2R_inj 53 1024); [| | exact V2].
  - apply strict; [exact F2 | lra].
  - apply strict; [exact F1 | lra].
Qed.
Lemma inrange_ok : forall v m M, finite v -> finite m -> all_finite M -> (finrange v m M = true <-> val m <= val v /\ below v M).
Proof.
  intros v m M Fv Fm FM. unfold finrange. rewrite (flt_correct v m Fv Fm). destruct (Rlt_dec (val v) (val m)) as [H | H].
  - rewrite rlt_t by exact H. split; [discriminate | intros (X & _); lra].
  - rewrite rlt_f by lra. destruct M as [M |]; cbn [below]; [| split; [intros _; split; [lra | exact I] | reflexivity]].
    cbn [all_finite] in FM. rewrite (flt_correct M v FM Fv). destruct (Rlt_dec (val M) (val v)) as [K | K].
    + rewrite rlt_t by exact K. split; [discriminate | intros (_ & X); lra].
    + rewrite rlt_f by lra. split; [intros _; split; lra | reflexivity].
Qed.
(** a trade inside of the range *)
Lemma dy_ok : forall c dx y' y m M, fdiv (fc_k c) (fadd (fc_x c) dx) = Ret y' -> fc_y c = Ret y -> fc_y_min c = Ret m -> fc_y_max c = Ret M -> finite y' -> finite m -> all_finite M ->
  fc_dy c dx true = Ret (Some (fsub y' y)) /\ fc_dyfromdx c dx = Ret (fsub y' y) /\
  (val m <= val y' /\ below y' M -> fc_dy c dx false = Ret (Some (fsub y' y))) /\ (~ (val m <= val y' /\ below y' M) -> fc_dy c dx false = Ret None).
Proof.
  intros c dx y' y m M E1 E2 E3 E4 F1 F2 F3. pose proof (inrange_ok y' m M F1 F2 F3) as I. unfold fc_dy, fc_dyfromdx, fc_yfromx. rewrite E1, E2, E3, E4. cbn [rbind]. split; [reflexivity |]. split; [reflexivity |].
  destruct (finrange y' m M); cbn [rbind]; split; intro H; try reflexivity; exfalso; [tauto | apply I in H; discriminate].
Qed.
Lemma dx_ok : forall c dy y x' M, fc_y c = Ret y -> fdiv (fc_k c) (fadd y dy) = Ret x' -> fc_x_max c = Ret M -> finite x' -> finite (fc_x_min c) -> all_finite M ->
  fc_dx c dy true = Ret (Some (fsub x' (fc_x c))) /\ fc_dxfromdy c dy = Ret (fsub x' (fc_x c)) /\
  (val (fc_x_min c) <= val x' /\ below x' M -> fc_dx c dy false = Ret (Some (fsub x' (fc_x c)))) /\ (~ (val (fc_x_min c) <= val x' /\ below x' M) -> fc_dx c dy false = Ret None).
Proof.
  intros c dy y x' M E1 E2 E3 F1 F2 F3. pose proof (inrange_ok x' (fc_x_min c) M F1 F2 F3) as I. unfold fc_dx, fc_dxfromdy, fc_xfromy. rewrite E1. cbn [rbind]. rewrite E2, E3. cbn [rbind]. split; [reflexivity |]. split; [reflexivity |].
  destruct (finrange x' (fc_x_min c) M); cbn [rbind]; split; intro H; try reflexivity; exfalso; [tauto | apply I in H; discriminate].
Qed.
Lemma input_bound : forall f, input f -> 0 <= val f <= bpow radix2 801.
Proof. intros f Hf. destruct (input_near _ Hf) as (N & P). split; [exact P |]. apply (near_up 0 (val f) f 100); [exact N | lia | apply Hf | lia]. Qed.
Lemma rnd_le_val : forall (f : fl) z, z <= val f -> rnd z <= val f.
Proof. intros f z H. rewrite <- (round_generic radix2 (SpecFloat.fexp 53 1024) (round_mode mode_NE) (val f)); [apply rnd_mono; exact H | apply fmt]. Qed.
(** the rest of a balance *)
Lemma rest_ok : forall f g, amount f -> input g -> val g < val f -> let m := fsub f g in finite m /\ 0 < val m /\ near 1 (val f - val g) m /\ fits 152 (val f - val g) /\ val m <= val f /\ val m = rnd (val f - val g) /\ fadd f (b64_opp g) = m.
Proof.
  intros f g Hf Hg L m. pose proof Hf as (Ff & f0 & Gf). destruct (input_bound _ Hg) as (g0 & g1). destruct Hg as (Fg & Gg).
  destruct (sub_grid f g Ff Fg Gf Gg) as (S1 & _). destruct (S1 ltac:(lra)) as (N & FD). fold m in N.
  assert (m0 : 0 < val m) by (pose proof (near_pos _ _ _ N); destruct (Req_dec (val m) 0) as [X | X]; [apply (near_zero _ _ _ N) in X; lra | lra]).
  assert (H9 : Rabs (val f - val g) <= bpow radix2 900).
  { rewrite Rabs_pos_eq by lra. apply Rle_trans with (bpow radix2 100); [pose proof (fits_up 100 _ f0 Gf); lra | apply bpow_le; lia]. }
  destruct (fsub_val f g Ff Fg H9) as (_ & V & _). split; [apply N |]. split; [exact m0 |]. split; [exact N |]. split; [exact FD |]. split; [unfold m; rewrite V; apply rnd_le_val; lra |]. split; [exact V |].
  apply add_opp; assumption.
Qed.
(** dividing by less gives more *)
Lemma div_more : forall k a b q r, amount k -> finite a -> finite b -> 0 < val a -> val a <= val b -> Rabs (val k / val a) <= bpow radix2 900 -> fdiv k a = Ret q -> fdiv k b = Ret r -> val r <= val q.
Proof.
  intros k a b q r (Fk & k0 & _) Fa Fb a0 L S E1 E2.
  assert (I : val k / val b <= val k / val a) by (apply Rmult_le_compat_l; [lra |]; apply Rinv_le; lra). assert (b0 : 0 < val k / val b) by (apply Rdiv_lt_0_compat; lra).
  destruct (fdiv_val k a Fk a0 Fa S) as (q' & Eq & _ & Vq). destruct (fdiv_val k b Fk ltac:(lra) Fb) as (r' & Er & _ & Vr); [rewrite Rabs_pos_eq in * by lra; lra |].
  rewrite E1 in Eq. rewrite E2 in Er. injection Eq as <-. injection Er as <-. rewrite Vq, Vr. apply rnd_mono, I.
Qed.
Lemma div900 : forall k a A n, amount k -> near n A a -> few n -> 0 < A -> fits 400 A -> Rabs (val k / val a) <= bpow radix2 900.
Proof.
  intros k a A n Hk N Hn A0 FA. pose proof Hk as (Fk & k0 & Gk). assert (G : fits 401 (val a)) by (apply (fits_of_near n 400 A a N Hn FA); lia).
  assert (a0 : 0 < val a) by (pose proof (near_pos _ _ _ N); destruct (Req_dec (val a) 0) as [X | X]; [apply (near_zero _ _ _ N) in X; lra | lra]).
  assert (F : fits 501 (val k / val a)) by (apply (fits_div 100 401); assumption). assert (P : 0 < val k / val a) by (apply Rdiv_lt_0_compat; assumption).
  rewrite Rabs_pos_eq by lra. apply Rle_trans with (bpow radix2 501); [apply fits_up; assumption | apply bpow_le; lia].
Qed.
Lemma dy_max_ok : forall c, pool c -> input (fc_xa c) -> input (fc_ya c) -> val (fc_xa c) < val (fc_x c) ->
  exists y M, fc_y c = Ret y /\ fc_y_max c = Ret (Some M) /\ fc_dy_max c = Ret (Some (fsub M y)) /\ 0 <= val (fsub M y) /\
    Rabs (val M - val (fc_k c) / (val (fc_x c) - val (fc_xa c))) <= bpow radix2 (-51) * (val (fc_k c) / (val (fc_x c) - val (fc_xa c))).
Proof.
  intros c Hc Ha Hb L. destruct (pool_y c Hc) as (y & Ey & Ny & Fy & Y0). pose proof Hc as (Hk & Hx). pose proof Hk as (Fk & k0 & Gk). pose proof Hx as (Fx & x0 & Gx).
  destruct (rest_ok _ _ Hx Ha L) as (Fm & m0 & Nm & FD & Lm & _ & Eo). fold (fc_x_min c) in Fm, m0, Nm, Lm, Eo.
  assert (D0 : 0 < val (fc_x c) - val (fc_xa c)) by lra. set (D := val (fc_x c) - val (fc_xa c)) in *.
  assert (FM : fits 252 (val (fc_k c) / D)) by (apply (fits_div 100 152); assumption).
  destruct (near_fdiv 0 1 _ D _ _ (amount_near _ Hk) Nm) as (M & EM & NM); [apply few_small; lia | exact D0 | apply (fits_le 252 1000 _ ltac:(lia) FM) |]. change (near 2 (val (fc_k c) / D) M) in NM.
  assert (YM : fc_y_max c = Ret (Some M)) by (unfold fc_y_max; cbn zeta; rewrite flt0_true, EM by assumption; reflexivity).
  destruct (input_bound _ Hb) as (b0 & b1). pose proof (near_pos _ _ _ Ny) as y0. assert (y1 : val y <= bpow radix2 801) by (apply (near_up 1 _ y 200 Ny); [lia | exact Fy | lia]).
  destruct (sub_ok y (fc_ya c) (proj1 Ny) (proj1 Hb) y0 b0 y1 b1) as (Fy' & Vy' & _).
  assert (Em : fc_y_min c = Ret (fsub y (fc_ya c))) by (unfold fc_y_min; rewrite Ey; reflexivity).
  assert (Lo : val (fsub y (fc_ya c)) <= val y) by (rewrite Vy'; apply rnd_le_val; lra).
  assert (YL : val y <= val M). { apply (div_more (fc_k c) (fc_x_min c) (fc_x c) M y); try assumption. apply (div900 _ _ D 1%nat); [exact Hk | exact Nm | apply few_small; lia | exact D0 | apply (fits_le 152 400 _ ltac:(lia) FD)]. }
  exists y, M. split; [exact Ey |]. split; [exact YM |].
  destruct (dy_ok c (fc_dx_min c) M y _ _ ltac:(unfold fc_dx_min; rewrite Eo; exact EM) Ey Em YM (proj1 NM) Fy' (proj1 NM)) as (_ & _ & OK & _).
  split; [unfold fc_dy_max; rewrite (flt_correct _ _ (proj1 Ha) Fx), rlt_t by exact L; apply OK; cbn [below]; lra |].
  split. { destruct (sub_ok M y (proj1 NM) (proj1 Ny)) as (_ & V & _); try assumption; [lra | apply (near_up 2 _ M 252 NM); [lia | exact FM | lia] |]. rewrite V. apply rnd_pos. lra. }
  pose proof (near_abs _ _ _ NM ltac:(lia)) as E. replace (INR 2) with 2 in E by (simpl; lra). rewrite u51. pose proof u_pos. assert (0 <= u * (val (fc_k c) / D)) by (apply Rmult_le_pos; [lra | apply Rlt_le, Rdiv_lt_0_compat; assumption]). lra.
Qed.
Lemma dx_max_ok : forall c y, pool c -> fc_y c = Ret y -> amount y -> input (fc_xa c) -> input (fc_ya c) -> val (fc_ya c) < val y ->
  exists M, fc_x_max c = Ret (Some M) /\ (val (fc_x_min c) <= val M -> fc_dx_max c = Ret (Some (fsub M (fc_x c)))) /\ (val M < val (fc_x_min c) -> fc_dx_max c = Ret None) /\
    (bpow radix2 (-50) * val (fc_x c) <= val (fc_xa c) -> val (fc_x_min c) <= val M) /\
    Rabs (val M - val (fc_k c) / (val y - val (fc_ya c))) <= bpow radix2 (-51) * (val (fc_k c) / (val y - val (fc_ya c))).
Proof.
  intros c y Hc Ey Hy Ha Hb L. destruct (pool_y c Hc) as (y' & Ey' & Ny & Fy & Y0). rewrite Ey in Ey'. injection Ey' as <-. pose proof Hc as (Hk & Hx). pose proof Hk as (Fk & k0 & Gk). pose proof Hx as (Fx & x0 & Gx).
  destruct (rest_ok _ _ Hy Hb L) as (Fm & m0 & Nm & FD & Lm & _ & Eo). set (m := fsub y (fc_ya c)) in *.
  assert (Em : fc_y_min c = Ret m) by (unfold fc_y_min; rewrite Ey; reflexivity).
  assert (D0 : 0 < val y - val (fc_ya c)) by lra. set (D := val y - val (fc_ya c)) in *.
  assert (FM : fits 252 (val (fc_k c) / D)) by (apply (fits_div 100 152); assumption).
  destruct (near_fdiv 0 1 _ D _ _ (amount_near _ Hk) Nm) as (M & EM & NM); [apply few_small; lia | exact D0 | apply (fits_le 252 1000 _ ltac:(lia) FM) |]. change (near 2 (val (fc_k c) / D) M) in NM.
  assert (XM : fc_x_max c = Ret (Some M)) by (unfold fc_x_max; rewrite Em; cbn [rbind]; rewrite flt0_true, EM by assumption; reflexivity).
  destruct (input_bound _ Ha) as (a0 & a1). assert (x1 : val (fc_x c) <= bpow radix2 801) by (apply Rle_trans with (bpow radix2 100); [apply fits_up; assumption | apply bpow_le; lia]).
  destruct (sub_ok (fc_x c) (fc_xa c) Fx (proj1 Ha) ltac:(lra) a0 x1 a1) as (Fn & Vn & _). fold (fc_x_min c) in Fn, Vn.
  exists M. split; [exact XM |].
  destruct (dx_ok c (fc_dy_min c) y M (Some M) Ey ltac:(unfold fc_dy_min; rewrite Eo; exact EM) XM (proj1 NM) Fn (proj1 NM)) as (_ & _ & OK & NO).
  assert (E0 : fc_dx_max c = fc_dx c (fc_dy_min c) false) by (unfold fc_dx_max; rewrite Ey; cbn [rbind]; rewrite (flt_correct _ _ (proj1 Hb) (proj1 Ny)), rlt_t by exact L; reflexivity).
  split; [intros H; rewrite E0; apply OK; cbn [below]; lra |]. split; [intros H; rewrite E0; apply NO; lra |].
  split.
  - intros H. pose proof u_pos as U. pose proof u_small as U1. rewrite u50 in H.
    (* dividing back *)
    assert (KY : 0 < val (fc_k c) / val y) by (apply Rdiv_lt_0_compat; [lra | apply Hy]).
    destruct (near_fdiv 0 0 _ _ _ _ (amount_near _ Hk) (amount_near _ Hy)) as (q & Eq & Nq); [apply few_small; lia | apply Hy | apply (fits_le 200 1000 _ ltac:(lia)); apply (fits_div 100 100); try assumption; apply Hy |]. change (near 1 (val (fc_k c) / val y) q) in Nq.
    assert (QM : val q <= val M). { apply (div_more (fc_k c) m y M q); try assumption; [apply Ny |]. apply (div900 _ _ D 1%nat); [exact Hk | exact Nm | apply few_small; lia | exact D0 | apply (fits_le 152 400 _ ltac:(lia) FD)]. }
    pose proof (near_abs _ _ _ Nq ltac:(lia)) as Q1. pose proof (near_abs _ _ _ Ny ltac:(lia)) as Y1. change (INR 1) with 1 in Q1, Y1.
    set (x := val (fc_x c)) in *. set (K := val (fc_k c)) in *. set (v := val y) in *. assert (v0 : 0 < v) by apply Hy.
    assert (KX : K / x * x = K) by (field; lra). assert (KV : K / v * v = K) by (field; lra).
    assert (Vx : v * x <= K * (1 + 1.01 * u)). { rewrite <- KX at 1. replace (K / x * x * (1 + 1.01 * u)) with (K / x * (1 + 1.01 * u) * x) by ring. apply Rmult_le_compat_r; [lra |]. apply Rabs_le_inv in Y1. replace (K / x * (1 + 1.01 * u)) with (K / x + 1.01 * 1 * u * (K / x)) by ring. lra. }
    assert (Xq : x <= K / v * (1 + 1.01 * u)). { apply Rmult_le_reg_r with v; [exact v0 |]. replace (K / v * (1 + 1.01 * u) * v) with (K / v * v * (1 + 1.01 * u)) by ring. rewrite KV. lra. }
    set (w := K / v) in *. assert (uw : 0 <= u * w) by (apply Rmult_le_pos; lra). assert (ux : u * x <= / 1024 * x) by (apply Rmult_le_compat_r; lra). assert (uw1 : u * w <= / 1024 * w) by (apply Rmult_le_compat_r; lra).
    assert (ux2 : u * w <= 1.01 * (u * x)).
    { assert (W1 : w <= 1.01 * x).
      { apply Rmult_le_reg_r with v; [exact v0 |]. rewrite KV. apply Rabs_le_inv in Y1. assert (X1 : K <= v * x * 1.01).
        { assert (G1 : 0 < K / x) by (apply Rdiv_lt_0_compat; lra). assert (u * (K / x) <= / 1024 * (K / x)) by (apply Rmult_le_compat_r; lra). assert (G2 : K / x <= v * 1.01) by lra.
          rewrite <- KX. replace (v * x * 1.01) with (v * 1.01 * x) by ring. apply Rmult_le_compat_r; lra. }
        replace (1.01 * x * v) with (v * x * 1.01) by ring. exact X1. }
      replace (1.01 * (u * x)) with (u * (1.01 * x)) by ring. apply Rmult_le_compat_l; lra. }
    apply Rabs_le_inv in Q1. assert (Q2 : x - 3 * (u * x) <= val q) by lra.
    apply Rle_trans with (2 := QM). rewrite Vn. destruct (Rle_lt_dec (x - val (fc_xa c)) (val q)) as [X | X]; [apply rnd_le_val; exact X | exfalso; lra].
  - pose proof (near_abs _ _ _ NM ltac:(lia)) as E. replace (INR 2) with 2 in E by (simpl; lra). rewrite u51. pose proof u_pos. assert (0 <= u * (val (fc_k c) / D)) by (apply Rmult_le_pos; [lra | apply Rlt_le, Rdiv_lt_0_compat; assumption]). lra.
Qed.
Lemma full_ok : forall c, (finite (fc_x c) -> fc_xa c = fc_x c -> fc_dy_max c = Ret None) /\ (forall y, fc_y c = Ret y -> finite y -> fc_ya c = y -> fc_dx_max c = Ret None).
Proof.
  intro c. split.
  - intros F E. unfold fc_dy_max. rewrite E, (flt_correct _ _ F F), rlt_f by lra. reflexivity.
  - intros y E F E'. unfold fc_dx_max. rewrite E, E'. cbn [rbind]. rewrite (flt_correct _ _ F F), rlt_f by lra. reflexivity.
Qed.
Lemma dxdyfromp_ok : forall c p, pool c -> amount p -> exists dx dy, fc_dxdyfromp c (Some p) true = Ret (dx, dy, p) /\
  (let X := sqrt (val (fc_k c) / val p) in let x := val (fc_x c) in Rabs (val dx - (X - x)) <= bpow radix2 (-48) * (X + x)) /\
  (let Y := sqrt (val (fc_k c) * val p) in let y := val (fc_k c) / val (fc_x c) in Rabs (val dy - (Y - y)) <= bpow radix2 (-48) * (Y + y)).
Proof.
  intros c p Hc Hp. destruct (pool_y c Hc) as (y0 & Ey & Ny & Fy & Y0). pose proof Hc as (Hk & Hx). pose proof Hk as (Fk & k0 & Gk). pose proof Hx as (Fx & x0 & Gx). pose proof Hp as (_ & p0 & Gp).
  destruct (xyfromp_ok c p Hk Hp) as (x & y & E & Fx' & Fy' & Bx & By).
  exists (fsub x (fc_x c)), (fsub y y0). unfold fc_dxdyfromp. rewrite E, Ey. cbn [rbind]. split; [reflexivity |].
  assert (e49 : bpow radix2 (-49) = 16 * u) by (unfold u; change 16 with (bpow radix2 4); rewrite <- bpow_plus; reflexivity).
  assert (e48 : bpow radix2 (-48) = 32 * u) by (unfold u; change 32 with (bpow radix2 5); rewrite <- bpow_plus; reflexivity).
  rewrite e49 in Bx, By. rewrite e48. pose proof u_pos as U. pose proof u_small as U1.
  assert (G : forall (f g : fl) F G', finite f -> finite g -> 0 < F -> 0 < G' -> F <= bpow radix2 800 -> G' <= bpow radix2 800 -> Rabs (val f - F) <= 16 * u * F -> Rabs (val g - G') <= 2 * u * G' -> Rabs (val (fsub f g) - (F - G')) <= 32 * u * (F + G')).
  { intros f g F G' Ff Fg F0 G0 F1 G1 EF EG. assert (uF : 0 <= u * F) by (apply Rmult_le_pos; lra). assert (uG : 0 <= u * G') by (apply Rmult_le_pos; lra). assert (uF1 : u * F <= / 1024 * F) by (apply Rmult_le_compat_r; lra). assert (uG1 : u * G' <= / 1024 * G') by (apply Rmult_le_compat_r; lra).
    apply Rabs_le_inv in EF. apply Rabs_le_inv in EG. assert (b2 : bpow radix2 801 = 2 * bpow radix2 800) by (change 2 with (bpow radix2 1) at 1; rewrite <- bpow_plus; reflexivity).
    destruct (sub_ok f g Ff Fg) as (_ & _ & D); try lra. assert (D1 : Rabs (val f - val g) <= 2 * (F + G')) by (apply Rabs_le; lra).
    assert (D2 : u * Rabs (val f - val g) <= u * (2 * (F + G'))) by (apply Rmult_le_compat_l; lra). assert (D3 : Rabs (val (fsub f g) - (val f - val g)) <= u * (2 * (F + G'))) by lra. apply Rabs_le_inv in D3. apply Rabs_le. lra. }
  assert (up : forall e z, 0 < z -> fits e z -> (e <= 800)%Z -> z <= bpow radix2 800) by (intros e z z0 Fz He; apply Rle_trans with (bpow radix2 e); [apply fits_up; assumption | apply bpow_le; exact He]).
  cbn zeta. split.
  - assert (Q0 : 0 < val (fc_k c) / val p) by (apply Rdiv_lt_0_compat; assumption). assert (FQ : fits 200 (val (fc_k c) / val p)) by (apply (fits_div 100 100); assumption).
    apply G; try assumption; [apply sqrt_lt_R0; exact Q0 | apply (up 100%Z); [apply sqrt_lt_R0; exact Q0 | apply (sqrt_fits 100 _ ltac:(lia) FQ) | lia] | apply (up 100%Z); [exact x0 | exact Gx | lia] |].
    replace (val (fc_x c) - val (fc_x c)) with 0 by ring. rewrite Rabs_R0. apply Rmult_le_pos; lra.
  - assert (Q0 : 0 < val (fc_k c) * val p) by (apply Rmult_lt_0_compat; assumption). assert (FQ : fits 200 (val (fc_k c) * val p)) by (apply (fits_mul 100 100); assumption).
    apply G; try assumption; [apply Ny | apply sqrt_lt_R0; exact Q0 | apply (up 100%Z); [apply sqrt_lt_R0; exact Q0 | apply (sqrt_fits 100 _ ltac:(lia) FQ) | lia] | apply (up 200%Z); [exact Y0 | exact Fy | lia] |].
    pose proof (near_abs _ _ _ Ny ltac:(lia)) as B. change (INR 1) with 1 in B. assert (0 <= u * (val (fc_k c) / val (fc_x c))) by (apply Rmult_le_pos; lra). lra.
Qed.
