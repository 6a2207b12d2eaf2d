(** Lemmas for FpCpc2Props.v. *)
From Coq Require Import ZArith Reals Bool List Lia Lra.
From Flocq Require Import Core IEEE754.BinarySingleNaN IEEE754.Binary IEEE754.Bits.
From Verif Require Import CurveModel FpModel FpSpec FpProofs FpProofs2 FpProofs3 FpCpcModel FpCpcSpec FpCpcProofs FpCpcProofs2 FpCpc2Model FpCpc2Spec.
Local Open Scope R_scope.

Lemma fsub_same : forall f, finite f -> finite (fsub f f) /\ val (fsub f f) = 0.
Proof.
  intros f F. destruct (fsub_val f f F F) as (G & V & _); [replace (val f - val f) with 0 by ring; rewrite Rabs_R0; apply bpow_ge_0 |].
  split; [exact G |]. rewrite V. replace (val f - val f) with 0 by ring. apply round_0. apply valid_rnd_N.
Qed.
Lemma flt0 : forall f, finite f -> flt fzero f = rlt 0 (val f).
Proof. intros f F. rewrite (flt_correct _ _ fin_zero F), val_zero. reflexivity. Qed.
Lemma flt0_false : forall f, finite f -> val f <= 0 -> flt fzero f = false.
Proof. intros f F H. rewrite flt0 by exact F. unfold rlt. destruct (Rlt_dec 0 (val f)); [lra | reflexivity]. Qed.
Lemma flt0_true : forall f, finite f -> 0 < val f -> flt fzero f = true.
Proof. intros f F H. rewrite flt0 by exact F. unfold rlt. destruct (Rlt_dec 0 (val f)); [reflexivity | lra]. Qed.
(** no upper end where the actual balance is the virtual one *)
Lemma no_top : forall c, finite (fc_x c) -> fc_xa c = fc_x c -> val (fc_x_min c) = 0 /\ fc_y_max c = Ret None /\ fc_p_max c = Ret None.
Proof.
  intros c F E. unfold fc_p_max, fc_y_max, fc_x_min. rewrite E. destruct (fsub_same _ F) as (G & V). rewrite flt0_false; [| exact G | lra]. repeat split; assumption.
Qed.
Lemma low_end : forall c y' Y, fc_y c = Ret y' -> near 2 Y y' -> finite (fc_k c) -> 0 < val (fc_k c) -> fits 300 (val (fc_k c)) -> finite (fc_ya c) -> val (fc_ya c) = Y -> 0 < Y -> fits 99 Y ->
  exists m, fc_y_min c = Ret m /\ finite m /\ Rabs (val m) <= bpow radix2 (-51) * Y /\
    (fc_p_min c = Ret None \/ exists r, fc_p_min c = Ret (Some r) /\ finite r /\ 0 <= val r <= bpow radix2 (-100) * (Y * Y / val (fc_k c))).
Proof.
  intros c y' Y Ey Ny Fk k0 Gk Fa Va Y0 GY. unfold fc_p_min, fc_x_max, fc_y_min. rewrite Ey. cbn [rbind].
  set (K := val (fc_k c)) in *. pose proof u_pos as U. pose proof u_small as U1. pose proof Ny as (Fy & _).
  pose proof (near_abs _ _ _ Ny ltac:(lia)) as E. replace (INR 2) with 2 in E by (simpl; lra).
  assert (G' : fits 100 (val y')) by (apply (fits_of_near 2 99 Y y' Ny); [apply few_small; lia | exact GY | lia]).
  assert (Ga : fits 100 (val (fc_ya c))) by (rewrite Va; apply (fits_le 99 100 _ ltac:(lia) GY)).
  destruct (sub_grid y' (fc_ya c) Fy Fa G' Ga) as (S1 & S2). rewrite Va in S1, S2.
  assert (Y1 : Y <= bpow radix2 801) by (apply Rle_trans with (bpow radix2 99); [apply fits_up; assumption | apply bpow_le; lia]).
  destruct (sub_ok y' (fc_ya c) Fy Fa (near_pos _ _ _ Ny)) as (Fm & Vm & Em); [lra | apply (near_up 2 Y y' 99); [exact Ny | lia | exact GY | lia] | lra |]. rewrite Va in Em.
  exists (fsub y' (fc_ya c)). split; [reflexivity |]. split; [exact Fm |].
  assert (UY : 0 <= u * Y) by (apply Rmult_le_pos; lra).
  assert (E1 : Rabs (val y' - Y) <= 2.02 * (u * Y)) by lra.
  split.
  { assert (E2 : u * Rabs (val y' - Y) <= / 1024 * (2.02 * (u * Y))) by (apply Rmult_le_compat; [lra | apply Rabs_pos | lra | lra]).
    rewrite u51. apply Rabs_le_inv in E1. assert (E3 : Rabs (val (fsub y' (fc_ya c)) - (val y' - Y)) <= / 1024 * (2.02 * (u * Y))) by lra. apply Rabs_le_inv in E3. apply Rabs_le. lra. }
  set (m := fsub y' (fc_ya c)) in *.
  destruct (Rle_lt_dec (val m) 0) as [L | L].
  { left. rewrite flt0_false by assumption. reflexivity. }
  right. rewrite flt0_true by assumption.
  assert (D0 : 0 <= val y' - Y) by (destruct (Rle_lt_dec 0 (val y' - Y)) as [H | H]; [exact H | destruct (S2 H) as (_ & X); lra]).
  destruct (S1 D0) as (Nm & FD). set (D := val y' - Y) in *.
  assert (D1 : 0 < D) by (destruct (Req_dec D 0) as [H | H]; [apply (near_zero _ _ _ Nm) in H; lra | lra]).
  assert (FX : fits 452 (K / D)) by (apply (fits_div 300 152); assumption).
  destruct (near_fdiv 0 1 K D (fc_k c) m) as (xm & Ex & Nx); [apply near_0; [exact Fk | fold K; lra] | exact Nm | apply few_small; lia | exact D1 | apply (fits_le 452 1000 _ ltac:(lia) FX) |].
  assert (X0 : 0 < K / D) by (apply Rdiv_lt_0_compat; assumption).
  assert (FR : fits 604 (D / (K / D))) by (apply (fits_div 152 452); assumption).
  destruct (near_fdiv 1 2 D (K / D) m xm Nm Nx) as (r & Er & Nr); [apply few_small; lia | exact X0 | apply (fits_le 604 1000 _ ltac:(lia) FR) |].
  rewrite Ex. cbn [rbind]. rewrite flt0_true; [| apply Nx | pose proof (near_pos _ _ _ Nx); destruct (Req_dec (val xm) 0) as [X | X]; [apply (near_zero _ _ _ Nx) in X; lra | lra]].
  cbn [rbind]. rewrite Er. cbn [rbind]. exists r. split; [reflexivity |]. split; [apply Nr |]. split; [apply (near_pos _ _ _ Nr) |].
  pose proof Nr as (_ & _ & _ & R2). assert (CC : FpProofs.c ^ S (1 + 2) <= 2) by (apply cn_2, few_small; lia).
  rewrite Rabs_pos_eq in E1 by exact D0.
  assert (DD : D * D <= (2.02 * (u * Y)) * (2.02 * (u * Y))) by (apply Rmult_le_compat; lra).
  apply Rle_trans with (1 := R2). apply Rle_trans with (D / (K / D) * 2); [apply Rmult_le_compat_l; [apply Rlt_le, Rdiv_lt_0_compat; lra | exact CC] |].
  replace (D / (K / D) * 2) with (2 * (D * D) / K) by (field; lra).
  replace (bpow radix2 (-100)) with (64 * (u * u)) by (unfold u; rewrite <- bpow_plus; change 64 with (bpow radix2 6); rewrite <- bpow_plus; reflexivity).
  replace (64 * (u * u) * (Y * Y / K)) with (64 * ((u * Y) * (u * Y)) / K) by (field; lra).
  apply Rmult_le_compat_r; [apply Rlt_le, Rinv_0_lt_compat; lra |].
  assert (0 <= (u * Y) * (u * Y)) by (apply Rmult_le_pos; lra).
  replace (2.02 * (u * Y) * (2.02 * (u * Y))) with (2.02 * 2.02 * ((u * Y) * (u * Y))) in DD by ring. lra.
Qed.
Lemma univ2_xy : forall x y, amount x -> amount y -> fits 99 (val y) -> exists c, fc_from_univ2 (Some x) (Some y) None = Ret c /\ c = mkFcpc (fmul x y) x x y /\
  val (fc_x_min c) = 0 /\ fc_p_max c = Ret None /\ small_end c (val y) (val y / val x).
Proof.
  intros x y Hx Hy G99. pose proof Hx as (Fx & x0 & Gx). pose proof Hy as (Fy & y0 & Gy).
  assert (FK : fits 200 (val x * val y)) by (apply (fits_mul 100 100); assumption).
  assert (NK : near 1 (val x * val y) (fmul x y)) by (apply (near_mul 0 0); try (apply amount_near; assumption); [apply few_small; lia | apply (fits_le 200 1000 _ ltac:(lia) FK)]).
  assert (KX : val x * val y / val x = val y) by (field; lra).
  destruct (near_fdiv 1 0 (val x * val y) (val x) (fmul x y) x NK (amount_near _ Hx)) as (y' & Ey & Ny); [apply few_small; lia | exact x0 | rewrite KX; apply (fits_le 100 1000 _ ltac:(lia) Gy) |]. rewrite KX in Ny.
  set (c := mkFcpc (fmul x y) x x y). exists c. unfold fc_from_univ2, fmake. rewrite Ey. cbn [rbind]. split; [reflexivity |]. split; [reflexivity |].
  destruct (no_top c Fx eq_refl) as (T1 & _ & T2). split; [exact T1 |]. split; [exact T2 |].
  assert (K0 : 0 < val x * val y) by (apply Rmult_lt_0_compat; assumption).
  assert (k0 : 0 < val (fmul x y)) by (pose proof (near_pos _ _ _ NK); destruct (Req_dec (val (fmul x y)) 0) as [X | X]; [apply (near_zero _ _ _ NK) in X; lra | lra]).
  assert (Gk : fits 201 (val (fmul x y))) by (apply (fits_of_near 1 200 _ _ NK); [apply few_small; lia | exact FK | lia]).
  destruct (low_end c y' (val y) Ey Ny (proj1 NK) k0 (fits_le 201 300 _ ltac:(lia) Gk) Fy eq_refl y0 G99) as (m & E1 & E2 & E3 & E4).
  exists m. split; [exact E1 |]. split; [exact E2 |]. split; [exact E3 |]. destruct E4 as [E4 | (r & R1 & R2 & R3)]; [left; exact E4 |].
  right. exists r. split; [exact R1 |]. split; [exact R2 |]. split; [lra |]. apply Rle_trans with (1 := proj2 R3). cbn [fc_k c].
  replace (bpow radix2 (-99)) with (bpow radix2 (-100) * 2) by (change 2 with (bpow radix2 1); rewrite <- bpow_plus; reflexivity).
  rewrite Rmult_assoc. apply Rmult_le_compat_l; [apply bpow_ge_0 |].
  apply Rmult_le_reg_r with (val (fmul x y)); [exact k0 |]. replace (val y * val y / val (fmul x y) * val (fmul x y)) with (val y / val x * (val x * val y)) by (field; lra).
  replace (2 * (val y / val x) * val (fmul x y)) with (val y / val x * (2 * val (fmul x y))) by ring. apply Rmult_le_compat_l; [apply Rlt_le, Rdiv_lt_0_compat; assumption |].
  pose proof NK as (_ & _ & N1 & _). apply Rle_trans with (1 := N1). rewrite Rmult_comm. apply Rmult_le_compat_r; [lra | apply cn_2, few_small; lia].
Qed.
Lemma univ2_ky : forall k y, amount k -> amount y -> fits 99 (val y) -> exists c x, fc_from_univ2 None (Some y) (Some k) = Ret c /\ fdiv k y = Ret x /\ c = mkFcpc k x x y /\
  val (fc_x_min c) = 0 /\ fc_p_max c = Ret None /\ small_end c (val y) (val y * val y / val k).
Proof.
  intros k y Hk Hy G99. pose proof Hk as (Fk & k0 & Gk). pose proof Hy as (Fy & y0 & Gy).
  assert (FX : fits 200 (val k / val y)) by (apply (fits_div 100 100); assumption).
  destruct (near_fdiv 0 0 (val k) (val y) k y (amount_near _ Hk) (amount_near _ Hy)) as (x & Ex & Nx); [apply few_small; lia | exact y0 | apply (fits_le 200 1000 _ ltac:(lia) FX) |].
  assert (X0 : 0 < val k / val y) by (apply Rdiv_lt_0_compat; assumption).
  assert (KX : val k / (val k / val y) = val y) by (field; lra).
  destruct (near_fdiv 0 1 (val k) (val k / val y) k x (amount_near _ Hk) Nx) as (y' & Ey & Ny); [apply few_small; lia | exact X0 | rewrite KX; apply (fits_le 100 1000 _ ltac:(lia) Gy) |]. rewrite KX in Ny.
  set (c := mkFcpc k x x y). exists c, x. unfold fc_from_univ2, fmake. rewrite Ex. cbn [rbind]. rewrite Ey. cbn [rbind]. split; [reflexivity |]. split; [reflexivity |]. split; [reflexivity |].
  destruct (no_top c (proj1 Nx) eq_refl) as (T1 & _ & T2). split; [exact T1 |]. split; [exact T2 |].
  destruct (low_end c y' (val y) Ey Ny Fk k0 (fits_le 100 300 _ ltac:(lia) Gk) Fy eq_refl y0 G99) as (m & E1 & E2 & E3 & E4).
  exists m. split; [exact E1 |]. split; [exact E2 |]. split; [exact E3 |]. destruct E4 as [E4 | (r & R1 & R2 & R3)]; [left; exact E4 |].
  right. exists r. split; [exact R1 |]. split; [exact R2 |]. split; [lra |]. apply Rle_trans with (1 := proj2 R3).
  apply Rmult_le_compat_r; [apply Rlt_le, Rdiv_lt_0_compat; [apply Rmult_lt_0_compat |]; assumption | apply bpow_le; lia].
Qed.
Lemma univ2_kx : forall k x, amount k -> amount x -> exists c y, fc_from_univ2 (Some x) None (Some k) = Ret c /\ fdiv k x = Ret y /\ c = mkFcpc k x x y /\
  val (fc_x_min c) = 0 /\ fc_p_max c = Ret None /\ (exists m, fc_y_min c = Ret m /\ val m = 0) /\ fc_p_min c = Ret None.
Proof.
  intros k x Hk Hx. pose proof Hk as (Fk & k0 & Gk). pose proof Hx as (Fx & x0 & Gx).
  assert (FY : fits 200 (val k / val x)) by (apply (fits_div 100 100); assumption).
  destruct (near_fdiv 0 0 (val k) (val x) k x (amount_near _ Hk) (amount_near _ Hx)) as (y & Ey & Ny); [apply few_small; lia | exact x0 | apply (fits_le 200 1000 _ ltac:(lia) FY) |].
  set (c := mkFcpc k x x y). exists c, y. unfold fc_from_univ2, fmake. rewrite Ey. cbn [rbind]. split; [reflexivity |]. split; [reflexivity |]. split; [reflexivity |].
  destruct (no_top c Fx eq_refl) as (T1 & _ & T2). split; [exact T1 |]. split; [exact T2 |].
  destruct (fsub_same y (proj1 Ny)) as (S1 & S2). unfold fc_p_min, fc_x_max, fc_y_min, fc_y. cbn [fc_k fc_x fc_ya c]. rewrite Ey. cbn [rbind]. rewrite flt0_false; [| exact S1 | lra].
  split; [exists (fsub y y); split; [reflexivity | exact S2] | reflexivity].
Qed.

(** ** pools with a range of prices *)
Lemma diff2 : forall p q P Q e, near 2 P p -> near 2 Q q -> Q <= P -> fits e P -> fits e Q -> (e <= 800)%Z ->
  finite (fsub p q) /\ val (fsub p q) = rnd (val p - val q) /\ Rabs (val (fsub p q) - (P - Q)) <= 8 * u * P.
Proof.
  intros p q P Q e Np Nq QP FP FQ He.
  pose proof (near_abs _ _ _ Nq ltac:(lia)) as A. pose proof (near_abs _ _ _ Np ltac:(lia)) as B. replace (INR 2) with 2 in A, B by (simpl; lra).
  pose proof Nq as (Fq & Q0 & _). pose proof Np as (Fp & P0 & _).
  destruct (sub_ok p q Fp Fq (near_pos _ _ _ Np) (near_pos _ _ _ Nq)) as (F & V & E); [apply (near_up 2 P p e); [exact Np | lia | exact FP | exact He] | apply (near_up 2 Q q e); [exact Nq | lia | exact FQ | exact He] |].
  split; [exact F |]. split; [exact V |]. pose proof u_pos. pose proof u_small.
  assert (UP : 0 <= u * P) by (apply Rmult_le_pos; lra). assert (UQ : u * Q <= u * P) by (apply Rmult_le_compat_l; lra). assert (UP1 : u * P <= / 1024 * P) by (apply Rmult_le_compat_r; lra).
  assert (A' : Rabs (val q - Q) <= 2.02 * (u * P)) by lra. assert (B' : Rabs (val p - P) <= 2.02 * (u * P)) by lra.
  assert (D : Rabs (val p - val q) <= 1.01 * P).
  { pose proof (near_pos _ _ _ Nq). pose proof (near_pos _ _ _ Np). apply Rabs_le_inv in A'. apply Rabs_le_inv in B'. apply abs_max; lra. }
  assert (E' : u * Rabs (val p - val q) <= u * (1.01 * P)) by (apply Rmult_le_compat_l; lra).
  apply Rabs_le_inv in A'. apply Rabs_le_inv in B'. assert (E2 : Rabs (val (fsub p q) - (val p - val q)) <= 1.01 * (u * P)) by lra. apply Rabs_le_inv in E2. apply Rabs_le. lra.
Qed.
Lemma fmul_mono : forall a b d, amount a -> amount b -> amount d -> val b <= val d -> val (fmul a b) <= val (fmul a d).
Proof.
  assert (V : forall a b, amount a -> amount b -> val (fmul a b) = rnd (val a * val b)).
  { intros a b (Fa & a0 & Ga) (Fb & b0 & Gb). pose proof (Bmult_correct 53 1024 (eq_refl _) (eq_refl _) binop_nan_pl64 mode_NE a b) as C.
    assert (S : Rabs (val a * val b) <= bpow radix2 900).
    { rewrite Rabs_pos_eq by (apply Rlt_le, Rmult_lt_0_compat; assumption). apply Rle_trans with (bpow radix2 100 * bpow radix2 100); [apply Rmult_le_compat; try lra; apply fits_up; assumption | rewrite <- bpow_plus; apply bpow_le; lia]. }
    apply small_rnd in S. unfold val in S. rewrite S in C. apply C. }
  intros a b d Ha Hb Hd L. rewrite !V by assumption. apply rnd_mono. apply Rmult_le_compat_l; [apply Rlt_le, Ha | exact L].
Qed.
Lemma fdiv_mono : forall a b d q r, amount a -> amount b -> amount d -> val b <= val d -> fdiv a b = Ret q -> fdiv a d = Ret r -> val r <= val q.
Proof.
  assert (S : forall a b, amount a -> amount b -> Rabs (val a / val b) <= bpow radix2 900).
  { intros a b (Fa & a0 & Ga) (Fb & b0 & Gb). assert (F : fits 200 (val a / val b)) by (apply (fits_div 100 100); assumption).
    assert (P : 0 < val a / val b) by (apply Rdiv_lt_0_compat; assumption). rewrite Rabs_pos_eq by lra. apply Rle_trans with (bpow radix2 200); [apply fits_up; assumption | apply bpow_le; lia]. }
  intros a b d q r Ha Hb Hd L Eq Er. pose proof (S a b Ha Hb) as S1. pose proof (S a d Ha Hd) as S2. destruct Ha as (Fa & a0 & _). destruct Hb as (Fb & b0 & _). destruct Hd as (Fd & d0 & _).
  destruct (fdiv_val a b Fa b0 Fb S1) as (q' & Eq' & _ & Vq). destruct (fdiv_val a d Fa d0 Fd S2) as (r' & Er' & _ & Vr).
  rewrite Eq in Eq'. rewrite Er in Er'. injection Eq' as <-. injection Er' as <-. rewrite Vq, Vr. apply rnd_mono. apply Rmult_le_compat_l; [lra |]. apply Rinv_le; lra.
Qed.
Lemma pkpp_ok : forall p k p_min p_max, amount p -> amount k -> amount p_min -> amount p_max -> val p_min <= val p <= val p_max ->
  exists c, fc_from_pkpp p k p_min p_max = Ret c /\ fc_k c = k /\ finite (fc_xa c) /\ finite (fc_ya c) /\
    Rabs (val (fc_x c) - sqrt (val k / val p)) <= bpow radix2 (-49) * sqrt (val k / val p) /\ 0 <= val (fc_xa c) <= val (fc_x c) /\ 0 <= val (fc_ya c) /\
    Rabs (val (fc_xa c) - (sqrt (val k / val p) - sqrt (val k / val p_max))) <= bpow radix2 (-50) * sqrt (val k / val p) /\
    Rabs (val (fc_ya c) - (sqrt (val k * val p) - sqrt (val k * val p_min))) <= bpow radix2 (-50) * sqrt (val k * val p).
Proof.
  intros p k a b Hp Hk Ha Hb (L1 & L2).
  assert (QQ : forall z, amount z -> exists q s, fdiv k z = Ret q /\ fsqrt q = Ret s /\ near 2 (sqrt (val k / val z)) s /\ val s = rnd (sqrt (val q)) /\ fits 100 (sqrt (val k / val z)) /\ 0 < sqrt (val k / val z)).
  { intros z Hz. pose proof Hz as (_ & z0 & Gz). pose proof Hk as (_ & k0 & Gk). assert (F : fits 200 (val k / val z)) by (apply (fits_div 100 100); assumption).
    destruct (near_fdiv 0 0 (val k) (val z) k z (amount_near _ Hk) (amount_near _ Hz)) as (q & Eq & Nq); [apply few_small; lia | exact z0 | apply (fits_le 200 1000 _ ltac:(lia) F) |].
    destruct (near_sqrt 1 (val k / val z) q Nq) as (s & Es & Ns & Vs); [apply few_small; lia | apply (fits_le 200 1000 _ ltac:(lia) F) |].
    exists q, s. repeat split; try assumption; try apply Ns. apply (sqrt_fits 100 _ ltac:(lia) F). apply sqrt_lt_R0, Rdiv_lt_0_compat; assumption. }
  assert (MM : forall z, amount z -> exists s, fsqrt (fmul k z) = Ret s /\ near 2 (sqrt (val k * val z)) s /\ val s = rnd (sqrt (val (fmul k z))) /\ fits 100 (sqrt (val k * val z))).
  { intros z Hz. pose proof Hz as (_ & z0 & Gz). pose proof Hk as (_ & k0 & Gk). assert (F : fits 200 (val k * val z)) by (apply (fits_mul 100 100); assumption).
    assert (Nq : near 1 (val k * val z) (fmul k z)) by (apply (near_mul 0 0); try (apply amount_near; assumption); [apply few_small; lia | apply (fits_le 200 1000 _ ltac:(lia) F)]).
    destruct (near_sqrt 1 (val k * val z) _ Nq) as (s & Es & Ns & Vs); [apply few_small; lia | apply (fits_le 200 1000 _ ltac:(lia) F) |].
    exists s. repeat split; try assumption; try apply Ns. apply (sqrt_fits 100 _ ltac:(lia) F). }
  destruct (QQ p Hp) as (q & x0 & Eq & Ex & Nx & Vx & Fx & Px). destruct (QQ b Hb) as (q' & xm & Eq' & Exm & Nxm & Vxm & Fxm & _).
  destruct (MM p Hp) as (y0 & Ey & Ny & Vy & Fy). destruct (MM a Ha) as (ym & Eym & Nym & Vym & Fym).
  pose proof Hk as (Fk & k0 & Gk). pose proof Hp as (_ & p0 & _). pose proof Ha as (_ & a0 & _). pose proof Hb as (_ & b0 & _).
  assert (M1 : val xm <= val x0) by (rewrite Vx, Vxm; apply rnd_mono, sqrt_le_1_alt; apply (fdiv_mono k p b q q'); assumption).
  assert (M2 : val ym <= val y0) by (rewrite Vy, Vym; apply rnd_mono, sqrt_le_1_alt; apply fmul_mono; assumption).
  assert (R1 : sqrt (val k / val b) <= sqrt (val k / val p)) by (apply sqrt_le_1_alt; apply Rmult_le_compat_l; [lra |]; apply Rinv_le; lra).
  assert (R2 : sqrt (val k * val a) <= sqrt (val k * val p)) by (apply sqrt_le_1_alt; apply Rmult_le_compat_l; lra).
  destruct (diff2 x0 xm _ _ 100 Nx Nxm R1 Fx Fxm ltac:(lia)) as (F1 & V1 & D1). destruct (diff2 y0 ym _ _ 100 Ny Nym R2 Fy Fym ltac:(lia)) as (F2 & V2 & D2).
  assert (FKX : fits 200 (val k / sqrt (val k / val p))) by (apply (fits_div 100 100); assumption).
  destruct (near_fdiv 0 2 (val k) (sqrt (val k / val p)) k x0 (amount_near _ Hk) Nx) as (yy & Eyy & _); [apply few_small; lia | exact Px | apply (fits_le 200 1000 _ ltac:(lia) FKX) |].
  unfold fc_from_pkpp, fmake. rewrite Eq. cbn [rbind]. rewrite Ex. cbn [rbind]. rewrite Ey. cbn [rbind]. rewrite Eq'. cbn [rbind]. rewrite Exm. cbn [rbind]. rewrite Eym. cbn [rbind]. rewrite Eyy. cbn [rbind].
  eexists. split; [reflexivity |]. cbn [fc_k fc_x fc_xa fc_ya]. split; [reflexivity |]. split; [exact F1 |]. split; [exact F2 |].
  split; [apply near49 with 2%nat; [exact Nx | lia] |].
  split. { rewrite V1. split; [apply rnd_pos; lra |]. pose proof (near_pos _ _ _ Nxm). apply round_le_generic; [apply fexp_correct; reflexivity | apply valid_rnd_N | apply fmt | lra]. }
  split; [rewrite V2; apply rnd_pos; lra |]. rewrite u50. split; [exact D1 | exact D2].
Qed.
Lemma univ3_ok : forall P L Pa Pb, finite P -> finite Pa -> finite Pb ->
  (val Pa < val P < val Pb -> fc_from_univ3 P L Pa Pb = fc_from_pkpp P (fmul L L) Pa Pb) /\
  (~ val Pa < val P < val Pb -> fc_from_univ3 P L Pa Pb = Raise AssertionError).
Proof.
  intros P L Pa Pb F Fa Fb. unfold fc_from_univ3. rewrite (flt_correct Pa Pb Fa Fb), (flt_correct Pa P Fa F), (flt_correct P Pb F Fb). unfold rlt.
  destruct (Rlt_dec (val Pa) (val Pb)), (Rlt_dec (val Pa) (val P)), (Rlt_dec (val P) (val Pb)); cbn [negb andb]; split; intro H; try reflexivity; exfalso; try (apply H); lra.
Qed.
(** ** states for given prices *)
Lemma xyfromp_ok : forall c p, amount (fc_k c) -> amount p -> exists x y, fc_xyfromp c (Some p) true = Ret (x, y, p) /\ finite x /\ finite y /\
  Rabs (val x - sqrt (val (fc_k c) / val p)) <= bpow radix2 (-49) * sqrt (val (fc_k c) / val p) /\
  Rabs (val y - sqrt (val (fc_k c) * val p)) <= bpow radix2 (-49) * sqrt (val (fc_k c) * val p).
Proof.
  intros c p Hk Hp. pose proof Hk as (_ & k0 & Gk). pose proof Hp as (_ & p0 & Gp).
  assert (S : forall z, amount z -> exists s, fsqrt z = Ret s /\ near 1 (sqrt (val z)) s /\ fits 100 (sqrt (val z)) /\ 0 < sqrt (val z)).
  { intros z Hz. pose proof Hz as (_ & z0 & Gz). destruct (near_sqrt 0 (val z) z (amount_near _ Hz)) as (s & Es & Ns & _); [apply few_small; lia | apply (fits_le 100 1000 _ ltac:(lia) Gz) |].
    exists s. repeat split; try assumption; try apply Ns. apply (sqrt_fits 100 _ ltac:(lia) (fits_le 100 200 _ ltac:(lia) Gz)). apply sqrt_lt_R0; exact z0. }
  destruct (S p Hp) as (sp & Ep & Np & Fp & Pp). destruct (S _ Hk) as (sk & Ek & Nk & Fk & Pk).
  destruct (near_fdiv 1 1 _ _ sk sp Nk Np) as (x & Ex & Nx); [apply few_small; lia | exact Pp | apply (fits_le 200 1000 _ ltac:(lia)); apply (fits_div 100 100); assumption |].
  assert (Ny : near 3 (sqrt (val (fc_k c)) * sqrt (val p)) (fmul sk sp)) by (apply (near_mul 1 1); try assumption; [apply few_small; lia | apply (fits_le 200 1000 _ ltac:(lia)); apply (fits_mul 100 100); assumption]).
  rewrite <- sqrt_div_alt in Nx by exact p0. rewrite <- sqrt_mult_alt in Ny by lra.
  exists x, (fmul sk sp). unfold fc_xyfromp. cbn [rbind]. rewrite Ep. cbn [rbind]. rewrite Ek. cbn [rbind]. rewrite Ex. cbn [rbind]. split; [reflexivity |]. split; [apply Nx |]. split; [apply Ny |].
  split; [apply near49 with 3%nat; [exact Nx | lia] | apply near49 with 3%nat; [exact Ny | lia]].
Qed.
Lemma clamp : forall lo hi v, finite lo -> all_finite hi -> finite v -> below lo hi -> let r := lower_to hi (raise_to lo v) in
  val lo <= val r /\ below r hi /\ (val lo <= val v -> below v hi -> r = v) /\ (r = v \/ r = lo \/ hi = Some r).
Proof.
  intros lo hi v Fl Fh Fv LH. cbv zeta. unfold raise_to. rewrite (flt_correct v lo Fv Fl). unfold rlt, lower_to. destruct (Rlt_dec (val v) (val lo)) as [L | L].
  - destruct hi as [h |]; cbn [below all_finite] in *; [rewrite (flt_correct h lo Fh Fl); unfold rlt; destruct (Rlt_dec (val h) (val lo)); [lra |] |]; (split; [lra |]; split; [lra || exact I |]; split; [intros; lra | right; left; reflexivity]).
  - destruct hi as [h |]; cbn [below all_finite] in *; [| split; [lra |]; split; [exact I |]; split; [reflexivity | left; reflexivity]].
    rewrite (flt_correct h v Fh Fv). unfold rlt. destruct (Rlt_dec (val h) (val v)).
    + split; [exact LH |]. split; [lra |]. split; [intros; lra | right; right; reflexivity].
    + split; [lra |]. split; [lra |]. split; [reflexivity | left; reflexivity].
Qed.
Lemma bounded_ok : forall c p x y q, fc_xyfromp c p false = Ret (x, y, q) -> exists x0 y0 ym xM yM, fc_xyfromp c p true = Ret (x0, y0, q) /\ fc_y_min c = Ret ym /\ fc_x_max c = Ret xM /\ fc_y_max c = Ret yM /\
  (finite (fc_x_min c) -> all_finite xM -> finite x0 -> below (fc_x_min c) xM -> val (fc_x_min c) <= val x /\ below x xM /\ (val (fc_x_min c) <= val x0 -> below x0 xM -> x = x0) /\ (x = x0 \/ x = fc_x_min c \/ xM = Some x)) /\
  (finite ym -> all_finite yM -> finite y0 -> below ym yM -> val ym <= val y /\ below y yM /\ (val ym <= val y0 -> below y0 yM -> y = y0) /\ (y = y0 \/ y = ym \/ yM = Some y)).
Proof.
  intros c p x y q H. unfold fc_xyfromp in *. destruct (match p with Some p => Ret p | None => fc_p c end) as [pp |]; cbn [rbind] in *; [| discriminate].
  destruct (fsqrt pp) as [sp |]; cbn [rbind] in *; [| discriminate]. destruct (fsqrt (fc_k c)) as [sk |]; cbn [rbind] in *; [| discriminate].
  destruct (fdiv sk sp) as [x0 |]; cbn [rbind] in *; [| discriminate]. destruct (fc_x_max c) as [xM |]; cbn [rbind] in *; [| discriminate].
  destruct (fc_y_min c) as [ym |]; cbn [rbind] in *; [| discriminate]. destruct (fc_y_max c) as [yM |]; cbn [rbind] in *; [| discriminate]. injection H as <- <- <-.
  exists x0, (fmul sk sp), ym, xM, yM. do 4 (split; [reflexivity |]). split; intros; apply clamp; assumption.
Qed.

(** ** Carbon orders *)
Lemma fle_correct : forall f g, finite f -> finite g -> fle f g = rle (val f) (val g).
Proof.
  intros f g F G. unfold fle, b64_compare. rewrite (Bcompare_correct 53 1024 f g F G). fold (val f) (val g). unfold rle.
  destruct (Rcompare_spec (val f) (val g)); destruct (Rle_dec (val f) (val g)); try reflexivity; lra.
Qed.
Lemma fle_true : forall f g, finite f -> finite g -> val f <= val g -> fle f g = true.
Proof. intros f g F G H. rewrite fle_correct by assumption. unfold rle. destruct (Rle_dec (val f) (val g)); [reflexivity | lra]. Qed.
Lemma carbon_ok : forall pw yint y A B, accurate pw -> amount yint -> input y -> amount A -> input B -> val y <= val yint -> 0 < val y + val yint * val B / val A ->
  exists c y' m, fc_from_carbon pw yint y A B = Ret c /\ fc_ya c = y /\ val (fc_xa c) = 0 /\ val (fc_x_min c) = val (fc_x c) /\ fc_y c = Ret y' /\ fc_y_min c = Ret m /\
    Rabs (val (fc_k c) - val yint ^ 2 / val A ^ 2) <= bpow radix2 (-49) * (val yint ^ 2 / val A ^ 2) /\
    Rabs (val (fc_x c) - val yint ^ 2 / val A ^ 2 / (val y + val yint * val B / val A)) <= bpow radix2 (-49) * (val yint ^ 2 / val A ^ 2 / (val y + val yint * val B / val A)) /\
    Rabs (val y' - (val y + val yint * val B / val A)) <= bpow radix2 (-50) * (val y + val yint * val B / val A) /\
    Rabs (val m - val yint * val B / val A) <= bpow radix2 (-50) * (val y + val yint * val B / val A).
Proof.
  intros pw yint y A B AC Hi Hy HA HB L S0. pose proof Hi as (Fi & i0 & Gi). pose proof HA as (FA & A0 & GA). destruct (input_near _ Hy) as (Ny & y0). destruct (input_near _ HB) as (NB & B0). destruct Hy as (Fy & Gy). destruct HB as (FB & GB).
  set (Y := val yint) in *. set (a := val A) in *. set (b := val B) in *.
  assert (F1 : fits 200 (Y * b)) by (apply (fits_mul 100 100); assumption).
  assert (F2 : fits 300 (Y * b / a)) by (apply (fits_div 200 100); assumption).
  assert (N1 : near 1 (Y * b) (fmul yint B)) by (apply (near_mul 0 0); [apply amount_near; exact Hi | exact NB | apply few_small; lia | apply (fits_le 200 1000 _ ltac:(lia) F1)]).
  destruct (near_fdiv 1 0 (Y * b) a (fmul yint B) A N1 (amount_near _ HA)) as (ya & Ea & Na); [apply few_small; lia | exact A0 | apply (fits_le 300 1000 _ ltac:(lia) F2) |].
  assert (NI : near 3 (Y ^ 2) (pw yint)) by (apply (near_pw pw 0 Y yint AC (amount_near _ Hi)); [apply (fits_le 100 440 _ ltac:(lia) Gi) | apply few_small; lia]).
  assert (NP : near 3 (a ^ 2) (pw A)) by (apply (near_pw pw 0 a A AC (amount_near _ HA)); [apply (fits_le 100 440 _ ltac:(lia) GA) | apply few_small; lia]).
  assert (FI : fits 200 (Y ^ 2)) by (apply (fits_sqr 100); exact Gi). assert (FP : fits 200 (a ^ 2)) by (apply (fits_sqr 100); exact GA).
  assert (a2 : 0 < a ^ 2) by (apply pow_lt; exact A0). assert (Y2 : 0 < Y ^ 2) by (apply pow_lt; exact i0).
  set (K := Y ^ 2 / a ^ 2) in *. assert (FK : fits 400 K) by (apply (fits_div 200 200); assumption). assert (K0 : 0 < K) by (apply Rdiv_lt_0_compat; assumption).
  destruct (near_fdiv 3 3 (Y ^ 2) (a ^ 2) (pw yint) (pw A) NI NP) as (k & Ek & Nk); [apply few_small; lia | exact a2 | apply (fits_le 400 1000 _ ltac:(lia) FK) |]. fold K in Nk.
  set (S := val y + Y * b / a) in *.
  assert (FS : fits 301 S) by (apply (fits_add 300); [lia | apply (fits_le 100 300 _ ltac:(lia) Gy) | exact F2]).
  assert (NS : near 3 S (fadd y ya)) by (apply near_add; [apply near_weaken with 0%nat; [lia | exact Ny] | exact Na | apply few_small; lia | apply (fits_le 301 1000 _ ltac:(lia) FS)]).
  assert (FX : fits 701 (K / S)) by (apply (fits_div 400 301); assumption).
  destruct (near_fdiv 7 3 K S k (fadd y ya) Nk NS) as (x & Ex & Nx); [apply few_small; lia | exact S0 | apply (fits_le 701 1000 _ ltac:(lia) FX) |].
  (* the same quotient seen from the doubles *)
  assert (k0 : 0 < val k) by (pose proof (near_pos _ _ _ Nk); destruct (Req_dec (val k) 0) as [X | X]; [apply (near_zero _ _ _ Nk) in X; lra | lra]).
  assert (s0 : 0 < val (fadd y ya)) by (pose proof (near_pos _ _ _ NS); destruct (Req_dec (val (fadd y ya)) 0) as [X | X]; [apply (near_zero _ _ _ NS) in X; lra | lra]).
  assert (Fk : fits 401 (val k)) by (apply (fits_of_near _ 400 K k Nk); [apply few_small; lia | exact FK | lia]).
  assert (Fs : fits 302 (val (fadd y ya))) by (apply (fits_of_near _ 301 S _ NS); [apply few_small; lia | exact FS | lia]).
  destruct (near_fdiv 0 0 (val k) (val (fadd y ya)) k (fadd y ya)) as (x' & Ex' & Nx'); [apply near_0; [apply Nk | lra] | apply near_0; [apply NS | lra] | apply few_small; lia | exact s0 | apply (fits_le 703 1000 _ ltac:(lia)); apply (fits_div 401 302); assumption |].
  rewrite Ex in Ex'. injection Ex' as <-.
  assert (x0 : 0 < val k / val (fadd y ya)) by (apply Rdiv_lt_0_compat; assumption).
  assert (KS : val k / (val k / val (fadd y ya)) = val (fadd y ya)) by (field; lra).
  destruct (near_fdiv 0 1 (val k) (val k / val (fadd y ya)) k x) as (y' & Ey' & Ny'); [apply near_0; [apply Nk | lra] | exact Nx' | apply few_small; lia | exact x0 | rewrite KS; apply (fits_le 302 1000 _ ltac:(lia) Fs) |]. rewrite KS in Ny'.
  pose proof (near_trans 3 2 S _ _ NS Ny') as N5. cbn [Nat.add] in N5.
  exists (mkFcpc k x fzero y), y', (fsub y' y). unfold fc_from_carbon, fmake.
  rewrite (fle_true y yint Fy Fi L), (fle_true fzero y fin_zero Fy), (fle_true fzero A fin_zero FA) by (rewrite val_zero; unfold a in A0; lra). cbn [negb].
  rewrite Ea. cbn [rbind]. rewrite Ek. cbn [rbind]. rewrite Ex. cbn [rbind]. rewrite Ey'. cbn [rbind]. split; [reflexivity |]. unfold fc_y_min, fc_x_min, fc_y. cbn [fc_k fc_x fc_xa fc_ya]. rewrite Ey'. cbn [rbind].
  split; [reflexivity |]. split; [reflexivity |].
  split. { destruct (fsub_val x fzero (proj1 Nx) fin_zero) as (_ & V & _).
    - rewrite val_zero, Rminus_0_r, Rabs_pos_eq by (apply (near_pos _ _ _ Nx)). apply Rle_trans with (bpow radix2 702); [| apply bpow_le; lia].
      assert (G : fits 702 (val x)) by (apply (fits_of_near _ 701 (K / S) x Nx); [apply few_small; lia | exact FX | lia]). destruct G as [G | (_ & G)]; [rewrite G; apply bpow_ge_0 | exact G].
    - rewrite V, val_zero, Rminus_0_r. apply round_generic; [apply valid_rnd_N | apply fmt]. }
  split; [reflexivity |]. split; [reflexivity |].
  split; [apply near49 with 7%nat; [exact Nk | lia] |]. split; [apply near49 with 11%nat; [exact Nx | lia] |].
  pose proof (near_abs _ _ _ N5 ltac:(lia)) as E5. replace (INR 5) with 5 in E5 by (simpl; lra). rewrite u50. pose proof u_pos as U. pose proof u_small as U1.
  assert (US : 0 <= u * S) by (apply Rmult_le_pos; lra). assert (US1 : u * S <= / 1024 * S) by (apply Rmult_le_compat_r; lra).
  assert (E6 : Rabs (val y' - S) <= 5.05 * (u * S)) by lra. split; [lra |].
  assert (Yb : 0 <= Y * b / a) by (apply (fits_pos _ _ F2)).
  destruct (sub_ok y' y (proj1 N5) Fy (near_pos _ _ _ N5) y0) as (_ & _ & Em); [apply (near_up 5 S y' 301); [exact N5 | lia | exact FS | lia] | apply (near_up 0 (val y) y 100); [exact Ny | lia | exact Gy | lia] |].
  apply Rabs_le_inv in E6. assert (D : Rabs (val y' - val y) <= 1.01 * S) by (apply abs_max; [split; [apply (near_pos _ _ _ N5) | lra] | unfold S in *; lra]).
  assert (E7 : u * Rabs (val y' - val y) <= u * (1.01 * S)) by (apply Rmult_le_compat_l; lra).
  assert (E8 : Rabs (val (fsub y' y) - (val y' - val y)) <= 1.01 * (u * S)) by lra. apply Rabs_le_inv in E8.
  assert (SS : S = val y + Y * b / a) by reflexivity. apply Rabs_le. lra.
Qed.
Lemma carbon_zero : forall pw yint y A B, finite yint -> finite y -> finite A -> 0 <= val y <= val yint -> val A = 0 -> fc_from_carbon pw yint y A B = Raise ZeroDivision.
Proof.
  intros pw yint y A B Fi Fy FA (L1 & L2) A0. unfold fc_from_carbon. rewrite (fle_true y yint Fy Fi L2), (fle_true fzero y fin_zero Fy), (fle_true fzero A fin_zero FA) by (rewrite val_zero; lra). cbn [negb].
  unfold fdiv at 1. rewrite (feq_correct A fzero FA fin_zero), val_zero, A0. unfold req. destruct (Req_EM_T 0 0); [reflexivity | lra].
Qed.
Lemma square_accurate : accurate (fun f => fmul f f).
Proof.
  intros f F G. pose proof (fits_pos _ _ G) as P. assert (F9 : fits 900 (val f * val f)) by (apply (fits_mul 450 450); assumption).
  assert (N : near 1 (val f * val f) (fmul f f)) by (apply (near_mul 0 0); try (apply near_0; assumption); [apply few_small; lia | apply (fits_le 900 1000 _ ltac:(lia) F9)]).
  split; [apply N |]. pose proof (near_abs _ _ _ N ltac:(lia)) as E. change (INR 1) with 1 in E. rewrite u52. replace (val f ^ 2) with (val f * val f) by ring. pose proof u_pos.
  assert (0 <= u * (val f * val f)) by (apply Rmult_le_pos; [lra | apply Rmult_le_pos; lra]). lra.
Qed.

(** ** the ends of the range in terms of the smallest balances *)
Lemma two_div : forall k m, amount k -> amount m -> exists q r, fdiv k m = Ret q /\ finite q /\ 0 < val q /\ Rabs (val q - val k / val m) <= bpow radix2 (-52) * (val k / val m) /\
  fdiv m q = Ret r /\ Rabs (val r - val m * val m / val k) <= bpow radix2 (-50) * (val m * val m / val k).
Proof.
  intros k m Hk Hm. pose proof Hk as (Fk & k0 & Gk). pose proof Hm as (Fm & m0 & Gm). pose proof u_pos as U.
  assert (FQ : fits 200 (val k / val m)) by (apply (fits_div 100 100); assumption). assert (Q0 : 0 < val k / val m) by (apply Rdiv_lt_0_compat; assumption).
  destruct (near_fdiv 0 0 (val k) (val m) k m (amount_near _ Hk) (amount_near _ Hm)) as (q & Eq & Nq); [apply few_small; lia | exact m0 | apply (fits_le 200 1000 _ ltac:(lia) FQ) |].
  assert (FR : fits 300 (val m / (val k / val m))) by (apply (fits_div 100 200); assumption).
  destruct (near_fdiv 0 1 (val m) (val k / val m) m q (amount_near _ Hm) Nq) as (r & Er & Nr); [apply few_small; lia | exact Q0 | apply (fits_le 300 1000 _ ltac:(lia) FR) |].
  exists q, r. split; [exact Eq |]. split; [apply Nq |].
  split. { pose proof (near_pos _ _ _ Nq). destruct (Req_dec (val q) 0) as [X | X]; [apply (near_zero _ _ _ Nq) in X; lra | lra]. }
  split. { pose proof (near_abs _ _ _ Nq ltac:(lia)) as E. change (INR (S (0 + 0))) with 1 in E. rewrite u52. apply Rle_trans with (1 := E). apply Rmult_le_compat_r; lra. }
  split; [exact Er |]. replace (val m / (val k / val m)) with (val m * val m / val k) in Nr by (field; lra).
  pose proof (near_abs _ _ _ Nr ltac:(lia)) as E. replace (INR (S (0 + 1))) with 2 in E by (simpl; lra). rewrite u50. apply Rle_trans with (1 := E). apply Rmult_le_compat_r; [| lra].
  apply Rlt_le, Rdiv_lt_0_compat; [apply Rmult_lt_0_compat |]; assumption.
Qed.
Lemma low_ok : forall c m, fc_y_min c = Ret m -> finite m ->
  (val m <= 0 -> fc_x_max c = Ret None /\ fc_p_min c = Ret None) /\
  (amount (fc_k c) -> amount m -> exists q r, fc_x_max c = Ret (Some q) /\ Rabs (val q - val (fc_k c) / val m) <= bpow radix2 (-52) * (val (fc_k c) / val m) /\
     fc_p_min c = Ret (Some r) /\ Rabs (val r - val m * val m / val (fc_k c)) <= bpow radix2 (-50) * (val m * val m / val (fc_k c))).
Proof.
  intros c m E F. unfold fc_p_min, fc_x_max. rewrite E. cbn [rbind]. split.
  - intro L. rewrite flt0_false by assumption. split; reflexivity.
  - intros Hk Hm. destruct (two_div _ _ Hk Hm) as (q & r & Eq & Fq & q0 & Q & Er & R). rewrite flt0_true by (try exact F; apply Hm). rewrite Eq. cbn [rbind]. rewrite flt0_true by assumption. rewrite Er. cbn [rbind].
    exists q, r. repeat split; assumption.
Qed.
Lemma high_ok : forall c, finite (fc_x_min c) -> let m := fc_x_min c in
  (val m <= 0 -> fc_y_max c = Ret None /\ fc_p_max c = Ret None) /\
  (amount (fc_k c) -> amount m -> exists q r, fc_y_max c = Ret (Some q) /\ Rabs (val q - val (fc_k c) / val m) <= bpow radix2 (-52) * (val (fc_k c) / val m) /\
     fc_p_max c = Ret (Some r) /\ Rabs (val r - val (fc_k c) / (val m * val m)) <= bpow radix2 (-50) * (val (fc_k c) / (val m * val m))).
Proof.
  intros c F. cbv zeta. unfold fc_p_max, fc_y_max. split.
  - intro L. rewrite flt0_false by assumption. split; reflexivity.
  - intros Hk Hm. set (m := fc_x_min c) in *. destruct (two_div _ _ Hk Hm) as (q & _ & Eq & Fq & q0 & Q & _). rewrite flt0_true by (try exact F; apply Hm). rewrite Eq. cbn [rbind].
    pose proof Hk as (Fk & k0 & Gk). pose proof Hm as (Fm & m0 & Gm). pose proof u_pos as U.
    assert (FQ : fits 200 (val (fc_k c) / val m)) by (apply (fits_div 100 100); assumption).
    destruct (near_fdiv 0 0 _ _ (fc_k c) m (amount_near _ Hk) (amount_near _ Hm)) as (q' & Eq' & Nq); [apply few_small; lia | exact m0 | apply (fits_le 200 1000 _ ltac:(lia) FQ) |]. rewrite Eq in Eq'. injection Eq' as <-.
    assert (FR : fits 300 (val (fc_k c) / val m / val m)) by (apply (fits_div 200 100); assumption).
    destruct (near_fdiv 1 0 _ _ q m Nq (amount_near _ Hm)) as (r & Er & Nr); [apply few_small; lia | exact m0 | apply (fits_le 300 1000 _ ltac:(lia) FR) |].
    rewrite Er. cbn [rbind]. exists q, r. split; [reflexivity |]. split; [exact Q |]. split; [reflexivity |].
    replace (val (fc_k c) / val m / val m) with (val (fc_k c) / (val m * val m)) in Nr by (field; lra).
    pose proof (near_abs _ _ _ Nr ltac:(lia)) as E. replace (INR (S (1 + 0))) with 2 in E by (simpl; lra). rewrite u50. apply Rle_trans with (1 := E). apply Rmult_le_compat_r; [| lra].
    apply Rlt_le, Rdiv_lt_0_compat; [| apply Rmult_lt_0_compat]; assumption.
Qed.
(** an order of Carbon is at the upper end of its range: the highest price is the same double as the price *)
Lemma top_price : forall c p, finite (fc_x c) -> 0 < val (fc_x c) -> val (fc_x c) <= bpow radix2 900 -> fc_xa c = fzero -> fc_p c = Ret p -> fc_p_max c = Ret (Some p) /\ fc_x_min c = fc_x c.
Proof.
  intros c p F x0 x1 E0 Ep. assert (M : fc_x_min c = fc_x c).
  { unfold fc_x_min. rewrite E0. destruct (fsub_val (fc_x c) fzero F fin_zero) as (G & V & _); [rewrite val_zero, Rminus_0_r, Rabs_pos_eq by (apply Rlt_le; exact x0); exact x1 |].
    assert (V' : val (fsub (fc_x c) fzero) = val (fc_x c)) by (rewrite V, val_zero, Rminus_0_r; apply round_generic; [apply valid_rnd_N | apply fmt]).
    apply B2R_inj.
    - destruct (fsub (fc_x c) fzero) as [s | s | s pl e | s mm e H]; try discriminate G; [exfalso; change (val (B754_zero 53 1024 s)) with 0 in V'; lra | reflexivity].
    - destruct (fc_x c) as [s | s | s pl e | s mm e H]; try discriminate F; [exfalso; change (val (B754_zero 53 1024 s)) with 0 in x0; lra | reflexivity].
    - exact V'. }
  split; [| exact M]. unfold fc_p_max, fc_y_max. rewrite M. rewrite flt0_true by assumption. unfold fc_p, fc_y in Ep. destruct (fdiv (fc_k c) (fc_x c)) as [y |]; cbn [rbind] in *; [| discriminate]. rewrite Ep. reflexivity.
Qed.
