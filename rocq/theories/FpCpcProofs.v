(** Lemmas for FpCpcProps.v. *)
From Coq Require Import ZArith Reals Bool List Lia Lra.
From Flocq Require Import Core Relative Plus_error IEEE754.BinarySingleNaN IEEE754.Binary IEEE754.Bits.
From Verif Require Import CurveModel FpModel FpSpec FpProofs FpProofs2 FpProofs3 FpCpcModel FpCpcSpec.
Import ListNotations.
Local Open Scope R_scope.

Notation rnd := (round radix2 (SpecFloat.fexp 53 1024) (round_mode mode_NE)).
Lemma amount_near : forall f, amount f -> near 0 (val f) f.
Proof. intros f (F & P & _). apply near_0; [exact F | lra]. Qed.
Lemma f_small : forall n, (n <= 100)%nat -> few n. Proof. exact few_small. Qed.
Lemma near_fdiv : forall n m x y f g, near n x f -> near m y g -> few (n + m) -> 0 < y -> fits 1000 (x / y) -> exists q, fdiv f g = Ret q /\ near (S (n + m)) (x / y) q.
Proof.
  intros n m x y f g N M Hf Hy F. unfold fdiv. rewrite (near_eq0 _ _ _ M). unfold req. destruct (Req_EM_T y 0); [lra |].
  eexists. split; [reflexivity |]. apply near_bdiv; assumption.
Qed.
Lemma close_of : forall n x f, near n x f -> (n <= 6)%nat -> Rabs (val f - x) <= bpow radix2 (-50) * x.
Proof.
  intros n x f N L. pose proof u_pos. pose proof u_small. apply le_INR in L. replace (INR 6) with 6 in L by (simpl; lra). pose proof (pos_INR n).
  assert (INR n * u <= 6 * u) by (apply Rmult_le_compat_r; lra). pose proof N as (_ & X0 & _).
  destruct (near_close_gen n x f (8 * u) N) as (_ & C); [lra | |].
  - apply Rmult_le_reg_r with (1 - INR n * u); [lra |]. replace (INR n * u / (1 - INR n * u) * (1 - INR n * u)) with (INR n * u) by (field; lra).
    assert (8 * u * (INR n * u) <= 8 * u * (6 * u)) by (apply Rmult_le_compat_l; lra). assert (u * u <= / 1024 * u) by (apply Rmult_le_compat_r; lra). lra.
  - rewrite (Rabs_pos_eq x X0) in C. replace (bpow radix2 (-50)) with (8 * u); [exact C |]. unfold u. change 8 with (bpow radix2 3). rewrite <- bpow_plus. reflexivity.
Qed.

(** ** constructors *)
Lemma near49 : forall n x f, near n x f -> (n <= 15)%nat -> Rabs (val f - x) <= bpow radix2 (-49) * x.
Proof. intros n x f N L. destruct (near_close n x f N L) as (_ & C). pose proof N as (_ & X0 & _). rewrite (Rabs_pos_eq x X0) in C. exact C. Qed.
Lemma make_ok : forall n m k x fk fx, (n <= 2)%nat -> (m <= 2)%nat -> near n k fk -> near m x fx -> 0 < k -> 0 < x -> fits 400 k -> fits 200 x ->
  exists c, fmake fk fx None None = Ret c /\ fc_k c = fk /\ fc_x c = fx /\ curve_ok c k x (k / x) (k / x / x).
Proof.
  intros n m k x fk fx Hn Hm Nk Nx k0 x0 Fk Fx.
  assert (Fy : fits 600 (k / x)) by (apply (fits_div 400 200); assumption).
  assert (Fp : fits 800 (k / x / x)) by (apply (fits_div 600 200); assumption).
  destruct (near_fdiv n m k x fk fx Nk Nx) as (y & Ey & Ny); [apply f_small; lia | exact x0 | apply fits_le with 600%Z; [lia | exact Fy] |].
  destruct (near_fdiv (S (n + m)) m (k / x) x y fx Ny Nx) as (p & Ep & Np); [apply f_small; lia | exact x0 | apply fits_le with 800%Z; [lia | exact Fp] |].
  unfold fmake. rewrite Ey. cbn [rbind]. eexists. split; [reflexivity |]. cbn [fc_k fc_x]. split; [reflexivity |]. split; [reflexivity |].
  unfold curve_ok, fc_p, fc_y. cbn [fc_k fc_x fc_xa fc_ya]. rewrite Ey. cbn [rbind]. rewrite Ep.
  split; [apply near49 with n; [exact Nk | lia] |]. split; [apply near49 with m; [exact Nx | lia] |].
  split; [exists y; split; [reflexivity | apply near49 with (S (n + m)); [exact Ny | lia]] |]. split; [exists p; split; [reflexivity | apply near49 with (S (S (n + m) + m)); [exact Np | lia]] |]. split; reflexivity.
Qed.
Lemma kx_ok : forall k x, amount k -> amount x -> exists c, fc_from_kx k x = Ret c /\ fc_k c = k /\ fc_x c = x /\ curve_ok c (val k) (val x) (val k / val x) (val k / val x / val x).
Proof.
  intros k x Hk Hx. apply (make_ok 0 0); try lia; try (apply amount_near; assumption); try apply Hk; try apply Hx; [apply (fits_le 100 400 _ ltac:(lia)), Hk | apply (fits_le 100 200 _ ltac:(lia)), Hx].
Qed.
Lemma ky_ok : forall k y, amount k -> amount y -> exists c, fc_from_ky k y = Ret c /\ fc_k c = k /\ curve_ok c (val k) (val k / val y) (val y) (val y * val y / val k).
Proof.
  intros k y Hk Hy. pose proof Hk as (_ & k0 & Fk). pose proof Hy as (_ & y0 & Fy).
  assert (Fx : fits 200 (val k / val y)) by (apply (fits_div 100 100); assumption).
  assert (x0 : 0 < val k / val y) by (apply Rdiv_lt_0_compat; assumption).
  unfold fc_from_ky. destruct (near_fdiv 0 0 (val k) (val y) k y) as (x & Ex & Nx); try (apply amount_near; assumption); try assumption; [apply f_small; lia | apply (fits_le 200 1000 _ ltac:(lia) Fx) |].
  rewrite Ex. cbn [rbind]. destruct (make_ok 0 1 (val k) (val k / val y) k x) as (c & E & K & _ & O); try lia; try assumption; [apply amount_near; exact Hk | apply (fits_le 100 400 _ ltac:(lia) Fk) |].
  exists c. split; [exact E |]. split; [exact K |]. replace (val k / (val k / val y)) with (val y) in O by (field; lra). replace (val y / (val k / val y)) with (val y * val y / val k) in O by (field; lra). exact O.
Qed.
Lemma xy_ok : forall x y, amount x -> amount y -> exists c, fc_from_xy x y = Ret c /\ fc_x c = x /\ curve_ok c (val x * val y) (val x) (val y) (val y / val x).
Proof.
  intros x y Hx Hy. pose proof Hx as (_ & x0 & Fx). pose proof Hy as (_ & y0 & Fy).
  assert (Fk : fits 200 (val x * val y)) by (apply (fits_mul 100 100); assumption).
  destruct (make_ok 1 0 (val x * val y) (val x) (fmul x y) x) as (c & E & _ & X & O); try lia; try assumption.
  - apply (near_mul 0 0); try (apply amount_near; assumption); [apply f_small; lia | apply (fits_le 200 1000 _ ltac:(lia) Fk)].
  - apply amount_near; exact Hx.
  - apply Rmult_lt_0_compat; assumption.
  - apply (fits_le 200 400 _ ltac:(lia) Fk).
  - apply (fits_le 100 200 _ ltac:(lia) Fx).
  - exists c. split; [exact E |]. split; [exact X |]. replace (val x * val y / val x) with (val y) in O by (field; lra). exact O.
Qed.
Lemma px_ok : forall p x, amount p -> amount x -> exists c, fc_from_px p x = Ret c /\ fc_x c = x /\ curve_ok c (val x * val x * val p) (val x) (val x * val p) (val p).
Proof.
  intros p x Hp Hx. pose proof Hx as (_ & x0 & Fx). pose proof Hp as (_ & p0 & Fp).
  assert (F2 : fits 200 (val x * val x)) by (apply (fits_mul 100 100); assumption).
  assert (Fk : fits 300 (val x * val x * val p)) by (apply (fits_mul 200 100); assumption).
  destruct (make_ok 2 0 (val x * val x * val p) (val x) (fmul (fmul x x) p) x) as (c & E & _ & X & O); try lia; try assumption.
  - apply (near_mul 1 0); [apply (near_mul 0 0) | | |]; try (apply amount_near; assumption); try (apply f_small; lia); [apply (fits_le 200 1000 _ ltac:(lia) F2) | apply (fits_le 300 1000 _ ltac:(lia) Fk)].
  - apply amount_near; exact Hx.
  - repeat apply Rmult_lt_0_compat; assumption.
  - apply (fits_le 300 400 _ ltac:(lia) Fk).
  - apply (fits_le 100 200 _ ltac:(lia) Fx).
  - exists c. split; [exact E |]. split; [exact X |]. replace (val x * val x * val p / val x) with (val x * val p) in O by (field; lra). replace (val x * val p / val x) with (val p) in O by (field; lra). exact O.
Qed.
Lemma py_ok : forall p y, amount p -> amount y -> exists c, fc_from_py p y = Ret c /\ curve_ok c (val y * val y / val p) (val y / val p) (val y) (val p).
Proof.
  intros p y Hp Hy. pose proof Hy as (_ & y0 & Fy). pose proof Hp as (_ & p0 & Fp).
  assert (F2 : fits 200 (val y * val y)) by (apply (fits_mul 100 100); assumption).
  assert (Fk : fits 300 (val y * val y / val p)) by (apply (fits_div 200 100); assumption).
  assert (Fx : fits 200 (val y / val p)) by (apply (fits_div 100 100); assumption).
  assert (N2 : near 1 (val y * val y) (fmul y y)) by (apply (near_mul 0 0); try (apply amount_near; assumption); [apply f_small; lia | apply (fits_le 200 1000 _ ltac:(lia) F2)]).
  unfold fc_from_py. destruct (near_fdiv 1 0 (val y * val y) (val p) (fmul y y) p) as (k & Ek & Nk); try assumption; [apply amount_near; exact Hp | apply f_small; lia | apply (fits_le 300 1000 _ ltac:(lia) Fk) |].
  destruct (near_fdiv 0 0 (val y) (val p) y p) as (x & Ex & Nx); try (apply amount_near; assumption); try assumption; [apply f_small; lia | apply (fits_le 200 1000 _ ltac:(lia) Fx) |].
  rewrite Ek. cbn [rbind]. rewrite Ex. cbn [rbind].
  assert (x0 : 0 < val y / val p) by (apply Rdiv_lt_0_compat; assumption).
  destruct (make_ok 2 1 (val y * val y / val p) (val y / val p) k x) as (c & E & _ & _ & O); try lia; try assumption.
  - apply Rdiv_lt_0_compat; [apply Rmult_lt_0_compat |]; assumption.
  - apply (fits_le 300 400 _ ltac:(lia) Fk).
  - exists c. split; [exact E |]. replace (val y * val y / val p / (val y / val p)) with (val y) in O by (field; lra). replace (val y / (val y / val p)) with (val p) in O by (field; lra). exact O.
Qed.
Lemma pk_ok : forall p k, amount p -> amount k -> exists c, fc_from_pk p k = Ret c /\ fc_k c = k /\ curve_ok c (val k) (sqrt (val k / val p)) (sqrt (val k * val p)) (val p).
Proof.
  intros p k Hp Hk. pose proof Hk as (_ & k0 & Fk). pose proof Hp as (_ & p0 & Fp).
  assert (Fq : fits 200 (val k / val p)) by (apply (fits_div 100 100); assumption).
  assert (q0 : 0 < val k / val p) by (apply Rdiv_lt_0_compat; assumption).
  assert (Fx : fits 100 (sqrt (val k / val p))) by (apply sqrt_fits; [lia | exact Fq]).
  assert (x0 : 0 < sqrt (val k / val p)) by (apply sqrt_lt_R0; exact q0).
  unfold fc_from_pk. destruct (near_fdiv 0 0 (val k) (val p) k p) as (q & Eq & Nq); try (apply amount_near; assumption); try assumption; [apply f_small; lia | apply (fits_le 200 1000 _ ltac:(lia) Fq) |].
  rewrite Eq. cbn [rbind]. destruct (near_sqrt 1 (val k / val p) q Nq) as (x & Ex & Nx & _); [apply f_small; lia | apply (fits_le 200 1000 _ ltac:(lia) Fq) |].
  rewrite Ex. cbn [rbind]. destruct (make_ok 0 2 (val k) (sqrt (val k / val p)) k x) as (c & E & K & _ & O); try lia; try assumption.
  - apply amount_near; exact Hk.
  - apply (fits_le 100 400 _ ltac:(lia) Fk).
  - apply (fits_le 100 200 _ ltac:(lia) Fx).
  - exists c. split; [exact E |]. split; [exact K |].
    assert (SS : sqrt (val k / val p) * sqrt (val k / val p) = val k / val p) by (apply sqrt_sqrt; lra).
    assert (Y : val k / sqrt (val k / val p) = sqrt (val k * val p)).
    { symmetry. apply sqrt_lem_1; [apply Rlt_le, Rmult_lt_0_compat; lra | apply Rlt_le, Rdiv_lt_0_compat; lra |].
      replace (val k / sqrt (val k / val p) * (val k / sqrt (val k / val p))) with (val k * val k / (sqrt (val k / val p) * sqrt (val k / val p))) by (field; lra). rewrite SS. field. lra. }
    assert (P : val k / sqrt (val k / val p) / sqrt (val k / val p) = val p).
    { replace (val k / sqrt (val k / val p) / sqrt (val k / val p)) with (val k / (sqrt (val k / val p) * sqrt (val k / val p))) by (field; lra). rewrite SS. field. lra. }
    rewrite P, Y in O. exact O.
Qed.

(** ** sums and differences of any two doubles *)
Lemma fmt : forall f : fl, generic_format radix2 (SpecFloat.fexp 53 1024) (val f). Proof. intro f. apply generic_format_B2R. Qed.
Lemma sum_ex : forall x y, generic_format radix2 (SpecFloat.fexp 53 1024) x -> generic_format radix2 (SpecFloat.fexp 53 1024) y -> Rabs (rnd (x + y) - (x + y)) <= u * Rabs (x + y).
Proof.
  intros x y Hx Hy. destruct (@FLT_plus_error_N_ex radix2 (-1074) 53 eq_refl (fun z => negb (Z.even z)) x y Hx Hy) as (eps & B & E).
  assert (B' : Rabs eps <= u).
  { apply Rle_trans with (1 := B). assert (U : u_ro radix2 53 = u) by (unfold u_ro, u; change (/ 2) with (bpow radix2 (-1)); rewrite <- bpow_plus; reflexivity).
    rewrite U. pose proof u_pos. apply Rmult_le_reg_r with (1 + u); [lra |]. replace (u / (1 + u) * (1 + u)) with u by (field; lra).
    assert (0 <= u * u) by (apply Rmult_le_pos; lra). lra. }
  change (round radix2 (FLT_exp (-1074) 53) (Znearest (fun z => negb (Z.even z))) (x + y)) with (rnd (x + y)) in E. rewrite E.
  replace ((x + y) * (1 + eps) - (x + y)) with (eps * (x + y)) by ring. rewrite Rabs_mult. apply Rmult_le_compat_r; [apply Rabs_pos | exact B'].
Qed.
Lemma small_rnd : forall z, Rabs z <= bpow radix2 900 -> Rlt_bool (Rabs (rnd z)) (bpow radix2 1024) = true.
Proof.
  intros z H. apply Rlt_bool_true. apply Rle_lt_trans with (bpow radix2 900); [| apply bpow_lt; lia].
  apply abs_round_le_generic; [apply fexp_correct; reflexivity | apply valid_rnd_N | apply generic_format_bpow; unfold SpecFloat.fexp, SpecFloat.emin; lia | exact H].
Qed.
Lemma fadd_val : forall f g, finite f -> finite g -> Rabs (val f + val g) <= bpow radix2 900 ->
  finite (fadd f g) /\ val (fadd f g) = rnd (val f + val g) /\ Rabs (val (fadd f g) - (val f + val g)) <= u * Rabs (val f + val g).
Proof.
  intros f g F G H. pose proof (Bplus_correct 53 1024 (eq_refl _) (eq_refl _) binop_nan_pl64 mode_NE f g F G) as C.
  pose proof (small_rnd _ H) as S. unfold val in S. rewrite S in C. destruct C as (C1 & C2 & _). split; [exact C2 |]. split; [exact C1 |].
  unfold val in *. change (B2R 53 1024 (fadd f g)) with (B2R 53 1024 (Bplus 53 1024 (eq_refl _) (eq_refl _) binop_nan_pl64 mode_NE f g)). rewrite C1. apply sum_ex; apply generic_format_B2R.
Qed.
Lemma fsub_val : forall f g, finite f -> finite g -> Rabs (val f - val g) <= bpow radix2 900 ->
  finite (fsub f g) /\ val (fsub f g) = rnd (val f - val g) /\ Rabs (val (fsub f g) - (val f - val g)) <= u * Rabs (val f - val g).
Proof.
  intros f g F G H. pose proof (Bminus_correct 53 1024 (eq_refl _) (eq_refl _) binop_nan_pl64 mode_NE f g F G) as C.
  pose proof (small_rnd _ H) as S. unfold val in S. rewrite S in C. destruct C as (C1 & C2 & _). split; [exact C2 |]. split; [exact C1 |].
  unfold val in *. change (B2R 53 1024 (fsub f g)) with (B2R 53 1024 (Bminus 53 1024 (eq_refl _) (eq_refl _) binop_nan_pl64 mode_NE f g)). rewrite C1. unfold Rminus at 2 3 4. apply sum_ex; [apply generic_format_B2R | apply generic_format_opp, generic_format_B2R].
Qed.
Lemma fdiv_val : forall f g, finite f -> 0 < val g -> finite g -> Rabs (val f / val g) <= bpow radix2 900 ->
  exists q, fdiv f g = Ret q /\ finite q /\ val q = rnd (val f / val g).
Proof.
  intros f g F G0 G H. unfold fdiv. rewrite (feq_correct g fzero G fin_zero), val_zero. unfold req. destruct (Req_EM_T (val g) 0); [lra |].
  eexists. split; [reflexivity |].
  assert (Hg : B2R 53 1024 g <> 0) by (unfold val in G0; lra).
  pose proof (Bdiv_correct 53 1024 (eq_refl _) (eq_refl _) binop_nan_pl64 mode_NE f g Hg) as C.
  pose proof (small_rnd _ H) as S. unfold val in S. rewrite S in C. destruct C as (C1 & C2 & _). split; [| exact C1].
  unfold finite in F. rewrite F in C2. exact C2.
Qed.
Lemma rnd_mono : forall a b, a <= b -> rnd a <= rnd b. Proof. intros a b H. apply round_le; [apply fexp_correct; reflexivity | apply valid_rnd_N | exact H]. Qed.
Lemma rnd_pos : forall a, 0 <= a -> 0 <= rnd a.
Proof. intros a H. replace 0 with (rnd 0) at 1 by (apply round_0; apply valid_rnd_N). apply rnd_mono, H. Qed.
Lemma rnd_ge : forall (f : fl) z, val f <= z -> val f <= rnd z.
Proof. intros f z H. apply round_ge_generic; [apply fexp_correct; reflexivity | apply valid_rnd_N | apply fmt | exact H]. Qed.
Lemma rnd_ge_opp : forall (f : fl) z, - val f <= z -> - val f <= rnd z.
Proof. intros f z H. apply round_ge_generic; [apply fexp_correct; reflexivity | apply valid_rnd_N | apply generic_format_opp, fmt | exact H]. Qed.
Lemma rnd_neg : forall z, z <= 0 -> rnd z <= 0.
Proof. intros z H. replace 0 with (rnd 0) by (apply round_0; apply valid_rnd_N). apply rnd_mono, H. Qed.
(** distance of a near number *)
Lemma near_abs : forall n x f, near n x f -> (n <= 8)%nat -> Rabs (val f - x) <= 1.01 * INR n * u * x.
Proof.
  intros n x f N L. pose proof u_pos. pose proof u_small. apply le_INR in L. replace (INR 8) with 8 in L by (simpl; lra). pose proof (pos_INR n).
  assert (INR n * u <= 8 * u) by (apply Rmult_le_compat_r; lra). pose proof N as (_ & X0 & _). assert (0 <= INR n * u) by (apply Rmult_le_pos; lra).
  destruct (near_close_gen n x f (1.01 * INR n * u) N) as (_ & C); [lra | |].
  - apply Rmult_le_reg_r with (1 - INR n * u); [lra |]. replace (INR n * u / (1 - INR n * u) * (1 - INR n * u)) with (INR n * u) by (field; lra).
    replace (1.01 * INR n * u * (1 - INR n * u)) with (1.01 * (INR n * u) - 1.01 * (INR n * u * (INR n * u))) by ring.
    assert (INR n * u * (INR n * u) <= INR n * u * (8 / 1024)) by (apply Rmult_le_compat_l; lra). lra.
  - rewrite (Rabs_pos_eq x X0) in C. exact C.
Qed.
Lemma u50 : bpow radix2 (-50) = 8 * u.
Proof. unfold u. change 8 with (bpow radix2 3). rewrite <- bpow_plus. reflexivity. Qed.
Lemma u51 : bpow radix2 (-51) = 4 * u.
Proof. unfold u. change 4 with (bpow radix2 2). rewrite <- bpow_plus. reflexivity. Qed.
Lemma u52 : bpow radix2 (-52) = 2 * u.
Proof. unfold u. change 2 with (bpow radix2 1). rewrite <- bpow_plus. reflexivity. Qed.
Lemma fits_up : forall e x, 0 < x -> fits e x -> x <= bpow radix2 e. Proof. intros e x P [E | (_ & H)]; [lra | exact H]. Qed.

(** ** amounts put in *)
Lemma input_near : forall f, input f -> near 0 (val f) f /\ 0 <= val f.
Proof. intros f (F & H). pose proof (fits_pos _ _ H). split; [apply near_0; assumption | assumption]. Qed.
(** the common part: a double of b after a was added, and the quotients of k *)
Lemma quotients : forall k a b d (n : nat) A, amount k -> near n A a -> (n <= 1)%nat -> 0 < A -> fits 200 A -> input d -> b = fadd a d ->
  exists q q', fdiv k a = Ret q /\ fdiv k b = Ret q' /\ near (S n) (val k / A) q /\ near (S (S n)) (val k / (A + val d)) q' /\
    val a <= val b /\ 0 <= val q' <= val q /\ near (S n) (A + val d) b /\ val k / (A + val d) <= val k / A /\ fits 301 (val k / (A + val d)).
Proof.
  intros k a b d n A Hk Na L A0 FA Hd ->. pose proof Hk as (Fk & k0 & Gk). destruct (input_near _ Hd) as (Nd & d0). destruct Hd as (Fd & Gd).
  assert (FB : fits 201 (A + val d)) by (apply (fits_add 200); [lia | exact FA | apply (fits_le 100 200 _ ltac:(lia) Gd)]).
  assert (Nb : near (S n) (A + val d) (fadd a d)).
  { apply near_add; [exact Na | apply near_weaken with 0%nat; [lia | exact Nd] | apply few_small; lia | apply (fits_le 201 1000 _ ltac:(lia) FB)]. }
  assert (FQ : fits 300 (val k / A)) by (apply (fits_div 100 200); assumption).
  assert (FQ' : fits 301 (val k / (A + val d))) by (apply (fits_div 100 201); [lra | assumption | assumption]).
  destruct (near_fdiv 0 n (val k) A k a) as (q & Eq & Nq); [apply amount_near; exact Hk | exact Na | apply few_small; lia | exact A0 | apply (fits_le 300 1000 _ ltac:(lia) FQ) |].
  destruct (near_fdiv 0 (S n) (val k) (A + val d) k (fadd a d)) as (q' & Eq' & Nq'); [apply amount_near; exact Hk | exact Nb | apply few_small; lia | lra | apply (fits_le 301 1000 _ ltac:(lia) FQ') |].
  exists q, q'. split; [exact Eq |]. split; [exact Eq' |]. split; [exact Nq |]. split; [exact Nq' |].
  assert (a0 : 0 < val a).
  { pose proof (near_pos _ _ _ Na). destruct (Req_dec (val a) 0) as [E | E]; [apply (near_zero _ _ _ Na) in E; lra | lra]. }
  assert (Up : forall m x f e, near m x f -> (m <= 8)%nat -> fits e x -> 0 < x -> (e <= 800)%Z -> val f <= bpow radix2 801).
  { intros m x f e N Lm Fx x0 He. pose proof N as (_ & _ & _ & H). apply Rle_trans with (1 := H). apply fits_up in Fx; [| exact x0].
    assert (CC : c ^ m <= 2) by (apply cn_2, few_small; lia). pose proof (cn_pos m). apply Rle_trans with (bpow radix2 800 * 2).
    - apply Rmult_le_compat; [lra | lra | apply Rle_trans with (1 := Fx), bpow_le; lia | exact CC].
    - replace 2 with (bpow radix2 1) by reflexivity. rewrite <- bpow_plus. right. reflexivity. }
  assert (d1 : val d <= bpow radix2 100). { destruct Gd as [E | (_ & H)]; [rewrite E; apply bpow_ge_0 | exact H]. }
  assert (a1 : val a <= bpow radix2 801) by (apply (Up n A a 200%Z Na); [lia | exact FA | exact A0 | lia]).
  pose proof Na as (Fa & _).
  assert (B900 : bpow radix2 801 + bpow radix2 801 <= bpow radix2 900).
  { replace (bpow radix2 801 + bpow radix2 801) with (bpow radix2 801 * 2) by ring. replace 2 with (bpow radix2 1) by reflexivity. rewrite <- bpow_plus. apply bpow_le. lia. }
  assert (d2 : val d <= bpow radix2 801) by (apply Rle_trans with (1 := d1), bpow_le; lia).
  destruct (fadd_val a d Fa Fd) as (Fb & Eb & _); [rewrite Rabs_pos_eq; lra |].
  assert (ab : val a <= val (fadd a d)) by (rewrite Eb; apply rnd_ge; lra).
  split; [exact ab |].
  assert (Dq : val k / val (fadd a d) <= val k / val a).
  { apply Rmult_le_compat_l; [lra |]. apply Rinv_le; lra. }
  assert (D0 : 0 <= val k / val (fadd a d)) by (apply Rlt_le, Rdiv_lt_0_compat; lra).
  assert (Db : val k / val a <= bpow radix2 900).
  { assert (a2 : bpow radix2 (-201) <= val a).
    { pose proof Na as (_ & _ & H & _). destruct FA as [E | (H1 & _)]; [lra |].
      assert (CC : c ^ n <= 2) by (apply cn_2, few_small; lia).
      assert (val a * c ^ n <= val a * 2) by (apply Rmult_le_compat_l; lra).
      apply Rmult_le_reg_r with 2; [lra |]. apply Rle_trans with (val a * c ^ n); [| lra]. apply Rle_trans with (2 := H). apply Rle_trans with (2 := H1).
      replace 2 with (bpow radix2 1) by reflexivity. rewrite <- bpow_plus. right. reflexivity. }
    apply Rle_trans with (bpow radix2 100 * bpow radix2 201).
    - apply Rmult_le_compat; [lra | apply Rlt_le, Rinv_0_lt_compat; lra | apply fits_up; assumption |].
      replace (bpow radix2 201) with (/ bpow radix2 (-201)) by (rewrite <- bpow_opp; reflexivity). apply Rinv_le; [apply bpow_gt_0 | exact a2].
    - rewrite <- bpow_plus. apply bpow_le. lia. }
  destruct (fdiv_val k a Fk a0 Fa) as (r & Er & _ & Vr); [rewrite Rabs_pos_eq; lra |].
  destruct (fdiv_val k (fadd a d) Fk) as (r' & Er' & _ & Vr'); [lra | exact Fb | rewrite Rabs_pos_eq; lra |].
  rewrite Er in Eq. rewrite Er' in Eq'. injection Eq as <-. injection Eq' as <-.
  split; [rewrite Vr, Vr'; split; [apply rnd_pos; exact D0 | apply rnd_mono; exact Dq] |].
  split; [exact Nb |]. split; [| exact FQ']. apply Rmult_le_compat_l; [lra |]. apply Rinv_le; lra.
Qed.
