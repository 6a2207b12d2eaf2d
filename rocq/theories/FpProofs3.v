(** Input of a trade for its output, and curves from prices, in double precision. *)
From Coq Require Import ZArith Reals Bool Lia Lra.
From Flocq Require Import Core Relative IEEE754.BinarySingleNaN IEEE754.Binary IEEE754.Bits.
From Verif Require Import CurveModel FpModel FpSpec FpProofs FpProofs2.
Local Open Scope R_scope.

(** differences of rounded numbers *)
Lemma near_sub : forall n k x y f g, near n x f -> near n y g -> y <= x -> x <= INR k * (x - y) ->
  INR n * INR k * u <= / 100 -> (1 <= k)%nat -> fits 1000 (x - y) -> near (S (3 * n * k)) (x - y) (fsub f g).
Proof.
  intros n k x y f g N M Hyx Hk Hz K1 F.
  set (z := INR n * INR k * u) in *. pose proof u_pos as Hu.
  assert (KR : 1 <= INR k) by (apply (le_INR 1); exact K1).
  pose proof (pos_INR n) as Pn.
  assert (Hnu : INR n * u <= z) by (unfold z; assert (0 <= INR n * u) by nra; nra).
  assert (Hz0 : 0 <= z) by (unfold z; assert (0 <= INR n * u) by nra; nra).
  assert (Em : INR (3 * n * k) * u = 3 * z) by (rewrite !mult_INR; replace (INR 3) with 3 by (simpl; lra); unfold z; ring).
  assert (Hf : few (3 * n * k)) by (unfold few; lra).
  assert (CH : c ^ n <= / (1 - INR n * u)) by (apply cn_high; lra).
  set (e := c ^ n - 1).
  assert (He : e * INR k <= 102 / 100 * z).
  { assert (e <= 102 / 100 * (INR n * u)).
    { unfold e. apply Rle_trans with (/ (1 - INR n * u) - 1); [lra |].
      replace (/ (1 - INR n * u) - 1) with (INR n * u / (1 - INR n * u)) by (field; lra).
      apply Rmult_le_reg_r with (1 - INR n * u); [lra |].
      replace (INR n * u / (1 - INR n * u) * (1 - INR n * u)) with (INR n * u) by (field; lra).
      assert (0 <= INR n * u) by nra. nra. }
    unfold z. nra. }
  pose proof (cn_1 n) as C1. assert (He0 : 0 <= e) by (unfold e; lra).
  pose proof (near_pos _ _ _ N) as Pf. pose proof (near_pos _ _ _ M) as Pg.
  destruct N as (Nf & N0 & N1 & N2). destruct M as (Mf & M0 & M1 & M2).
  assert (A1 : x - e * x <= val f).
  { apply Rmult_le_reg_r with (c ^ n); [lra |]. apply Rle_trans with (2 := N1).
    replace (c ^ n) with (1 + e) by (unfold e; ring). assert (0 <= e * e * x) by (apply Rmult_le_pos; nra). lra. }
  assert (A2 : y - e * y <= val g).
  { apply Rmult_le_reg_r with (c ^ n); [lra |]. apply Rle_trans with (2 := M1).
    replace (c ^ n) with (1 + e) by (unfold e; ring). assert (0 <= e * e * y) by (apply Rmult_le_pos; nra). lra. }
  assert (A3 : val f <= x + e * x) by (unfold e; lra).
  assert (A4 : val g <= y + e * y) by (unfold e; lra).
  set (d := x - y) in *. assert (Hd : 0 <= d) by (unfold d; lra).
  assert (D : e * x + e * y <= 204 / 100 * z * d).
  { apply Rle_trans with (e * x * 2); [nra |]. apply Rle_trans with (e * (INR k * d) * 2); [nra |].
    replace (e * (INR k * d) * 2) with (e * INR k * (2 * d)) by ring.
    replace (204 / 100 * z * d) with (102 / 100 * z * (2 * d)) by field.
    apply Rmult_le_compat_r; lra. }
  pose proof (cn_low (3 * n * k)) as CL. rewrite Em in CL. set (C := c ^ (3 * n * k)) in *.
  assert (LB : d * (1 - 204 / 100 * z) <= val f - val g) by (unfold d in *; lra).
  assert (UB : val f - val g <= d * (1 + 204 / 100 * z)) by (unfold d in *; lra).
  assert (P1 : d <= (val f - val g) * C).
  { assert (Q : 1 <= (1 - 204 / 100 * z) * (1 + 3 * z)) by nra.
    apply Rle_trans with (d * (1 - 204 / 100 * z) * C).
    - rewrite Rmult_assoc. rewrite <- (Rmult_1_r d) at 1. apply Rmult_le_compat_l; [exact Hd |].
      apply Rle_trans with (1 := Q). apply Rmult_le_compat_l; lra.
    - apply Rmult_le_compat_r; lra. }
  assert (P2 : val f - val g <= d * C).
  { apply Rle_trans with (1 := UB). apply Rmult_le_compat_l; lra. }
  pose proof (no_over _ _ _ Hf Hd P1 P2 F) as NO.
  pose proof (Bminus_correct 53 1024 (eq_refl _) (eq_refl _) binop_nan_pl64 mode_NE f g Nf Mf) as CC.
  unfold val in NO. rewrite NO in CC. destruct CC as (C1' & C2 & _).
  apply rounded with (val f - val g); try assumption.
Qed.
Lemma fdxfromdy_same : forall pw o dy k raiseonerror, accurate pw -> ordinary o -> argument dy ->
  (1 <= k)%nat -> INR k <= bpow radix2 20 ->
  val (f_S o) * val (f_y o) + val (f_B o) * val (f_yint o) <=
    INR k * (val (f_S o) * (val (f_y o) - val dy) + val (f_B o) * val (f_yint o)) ->
  same_opt ((6 * INR k + 10) * bpow radix2 (-53)) (fdxfromdy_f pw o dy true raiseonerror)
    (dxfromdy_f (to_R o) (val dy) true raiseonerror).
Proof.
  intros pw o dy k ra A O Hdy K1 K2 Hk.
  destruct (arg_case dy Hdy) as (Fdy & L & _).
  destruct (fB o O) as (_ & FB & PB & NB). destruct (fS o O) as (_ & FS & PS & NS). destruct (fY o O) as (FYf & FY & PY & NY).
  destruct (fy o O) as (Fyf & Fy & Py & Ny). destruct (ft o O) as (Nt & Ft).
  set (B := val (f_B o)) in *. set (S := val (f_S o)) in *. set (Y := val (f_yint o)) in *. set (y := val (f_y o)) in *.
  unfold fdxfromdy_f, dxfromdy_f. rewrite (near_eq0 _ _ _ NB), (near_eq0 _ _ _ NS), L, (flt_correct _ _ Fyf Fdy).
  cbn [c_yint c_y c_B c_S to_R andb]. fold B S Y y. cbn zeta.
  destruct (req B 0 && req S 0); [destruct ra; [reflexivity | apply close_zero] |].
  destruct (rlt (val dy) 0) eqn:Hneg; [destruct ra; reflexivity |].
  destruct (rlt y (val dy)) eqn:Hbig; [destruct ra; reflexivity |].
  assert (Fd : fits 100 (val dy)).
  { destruct Hdy as (_ & [H | H]); [| exact H]. unfold rlt in Hneg. destruct (Rlt_dec (val dy) 0); [discriminate | lra]. }
  assert (Hle : val dy <= y) by (unfold rlt in Hbig; destruct (Rlt_dec y (val dy)); [discriminate | lra]).
  pose proof (near_0 dy Fdy (fits_pos _ _ Fd)) as Ndy. pose proof (fits_pos _ _ Fd) as Pdy.
  set (t := S * y + B * Y) in *. set (tf := fadd (fmul (f_S o) (f_y o)) (fmul (f_B o) (f_yint o))) in *.
  replace (S * (y - val dy) + B * Y) with (t - S * val dy) in Hk by (unfold t; ring).
  assert (F2 : fits 200 (S * val dy)) by (apply (fits_mul 100 100); assumption).
  assert (N2 : near 1 (S * val dy) (fmul (f_S o) dy)) by (apply (near_mul 0 0); try assumption; [apply few_small; lia | apply fits_le with 200%Z; [lia | exact F2]]).
  assert (Hsd : S * val dy <= t) by (unfold t; assert (0 <= B * Y) by nra; nra).
  assert (KR : 1 <= INR k) by (apply (le_INR 1); exact K1).
  pose proof u_pos as Hu.
  assert (Hku : INR k * u <= / bpow radix2 33).
  { rewrite <- bpow_opp. apply Rle_trans with (bpow radix2 20 * u); [apply Rmult_le_compat_r; lra |].
    unfold u. rewrite <- bpow_plus. right. reflexivity. }
  assert (B33 : / bpow radix2 33 <= / 1000000).
  { rewrite <- bpow_opp. change (bpow radix2 (- (33))) with (/ 8589934592). lra. }
  assert (Fdd : fits 221 (t - S * val dy)).
  { destruct Ft as [Ft | [Ft1 Ft2]].
    - left. pose proof (fits_pos _ _ F2). lra.
    - right. split.
      + apply Rmult_le_reg_l with (INR k); [lra |]. apply Rle_trans with (2 := Hk). apply Rle_trans with (2 := Ft1).
        apply Rle_trans with (bpow radix2 20 * bpow radix2 (- (221))); [apply Rmult_le_compat_r; [apply bpow_ge_0 | exact K2] |].
        rewrite <- bpow_plus. apply bpow_le. lia.
      + apply Rle_trans with (bpow radix2 201); [| apply bpow_le; lia]. pose proof (fits_pos _ _ F2). lra. }
  assert (Nd : near (Datatypes.S (3 * 2 * k)) (t - S * val dy) (fsub tf (fmul (f_S o) dy))).
  { apply near_sub; try assumption.
    - apply near_weaken with 1%nat; [lia | exact N2].
    - replace (INR 2) with 2 by (simpl; lra). rewrite Rmult_assoc. lra.
    - apply fits_le with 221%Z; [lia | exact Fdd]. }
  assert (FW : forall j, (j <= 100)%nat -> few (6 * k + j)).
  { intros j Hj. unfold few. rewrite plus_INR, mult_INR. replace (INR 6) with 6 by (simpl; lra).
    apply le_INR in Hj. replace (INR 100) with 100 in Hj by (simpl; lra). pose proof u_small.
    assert (INR j * u <= 100 * u) by nra. lra. }
  assert (F3 : fits 422 (t * (t - S * val dy))) by (apply (fits_mul 201 221); assumption).
  assert (N3 : near (6 * k + 4) (t * (t - S * val dy)) (fmul tf (fsub tf (fmul (f_S o) dy)))).
  { replace (6 * k + 4)%nat with (Datatypes.S (2 + Datatypes.S (3 * 2 * k))) by lia. apply near_mul; try assumption.
    - replace (2 + Datatypes.S (3 * 2 * k))%nat with (6 * k + 3)%nat by lia. apply FW. lia.
    - apply fits_le with 422%Z; [lia | exact F3]. }
  assert (F4 : fits 200 (Y ^ 2)) by (apply (fits_sqr 100); assumption).
  assert (N4 : near 3 (Y ^ 2) (pw (f_yint o))) by (apply (near_pw pw 0); [exact A | exact NY | apply fits_le with 100%Z; [lia | exact FY] | apply few_small; lia]).
  destruct (div_case 3 (6 * k + 4) _ _ _ _ N4 N3) as [(_ & E1 & E2) | (Hp & q & E1 & E2 & Nq)].
  - replace (3 + (6 * k + 4))%nat with (6 * k + 7)%nat by lia. apply FW. lia.
  - intros Hx. apply fits_le with 622%Z; [lia |]. apply (fits_div 200 422); assumption.
  - rewrite E1, E2. reflexivity.
  - rewrite E1, E2. simpl rbind. cbn [same_opt].
    assert (F6 : fits 722 (val dy * (Y ^ 2 / (t * (t - S * val dy))))).
    { apply (fits_mul 100 622); [assumption |]. apply (fits_div 200 422); assumption. }
    assert (N6 : near (6 * k + 9) (val dy * (Y ^ 2 / (t * (t - S * val dy)))) (fmul dy q)).
    { replace (6 * k + 9)%nat with (Datatypes.S (0 + Datatypes.S (3 + (6 * k + 4)))) by lia. apply near_mul; try assumption.
      - replace (0 + Datatypes.S (3 + (6 * k + 4)))%nat with (6 * k + 8)%nat by lia. apply FW. lia.
      - apply fits_le with 722%Z; [lia | exact F6]. }
    pose proof u_small as US.
    assert (EI : INR (6 * k + 9) = 6 * INR k + 9) by (rewrite plus_INR, mult_INR; simpl; lra).
    assert (W : (6 * INR k + 9) * u <= / 10000) .
    { assert (9 * u <= / 100000); [| lra]. 
      assert (u <= / bpow radix2 33); [| lra]. rewrite <- bpow_opp. unfold u. apply bpow_le. lia. }
    apply near_close_gen with (1 := N6); rewrite EI; [lra |]. fold u.
    set (w := 6 * INR k + 9) in *. replace (6 * INR k + 10) with (w + 1) by (unfold w; ring).
    apply Rmult_le_reg_r with (1 - w * u); [lra |].
    replace (w * u / (1 - w * u) * (1 - w * u)) with (w * u) by (field; lra).
    assert ((w + 1) * (w * u) <= 1); [| nra].
    assert (Hw : w <= bpow radix2 24).
    { unfold w. apply Rle_trans with (15 * bpow radix2 20); [lra |].
      change (bpow radix2 24) with (IZR 16777216). change (bpow radix2 20) with (IZR 1048576). lra. }
    assert (W1 : w + 1 <= bpow radix2 25).
    { apply Rle_trans with (1 := Rplus_le_compat_r 1 _ _ Hw). change (bpow radix2 24) with (IZR 16777216). change (bpow radix2 25) with (IZR 33554432). lra. }
    assert (W2 : w * u <= bpow radix2 (-29)).
    { replace (bpow radix2 (-29)) with (bpow radix2 24 * u) by (unfold u; rewrite <- bpow_plus; reflexivity). apply Rmult_le_compat_r; lra. }
    apply Rle_trans with (bpow radix2 25 * bpow radix2 (-29)).
    { apply Rmult_le_compat; try assumption; unfold w; nra. }
    rewrite <- bpow_plus. change 1 with (bpow radix2 0). apply bpow_le. lia.
Qed.

(** square roots *)
Lemma sqrt_fits : forall e x, (0 <= e)%Z -> fits (e + e) x -> fits e (sqrt x).
Proof.
  intros e x He [H | [H1 H2]]; [left; rewrite H; apply sqrt_0 |]. right. split.
  - apply Rle_trans with (sqrt (bpow radix2 (- e) * bpow radix2 (- e))).
    + rewrite sqrt_square by apply bpow_ge_0. lra.
    + apply sqrt_le_1_alt. rewrite <- bpow_plus. replace (- e + - e)%Z with (- (e + e))%Z by lia. exact H1.
  - apply Rle_trans with (sqrt (bpow radix2 e * bpow radix2 e)).
    + apply sqrt_le_1_alt. rewrite <- bpow_plus. exact H2.
    + rewrite sqrt_square by apply bpow_ge_0. lra.
Qed.
Lemma near_sqrt : forall n x f, near n x f -> few n -> fits 1000 x ->
  exists s, fsqrt f = Ret s /\ near (S n) (sqrt x) s /\ val s = round radix2 (SpecFloat.fexp 53 1024) (round_mode mode_NE) (sqrt (val f)).
Proof.
  intros n x f N Hn F. pose proof (near_pos _ _ _ N) as Pf. exists (b64_sqrt mode_NE f).
  unfold fsqrt. rewrite (near_nlt0 _ _ _ N). split; [reflexivity |].
  pose proof (Bsqrt_correct 53 1024 (eq_refl _) (eq_refl _) unop_nan_pl64 mode_NE f) as (C1 & C2 & _).
  fold (val f) in C1. split; [| exact C1].
  assert (Ff : finite (b64_sqrt mode_NE f)).
  { unfold finite, b64_sqrt. rewrite C2. pose proof N as (Nf & _). unfold finite in Nf. unfold val in Pf.
    destruct f as [s | s | s pl e | s m e He]; try reflexivity; try discriminate.
    destruct s; [| reflexivity]. exfalso.
    exact (Rlt_not_le _ _ (F2R_lt_0 radix2 (Float radix2 (Z.neg m) e) (eq_refl _)) Pf). }
  destruct N as (Nf & N0 & N1 & N2). pose proof (cn_1 n) as Cn.
  assert (SC : sqrt (c ^ n) <= c ^ n).
  { rewrite <- (sqrt_square (c ^ n)) at 2 by lra. apply sqrt_le_1_alt. nra. }
  pose proof (sqrt_pos (val f)). pose proof (sqrt_pos x).
  apply rounded with (sqrt (val f)); try assumption.
  - apply Rle_trans with (sqrt (val f * c ^ n)); [apply sqrt_le_1_alt; exact N1 |]. rewrite sqrt_mult by lra. apply Rmult_le_compat_l; assumption.
  - apply Rle_trans with (sqrt (x * c ^ n)); [apply sqrt_le_1_alt; exact N2 |]. rewrite sqrt_mult by lra. apply Rmult_le_compat_l; assumption.
  - apply fits_le with 500%Z; [lia |]. apply sqrt_fits; [lia | exact F].
Qed.
Lemma near_trans : forall n m x f g, near n x f -> near m (val f) g -> near (n + m) x g.
Proof.
  intros n m x f g (N & N0 & N1 & N2) (M & M0 & M1 & M2). pose proof (cn_pos n). pose proof (cn_pos m).
  split; [exact M |]. split; [exact N0 |]. rewrite pow_add. split.
  - apply Rle_trans with (1 := N1). replace (val g * (c ^ n * c ^ m)) with (val g * c ^ m * c ^ n) by ring. apply Rmult_le_compat_r; lra.
  - apply Rle_trans with (1 := M2). rewrite <- Rmult_assoc. apply Rmult_le_compat_r; lra.
Qed.
Lemma fits_of_near : forall n e x f, near n x f -> few n -> fits e x -> (0 <= e)%Z -> fits (e + 1) (val f).
Proof.
  intros n e x f N Hn F He. pose proof (near_zero _ _ _ N) as Z. pose proof (cn_2 _ Hn). pose proof (cn_1 n).
  destruct F as [F | [F1 F2]]; [left; tauto |]. right. destruct N as (_ & N0 & N1 & N2). pose proof (bpow_gt_0 radix2 (- e)).
  replace (- (e + 1))%Z with (- e + -1)%Z by lia. rewrite !bpow_plus. change (bpow radix2 (-1)) with (/ 2). change (bpow radix2 1) with 2. split; nra.
Qed.

(** a curve from the square roots of two numbers *)
Lemma roots : forall pw base n a b x y Y z, accurate pw -> (n <= 1)%nat ->
  near n x a -> near n y b -> fits 101 x -> fits 101 y -> 0 < x -> 0 < y -> val b <= val a ->
  exists sa sb pa pb, fsqrt b = Ret sb /\ fsqrt a = Ret sa /\
    let o := mkFcurve base sb (fsub sa sb) Y z in
    fdisabled pw o = false /\ fpa pw o = Ret pa /\ fpb pw o = Ret pb /\
    near (13 + n) (if base then / x else x) pa /\ near (13 + n) (if base then / y else y) pb.
Proof.
  intros pw base n a b x y Y z A Hn Na Nb Fx Fy Px Py Hab.
  assert (Hf : few n) by (apply few_small; lia).
  destruct (near_sqrt n x a Na Hf) as (sa & Esa & Nsa & Vsa); [apply fits_le with 101%Z; [lia | exact Fx] |].
  destruct (near_sqrt n y b Nb Hf) as (sb & Esb & Nsb & Vsb); [apply fits_le with 101%Z; [lia | exact Fy] |].
  assert (Fsx : fits 51 (sqrt x)) by (apply sqrt_fits; [lia | apply fits_le with 101%Z; [lia | exact Fx]]).
  assert (Fsy : fits 51 (sqrt y)) by (apply sqrt_fits; [lia | apply fits_le with 101%Z; [lia | exact Fy]]).
  assert (Hf' : few (S n)) by (apply few_small; lia).
  assert (Fsa : fits 52 (val sa)) by (apply (fits_of_near (S n) 51 (sqrt x)); [assumption | assumption | assumption | lia]).
  assert (Fsb : fits 52 (val sb)) by (apply (fits_of_near (S n) 51 (sqrt y)); [assumption | assumption | assumption | lia]).
  assert (Hle : val sb <= val sa).
  { rewrite Vsa, Vsb. apply round_le; auto with typeclass_instances.
    - change (Valid_exp (FLT_exp (-1074) 53)). apply FLT_exp_valid. reflexivity.
    - apply sqrt_le_1_alt. exact Hab. }
  destruct (sub_grid sa sb (proj1 Nsa) (proj1 Nsb)) as (G & _).
  { apply fits_le with 52%Z; [lia | exact Fsa]. } { apply fits_le with 52%Z; [lia | exact Fsb]. }
  destruct (G ltac:(lra)) as (Nd & Fd).
  assert (Nsb0 : near 0 (val sb) sb) by (apply near_0; [apply Nsb | apply (fits_pos _ _ Fsb)]).
  assert (Nsum : near 2 (val sa) (fadd (fsub sa sb) sb)).
  { replace (val sa) with (val sa - val sb + val sb) by ring.
    apply near_add; [exact Nd | apply near_weaken with 0%nat; [lia | exact Nsb0] | apply few_small; lia |].
    replace (val sa - val sb + val sb) with (val sa) by ring. apply fits_le with 52%Z; [lia | exact Fsa]. }
  pose proof (near_trans _ _ _ _ _ Nsa Nsum) as Nt.
  assert (Npa : near (S n + 2 + (S n + 2) + 3) (sqrt x ^ 2) (pw (fadd (fsub sa sb) sb))).
  { apply near_pw; [exact A | exact Nt | apply fits_le with 51%Z; [lia | exact Fsx] | apply few_small; lia]. }
  rewrite pow2_sqrt in Npa by lra.
  assert (Npa' : near (10 + n + 1) x (pw (fadd (fsub sa sb) sb))) by (apply near_weaken with (2 := Npa); lia).
  assert (Npb : near (S (S n + S n)) (sqrt y * sqrt y) (fmul sb sb)).
  { apply near_mul; try assumption; [apply few_small; lia |]. rewrite sqrt_sqrt by lra. apply fits_le with 101%Z; [lia | exact Fy]. }
  rewrite sqrt_sqrt in Npb by lra.
  assert (Npb' : near (10 + n + 1) y (fmul sb sb)) by (apply near_weaken with (2 := Npb); lia).
  set (o := mkFcurve base sb (fsub sa sb) Y z).
  assert (Dis : fdisabled pw o = false).
  { unfold fdisabled, fpa_raw, o. cbn [f_S f_B]. rewrite (near_eq0 _ _ _ Npa'). unfold req. destruct (Req_EM_T x 0); [lra | reflexivity]. }
  assert (W : forall v f, 0 < v -> fits 101 v -> near (10 + n + 1) v f ->
    exists p, (if base then fdiv fone f else Ret f) = Ret p /\ near (13 + n) (if base then / v else v) p).
  { intros v f Pv Fv Nv. destruct base.
    - destruct (div_case 0 (10 + n + 1) 1 v fone f near_one Nv) as [(H & _) | (_ & q & E1 & _ & Nq)].
      + apply few_small. lia.
      + intros _. unfold Rdiv. rewrite Rmult_1_l. apply fits_le with 101%Z; [lia |]. apply fits_inv; assumption.
      + lra.
      + exists q. split; [exact E1 |]. unfold Rdiv in Nq. rewrite Rmult_1_l in Nq. apply near_weaken with (2 := Nq). lia.
    - exists f. split; [reflexivity |]. apply near_weaken with (2 := Nv). lia. }
  destruct (W x _ Px Fx Npa') as (pa & Epa & Na'). destruct (W y _ Py Fy Npb') as (pb & Epb & Nb').
  exists sa, sb, pa, pb. split; [exact Esb |]. split; [exact Esa |]. cbn zeta. fold o.
  split; [exact Dis |]. split; [unfold fpa; rewrite Dis; exact Epa |]. split; [unfold fpb; rewrite Dis; exact Epb |]. split; assumption.
Qed.

Lemma near_min_max : forall n x y f g, near n x f -> near n y g ->
  exists lo hi, (if flt f g then (f, g) else (g, f)) = (lo, hi) /\ near n (Rmin x y) lo /\ near n (Rmax x y) hi.
Proof.
  intros n x y f g N M. rewrite (flt_correct f g (proj1 N) (proj1 M)).
  pose proof (cn_pos n). destruct N as (Nf & N0 & N1 & N2). destruct M as (Mf & M0 & M1 & M2).
  unfold rlt. destruct (Rlt_dec (val f) (val g)) as [H' | H'].
  - exists f, g. split; [reflexivity |]. unfold Rmin, Rmax. destruct (Rle_dec x y); split; repeat split; try assumption; nra.
  - exists g, f. split; [reflexivity |]. unfold Rmin, Rmax. destruct (Rle_dec x y); split; repeat split; try assumption; nra.
Qed.

Lemma ffrom_prices_range : forall pw base p1 p2 Y z, accurate pw ->
  finite p1 -> fits 100 (val p1) -> 0 < val p1 -> finite p2 -> fits 100 (val p2) -> 0 < val p2 ->
  finite Y -> finite z -> 0 <= val z -> val z <= val Y ->
  exists o lo hi, ffrom_prices pw base p1 p2 Y z = Ret o /\ f_base o = base /\ f_yint o = Y /\ f_y o = z /\ fpminmax pw o = Ret (Some (lo, hi)) /\
    close (bpow radix2 (-49)) lo (Rmin (val p1) (val p2)) /\ close (bpow radix2 (-49)) hi (Rmax (val p1) (val p2)).
Proof.
  intros pw base p1 p2 Y z A F1 R1 P1 F2 R2 P2 FY Fz Pz Hz.
  unfold ffrom_prices. rewrite (flt_correct Y fzero FY fin_zero), (flt_correct Y z FY Fz), (flt_correct z fzero Fz fin_zero), val_zero.
  unfold rlt. destruct (Rlt_dec (val Y) 0) as [Hc | _]; [lra |]. destruct (Rlt_dec (val Y) (val z)) as [Hc | _]; [lra |]. destruct (Rlt_dec (val z) 0) as [Hc | _]; [lra |].
  set (n := if base then 1%nat else 0%nat).
  assert (Hn : (n <= 1)%nat) by (unfold n; destruct base; lia).
  assert (Q : forall p, finite p -> fits 100 (val p) -> 0 < val p ->
    exists q, (if base then fdiv fone p else Ret p) = Ret q /\ near n (if base then / val p else val p) q /\ 0 < (if base then / val p else val p) /\ fits 101 (if base then / val p else val p)).
  { intros p Fp Rp Pp. pose proof (near_0 p Fp (Rlt_le _ _ Pp)) as Np. unfold n. destruct base.
    - destruct (div_case 0 0 1 (val p) fone p near_one Np) as [(H & _) | (_ & q & E1 & _ & Nq)].
      + apply few_small. lia.
      + intros _. unfold Rdiv. rewrite Rmult_1_l. apply fits_le with 100%Z; [lia |]. apply fits_inv; assumption.
      + lra.
      + exists q. split; [exact E1 |]. unfold Rdiv in Nq. rewrite Rmult_1_l in Nq. split; [exact Nq |].
        split; [apply Rinv_0_lt_compat; exact Pp |]. apply fits_le with 100%Z; [lia |]. apply fits_inv; assumption.
    - exists p. split; [reflexivity |]. split; [exact Np |]. split; [exact Pp |]. apply fits_le with 100%Z; [lia | exact Rp]. }
  destruct (Q p1 F1 R1 P1) as (q1 & E1 & N1 & Q1 & T1). destruct (Q p2 F2 R2 P2) as (q2 & E2 & N2 & Q2 & T2).
  rewrite E1, E2. cbn [rbind].
  rewrite (flt_correct q1 q2 (proj1 N1) (proj1 N2)). unfold rlt.
  assert (I : forall v : R, 0 < v -> (if base then / (if base then / v else v) else (if base then / v else v)) = v).
  { intros v Pv. destruct base; [field; lra | reflexivity]. }
  assert (Fin : forall a b x y, near n x a -> near n y b -> fits 101 x -> fits 101 y -> 0 < x -> 0 < y -> val b <= val a ->
    forall v w, (if base then / x else x) = v -> (if base then / y else y) = w ->
    exists o lo hi, (let* sb := fsqrt b in let* sa := fsqrt a in fconstruct pw base sb (fsub sa sb) Y z) = Ret o /\
      f_base o = base /\ f_yint o = Y /\ f_y o = z /\ fpminmax pw o = Ret (Some (lo, hi)) /\
      close (bpow radix2 (-49)) lo (Rmin v w) /\ close (bpow radix2 (-49)) hi (Rmax v w)).
  { intros a b x y Na Nb Fx Fy Px Py Hab v w Ev Ew.
    destruct (roots pw base n a b x y Y z A Hn Na Nb Fx Fy Px Py Hab) as (sa & sb & pa & pb & Eb & Ea & RR).
    cbn zeta in RR. destruct RR as (D & Epa & Epb & Npa & Npb). rewrite Ev in Npa. rewrite Ew in Npb.
    destruct (near_min_max _ _ _ _ _ Npa Npb) as (lo & hi & Eo & Nlo & Nhi).
    exists (mkFcurve base sb (fsub sa sb) Y z), lo, hi.
    assert (M : fpminmax pw (mkFcurve base sb (fsub sa sb) Y z) = Ret (Some (lo, hi))).
    { unfold fpminmax. rewrite D, Epa, Epb. cbn [rbind]. rewrite Eo. reflexivity. }
    rewrite Eb, Ea. cbn [rbind]. unfold fconstruct. cbn zeta. rewrite M. cbn [rbind].
    repeat split; try reflexivity; try exact M.
    - apply (near_close _ _ _ Nlo). lia.
    - apply (near_close _ _ _ Nlo). lia.
    - apply (near_close _ _ _ Nhi). lia.
    - apply (near_close _ _ _ Nhi). lia. }
  destruct (Rlt_dec (val q1) (val q2)) as [H' | H'].
  - rewrite (Rmin_comm (val p1)), (Rmax_comm (val p1)).
    apply (Fin q2 q1 _ _ N2 N1 T2 T1 Q2 Q1); [lra | apply I; exact P2 | apply I; exact P1].
  - apply (Fin q1 q2 _ _ N1 N2 T1 T2 Q1 Q2); [lra | apply I; exact P1 | apply I; exact P2].
Qed.
