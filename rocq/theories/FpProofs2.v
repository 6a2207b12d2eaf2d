(** The functions of the curve in double precision. *)
From Coq Require Import ZArith Reals Bool Lia Lra.
From Flocq Require Import Core Relative IEEE754.BinarySingleNaN IEEE754.Binary IEEE754.Bits.
From Verif Require Import CurveModel FpModel FpSpec FpProofs.
Local Open Scope R_scope.

(** comparisons *)
Lemma feq_correct : forall f g, finite f -> finite g -> feq f g = req (val f) (val g).
Proof.
  intros f g Hf Hg. unfold feq, b64_compare. rewrite (Bcompare_correct 53 1024 f g Hf Hg).
  unfold req, val. destruct (Req_EM_T (B2R 53 1024 f) (B2R 53 1024 g)) as [E | E].
  - rewrite E, Rcompare_Eq; reflexivity.
  - destruct (Rcompare_spec (B2R 53 1024 f) (B2R 53 1024 g)); [reflexivity | contradiction | reflexivity].
Qed.
Lemma flt_correct : forall f g, finite f -> finite g -> flt f g = rlt (val f) (val g).
Proof.
  intros f g Hf Hg. unfold flt, b64_compare. rewrite (Bcompare_correct 53 1024 f g Hf Hg).
  unfold rlt, val. destruct (Rlt_dec (B2R 53 1024 f) (B2R 53 1024 g)) as [E | E].
  - rewrite Rcompare_Lt by assumption. reflexivity.
  - destruct (Rcompare_spec (B2R 53 1024 f) (B2R 53 1024 g)); [contradiction | reflexivity | reflexivity].
Qed.
Lemma fin_zero : finite fzero. Proof. reflexivity. Qed.
Lemma val_zero : val fzero = 0. Proof. reflexivity. Qed.
Lemma fin_one : finite fone. Proof. reflexivity. Qed.
Lemma val_one : val fone = 1.
Proof.
  unfold val, fone, B2R, F2R. cbn [Fnum Fexp cond_Zopp bpow].
  change (Z.pow_pos radix2 52) with 4503599627370496%Z. field.
Qed.
Lemma near_one : near 0 1 fone.
Proof. rewrite <- val_one. apply near_0; [apply fin_one | rewrite val_one; lra]. Qed.
Lemma near_eq0 : forall n x f, near n x f -> feq f fzero = req x 0.
Proof.
  intros n x f N. rewrite feq_correct; [| apply N | apply fin_zero]. rewrite val_zero.
  pose proof (near_zero _ _ _ N) as Z. unfold req.
  destruct (Req_EM_T (val f) 0); destruct (Req_EM_T x 0); try reflexivity; tauto.
Qed.
Lemma near_nlt0 : forall n x f, near n x f -> flt f fzero = false.
Proof.
  intros n x f N. rewrite flt_correct; [| apply N | apply fin_zero]. rewrite val_zero.
  pose proof (near_pos _ _ _ N). unfold rlt. destruct (Rlt_dec (val f) 0); [lra | reflexivity].
Qed.
(** division with its test *)
Lemma div_case : forall n m x y f g, near n x f -> near m y g -> few (n + m) -> (0 < y -> fits 1000 (x / y)) ->
  (y = 0 /\ fdiv f g = Raise ZeroDivision /\ rdiv x y = Raise ZeroDivision) \/
  (0 < y /\ exists q, fdiv f g = Ret q /\ rdiv x y = Ret (x / y) /\ near (S (n + m)) (x / y) q).
Proof.
  intros n m x y f g N M Hf F. unfold fdiv, rdiv. rewrite (near_eq0 _ _ _ M). unfold req.
  destruct (Req_EM_T y 0) as [E | E]; [left; auto |].
  right. assert (Hy : 0 < y) by (pose proof M as (_ & M0 & _); lra). split; [exact Hy |].
  eexists. split; [reflexivity |]. split; [reflexivity |]. apply near_bdiv; auto.
Qed.

(** exact differences *)
Lemma grid : forall f, fits 100 (val f) -> exists m : Z, val f = IZR m * bpow radix2 (-152).
Proof.
  intros f [F | [F1 F2]]; [exists 0%Z; lra |].
  pose proof (generic_format_B2R 53 1024 f) as G. unfold generic_format in G. fold (val f) in G.
  set (e := cexp radix2 (SpecFloat.fexp 53 1024) (val f)) in *.
  set (k := Ztrunc (scaled_mantissa radix2 (SpecFloat.fexp 53 1024) (val f))) in *.
  assert (He : (-152 <= e)%Z).
  { unfold e, cexp. assert (-99 <= mag radix2 (val f))%Z.
    { apply mag_ge_bpow. rewrite Rabs_pos_eq; [exact F1 |]. pose proof (bpow_gt_0 radix2 (- (100))). lra. }
    change (SpecFloat.fexp 53 1024) with (FLT_exp (-1074) 53). unfold FLT_exp. lia. }
  exists (k * 2 ^ (e + 152))%Z. rewrite G. unfold F2R. cbn [Fnum Fexp].
  rewrite mult_IZR. replace e with (e + 152 + -152)%Z at 1 by lia. rewrite bpow_plus.
  rewrite <- (IZR_Zpower radix2 (e + 152)) by lia. cbn [radix_val radix2]. ring.
Qed.
Lemma sub_grid : forall f g, finite f -> finite g -> fits 100 (val f) -> fits 100 (val g) ->
  (0 <= val f - val g -> near 1 (val f - val g) (fsub f g) /\ fits 152 (val f - val g)) /\
  (val f - val g < 0 -> finite (fsub f g) /\ val (fsub f g) < 0).
Proof.
  intros f g Hf Hg Ff Fg. pose proof (fits_pos _ _ Ff) as Pf. pose proof (fits_pos _ _ Fg) as Pg.
  destruct (grid f Ff) as [m Em]. destruct (grid g Fg) as [k Ek].
  assert (Uf : val f <= bpow radix2 100) by (destruct Ff as [H | [_ H]]; [rewrite H; apply bpow_ge_0 | exact H]).
  assert (Ug : val g <= bpow radix2 100) by (destruct Fg as [H | [_ H]]; [rewrite H; apply bpow_ge_0 | exact H]).
  assert (D : val f - val g = IZR (m - k) * bpow radix2 (-152)) by (rewrite minus_IZR; lra).
  pose proof (bpow_gt_0 radix2 (-152)) as PB.
  assert (FA : fits 152 (Rabs (val f - val g))).
  { destruct (Z.eq_dec (m - k) 0) as [E | E].
    - left. rewrite D, E, Rmult_0_l. apply Rabs_R0.
    - right. split.
      + rewrite D, Rabs_mult, (Rabs_pos_eq (bpow radix2 (-152))) by lra. rewrite <- abs_IZR.
        assert (1 <= IZR (Z.abs (m - k))) by (apply IZR_le; lia). change (- (152))%Z with (-152)%Z. nra.
      + apply Rle_trans with (bpow radix2 100); [| apply bpow_le; lia]. apply Rabs_le. lra. }
  pose proof (Bminus_correct 53 1024 (eq_refl _) (eq_refl _) binop_nan_pl64 mode_NE f g Hf Hg) as C.
  fold (val f) in C. fold (val g) in C. split; intros Hd.
  - rewrite Rabs_pos_eq in FA by assumption. split; [| exact FA].
    assert (FA' : fits 1000 (val f - val g)) by (apply fits_le with 152%Z; [lia | exact FA]).
    assert (I1 : val f - val g <= (val f - val g) * c ^ 0) by (simpl; lra).
    rewrite (no_over 0 (val f - val g) (val f - val g)) in C; [| apply few_small; lia | assumption | assumption | simpl; lra | assumption].
    destruct C as (C1 & C2 & _).
    apply rounded with (val f - val g); try assumption. apply few_small. lia.
  - rewrite Rabs_left in FA by assumption.
    assert (FA' : fits 1010 (- (val f - val g))) by (apply fits_le with 152%Z; [lia | exact FA]).
    assert (Pd : 0 <= - (val f - val g)) by lra.
    destruct (rnd_near _ Pd FA') as (R1 & R2 & R3).
    cbn [round_mode] in R1, R2, R3, C. rewrite round_NE_opp in R1, R2, R3. rewrite Rabs_Ropp in R3.
    rewrite R3 in C. destruct C as (C1 & C2 & _). split; [exact C2 |].
    unfold val at 1. unfold fsub, b64_minus. rewrite C1. pose proof c_pos. nra.
Qed.

Section Curve.
Variable pw : fl -> fl.
Hypothesis A : accurate pw.
Variable o : fcurve.
Hypothesis O : ordinary o.

Let B := val (f_B o). Let S := val (f_S o). Let Y := val (f_yint o). Let y := val (f_y o).
Lemma fB : finite (f_B o) /\ fits 100 B /\ 0 <= B /\ near 0 B (f_B o).
Proof. destruct O as ((H1 & H2) & _). pose proof (fits_pos _ _ H2). repeat split; try assumption; simpl; unfold B; lra. Qed.
Lemma fS : finite (f_S o) /\ fits 100 S /\ 0 <= S /\ near 0 S (f_S o).
Proof. destruct O as (_ & (H1 & H2) & _). pose proof (fits_pos _ _ H2). repeat split; try assumption; simpl; unfold S; lra. Qed.
Lemma fY : finite (f_yint o) /\ fits 100 Y /\ 0 <= Y /\ near 0 Y (f_yint o).
Proof. destruct O as (_ & _ & (H1 & H2) & _). pose proof (fits_pos _ _ H2). repeat split; try assumption; simpl; unfold Y; lra. Qed.
Lemma fy : finite (f_y o) /\ fits 100 y /\ 0 <= y /\ near 0 y (f_y o).
Proof. destruct O as (_ & _ & _ & (H1 & H2)). pose proof (fits_pos _ _ H2). repeat split; try assumption; simpl; unfold y; lra. Qed.

Lemma fsb : near 1 (S + B) (fadd (f_S o) (f_B o)) /\ fits 101 (S + B).
Proof.
  destruct fB as (_ & FB & _ & NB). destruct fS as (_ & FS & _ & NS).
  assert (F : fits 101 (S + B)) by (apply (fits_add 100); [lia | assumption | assumption]).
  split; [| exact F]. apply near_add; try assumption; [apply few_small; lia | apply fits_le with 101%Z; [lia | exact F]].
Qed.
Lemma fbs : near 1 (B + S) (fadd (f_B o) (f_S o)) /\ fits 101 (B + S).
Proof.
  destruct fB as (_ & FB & _ & NB). destruct fS as (_ & FS & _ & NS).
  assert (F : fits 101 (B + S)) by (apply (fits_add 100); [lia | assumption | assumption]).
  split; [| exact F]. apply near_add; try assumption; [apply few_small; lia | apply fits_le with 101%Z; [lia | exact F]].
Qed.
Lemma fpa_raw_near : near 5 (pa_raw (to_R o)) (fpa_raw pw o) /\ fits 202 (pa_raw (to_R o)).
Proof.
  destruct fsb as (N & F). split.
  - apply (near_pw pw 1); [exact A | exact N | apply fits_le with 101%Z; [lia | exact F] | apply few_small; lia].
  - apply (fits_sqr 101). exact F.
Qed.
Lemma fpb_raw_near : near 1 (pb_raw (to_R o)) (fpb_raw o) /\ fits 200 (pb_raw (to_R o)).
Proof.
  destruct fB as (_ & FB & _ & NB).
  assert (F : fits 200 (B * B)) by (apply (fits_mul 100 100); assumption). split; [| exact F].
  apply (near_mul 0 0); try assumption; [apply few_small; lia | apply fits_le with 200%Z; [lia | exact F]].
Qed.
Lemma fdisabled_eq : fdisabled pw o = disabled (to_R o).
Proof.
  unfold fdisabled, disabled. destruct fpa_raw_near as (N1 & _). destruct fpb_raw_near as (N2 & _).
  rewrite (near_eq0 _ _ _ N1), (near_eq0 _ _ _ N2). reflexivity.
Qed.
Lemma quoted_near : forall n x f, near n x f -> (n <= 14)%nat -> fits 1000 x -> same (bpow radix2 (-49)) (fquoted o f) (quoted (to_R o) x).
Proof.
  intros n x f N L F. unfold fquoted, quoted. cbn [c_base to_R]. destruct (f_base o).
  - destruct (div_case 0 n 1 x fone f near_one N) as [(_ & E1 & E2) | (_ & q & E1 & E2 & Nq)].
    + apply few_small. lia.
    + intros Hx. unfold Rdiv. rewrite Rmult_1_l. apply fits_inv; assumption.
    + rewrite E1, E2. reflexivity.
    + rewrite E1, E2. cbn [same]. apply near_close with (1 := Nq). lia.
  - cbn [same]. apply near_close with (1 := N). lia.
Qed.
Lemma fpa_same : same (bpow radix2 (-49)) (fpa pw o) (pa (to_R o)).
Proof.
  destruct fpa_raw_near as (N & F). unfold fpa, pa. rewrite fdisabled_eq. destruct (disabled (to_R o)); [reflexivity |].
  apply (quoted_near 5 _ _ N); [lia | apply fits_le with 202%Z; [lia | exact F]].
Qed.
Lemma fpb_same : same (bpow radix2 (-49)) (fpb pw o) (pb (to_R o)).
Proof.
  destruct fpb_raw_near as (N & F). unfold fpb, pb. rewrite fdisabled_eq. destruct (disabled (to_R o)); [reflexivity |].
  apply (quoted_near 1 _ _ N); [lia | apply fits_le with 200%Z; [lia | exact F]].
Qed.
Lemma fxint_same : same (bpow radix2 (-49)) (fxint pw o) (xint (to_R o)).
Proof.
  destruct fB as (_ & FB & _ & NB). destruct fS as (_ & FS & _ & NS). destruct fY as (_ & FY & _ & NY).
  assert (F1 : fits 200 (B ^ 2)) by (apply (fits_sqr 100); assumption).
  assert (F2 : fits 200 (B * S)) by (apply (fits_mul 100 100); assumption).
  assert (F3 : fits 201 (B ^ 2 + B * S)) by (apply (fits_add 200); [lia | assumption | assumption]).
  assert (N1 : near 3 (B ^ 2) (pw (f_B o))) by (apply (near_pw pw 0); [exact A | exact NB | apply fits_le with 100%Z; [lia | exact FB] | apply few_small; lia]).
  assert (N2 : near 1 (B * S) (fmul (f_B o) (f_S o))) by (apply (near_mul 0 0); try assumption; [apply few_small; lia | apply fits_le with 200%Z; [lia | exact F2]]).
  assert (N3 : near 4 (B ^ 2 + B * S) (fadd (pw (f_B o)) (fmul (f_B o) (f_S o)))).
  { apply near_add; [exact N1 | apply near_weaken with 1%nat; [lia | exact N2] | apply few_small; lia | apply fits_le with 201%Z; [lia | exact F3]]. }
  unfold fxint, xint. cbn [c_yint c_B c_S to_R]. fold B S Y.
  destruct (div_case 0 4 Y (B ^ 2 + B * S) _ _ NY N3) as [(_ & E1 & E2) | (_ & q & E1 & E2 & Nq)].
  - apply few_small. lia.
  - intros Hx. apply fits_le with 301%Z; [lia |]. apply (fits_div 100 201); assumption.
  - rewrite E1, E2. reflexivity.
  - rewrite E1, E2. cbn [same]. apply near_close with (1 := Nq). lia.
Qed.

Lemma arg_case : forall d, argument d -> finite d /\ flt d fzero = rlt (val d) 0 /\ feq d fzero = req (val d) 0.
Proof.
  intros d (H & _). split; [exact H |]. split.
  - rewrite flt_correct; [rewrite val_zero; reflexivity | exact H | apply fin_zero].
  - rewrite feq_correct; [rewrite val_zero; reflexivity | exact H | apply fin_zero].
Qed.
Lemma eq0_in : forall n x f, near n x f -> feq f fzero = req x 0. Proof. exact near_eq0. Qed.

Lemma fp_marg_same : forall dy fullcurve raiseonerror, argument dy ->
  same_opt (bpow radix2 (-49)) (fp_marg_f pw o dy fullcurve true raiseonerror) (p_marg_f (to_R o) (val dy) fullcurve true raiseonerror).
Proof.
  intros dy full ra Hdy. destruct (arg_case dy Hdy) as (Fdy & L & E).
  destruct fB as (FBf & FB & PB & NB). destruct fS as (_ & FS & PS & NS). destruct fY as (FYf & FY & PY & NY). destruct fy as (Fyf & Fy & Py & Ny).
  unfold fp_marg_f, p_marg_f. rewrite fdisabled_eq. destruct (disabled (to_R o)); [reflexivity |].
  rewrite L, E. cbn [c_yint c_y c_B c_S to_R andb]. fold B S Y y. cbn zeta.
  destruct (rlt (val dy) 0) eqn:Hneg; [destruct ra; reflexivity |].
  assert (Fd : fits 100 (val dy)).
  { destruct Hdy as (_ & [H | H]); [| exact H]. unfold rlt in Hneg. destruct (Rlt_dec (val dy) 0); [discriminate | lra]. }
  set (b := if full then f_yint o else f_y o).
  replace (if full then fsub (f_yint o) dy else fsub (f_y o) dy) with (fsub b dy) by (unfold b; destruct full; reflexivity).
  replace (if full then Y - val dy else y - val dy) with (val b - val dy) by (unfold b, Y, y; destruct full; reflexivity).
  assert (Fb : finite b) by (unfold b; destruct full; assumption).
  assert (Fb' : fits 100 (val b)) by (unfold b; destruct full; assumption).
  destruct (sub_grid b dy Fb Fdy Fb' Fd) as (G1 & G2).
  unfold rlt at 1. destruct (Rlt_dec (val b - val dy) 0) as [Hlt | Hge].
  - destruct (G2 Hlt) as (G3 & G4).
    replace (flt (fsub b dy) fzero) with true; [destruct ra; reflexivity |].
    rewrite flt_correct; [| exact G3 | apply fin_zero]. rewrite val_zero. unfold rlt. destruct (Rlt_dec (val (fsub b dy)) 0); [reflexivity | lra].
  - destruct (G1 ltac:(lra)) as (Nd & Fdd). rewrite (near_nlt0 _ _ _ Nd).
    rewrite (near_eq0 _ _ _ NY), (near_eq0 _ _ _ Ny).
    assert (W : forall n x f, near n x f -> (n <= 14)%nat -> fits 1000 x ->
      same_opt (bpow radix2 (-49)) (let* p := fquoted o f in Ret (Some p)) (let* p := quoted (to_R o) x in Ret (Some p))).
    { intros n x f N Ln F. pose proof (quoted_near n x f N Ln F) as Q.
      destruct (fquoted o f); destruct (quoted (to_R o) x); simpl in *; try contradiction; assumption. }
    destruct (req Y 0) eqn:EY.
    + destruct (negb (req y 0) && req (val dy) 0); [reflexivity |]. simpl rbind.
      destruct fbs as (N & F). apply (W 5%nat).
      * apply (near_pw pw 1); [exact A | exact N | apply fits_le with 101%Z; [lia | exact F] | apply few_small; lia].
      * lia.
      * apply fits_le with 202%Z; [lia |]. apply (fits_sqr 101). exact F.
    + assert (PY' : 0 < Y) by (unfold req in EY; destruct (Req_EM_T Y 0); [discriminate | lra]).
      assert (F1 : fits 252 (S * (val b - val dy))) by (apply (fits_mul 100 152); assumption).
      assert (N1 : near 2 (S * (val b - val dy)) (fmul (f_S o) (fsub b dy))).
      { apply (near_mul 0 1); try assumption; [apply few_small; lia | apply fits_le with 252%Z; [lia | exact F1]]. }
      assert (F2 : fits 352 (S * (val b - val dy) / Y)) by (apply (fits_div 252 100); assumption).
      destruct (div_case 2 0 _ Y _ _ N1 NY) as [(H & _) | (_ & q & E1 & _ & Nq)].
      { apply few_small. lia. } { intros _. apply fits_le with 352%Z; [lia | exact F2]. } { lra. }
      rewrite E1. simpl rbind.
      assert (F3 : fits 353 (B + S * (val b - val dy) / Y)).
      { apply (fits_add 352); [lia | apply fits_le with 100%Z; [lia | exact FB] | exact F2]. }
      assert (N3 : near 4 (B + S * (val b - val dy) / Y) (fadd (f_B o) q)).
      { apply near_add; [apply near_weaken with 0%nat; [lia | exact NB] | exact Nq | apply few_small; lia | apply fits_le with 353%Z; [lia | exact F3]]. }
      apply (W 11%nat).
      * apply (near_pw pw 4); [exact A | exact N3 | apply fits_le with 353%Z; [lia | exact F3] | apply few_small; lia].
      * lia.
      * apply fits_le with 706%Z; [lia |]. apply (fits_sqr 353). exact F3.
Qed.

(** the common factor *)
Lemma ft : near 2 (S * y + B * Y) (fadd (fmul (f_S o) (f_y o)) (fmul (f_B o) (f_yint o))) /\ fits 201 (S * y + B * Y).
Proof.
  destruct fB as (_ & FB & _ & NB). destruct fS as (_ & FS & _ & NS). destruct fY as (_ & FY & _ & NY). destruct fy as (_ & Fy & _ & Ny).
  assert (F1 : fits 200 (S * y)) by (apply (fits_mul 100 100); assumption).
  assert (F2 : fits 200 (B * Y)) by (apply (fits_mul 100 100); assumption).
  assert (F3 : fits 201 (S * y + B * Y)) by (apply (fits_add 200); [lia | assumption | assumption]).
  split; [| exact F3].
  apply near_add; [apply (near_mul 0 0) | apply (near_mul 0 0) | apply few_small; lia | apply fits_le with 201%Z; [lia | exact F3]];
    try assumption; try (apply few_small; lia); apply fits_le with 200%Z; try lia; assumption.
Qed.
Lemma close_zero : forall eps, close eps fzero 0.
Proof. intros. split; [apply fin_zero |]. rewrite val_zero, Rminus_0_r, Rabs_R0. lra. Qed.

Lemma fdyfromdx_same : forall dx raiseonerror, argument dx ->
  same_opt (bpow radix2 (-49)) (fdyfromdx_f pw o dx true raiseonerror) (dyfromdx_f (to_R o) (val dx) true raiseonerror).
Proof.
  intros dx ra Hdx. destruct (arg_case dx Hdx) as (Fdx & L & _).
  destruct fB as (_ & FB & PB & NB). destruct fS as (_ & FS & PS & NS). destruct fY as (_ & FY & PY & NY).
  destruct ft as (Nt & Ft).
  unfold fdyfromdx_f, dyfromdx_f. rewrite (near_eq0 _ _ _ NB), (near_eq0 _ _ _ NS), L.
  cbn [c_yint c_y c_B c_S to_R andb]. fold B S Y y. cbn zeta.
  destruct (req B 0 && req S 0); [destruct ra; [reflexivity | apply close_zero] |].
  destruct (rlt (val dx) 0) eqn:Hneg; [destruct ra; reflexivity |].
  assert (Fd : fits 100 (val dx)).
  { destruct Hdx as (_ & [H | H]); [| exact H]. unfold rlt in Hneg. destruct (Rlt_dec (val dx) 0); [discriminate | lra]. }
  pose proof (near_0 dx Fdx (fits_pos _ _ Fd)) as Ndx.
  set (t := S * y + B * Y) in *. set (tf := fadd (fmul (f_S o) (f_y o)) (fmul (f_B o) (f_yint o))) in *.
  assert (F1 : fits 402 (t ^ 2)) by (apply (fits_sqr 201); exact Ft).
  assert (N1 : near 7 (t ^ 2) (pw tf)) by (apply (near_pw pw 2); [exact A | exact Nt | apply fits_le with 201%Z; [lia | exact Ft] | apply few_small; lia]).
  assert (F2 : fits 200 (S * val dx)) by (apply (fits_mul 100 100); assumption).
  assert (N2 : near 1 (S * val dx) (fmul (f_S o) dx)) by (apply (near_mul 0 0); try assumption; [apply few_small; lia | apply fits_le with 200%Z; [lia | exact F2]]).
  assert (F3 : fits 401 (S * val dx * t)) by (apply (fits_mul 200 201); assumption).
  assert (N3 : near 4 (S * val dx * t) (fmul (fmul (f_S o) dx) tf)) by (apply (near_mul 1 2); try assumption; [apply few_small; lia | apply fits_le with 401%Z; [lia | exact F3]]).
  assert (F4 : fits 200 (Y ^ 2)) by (apply (fits_sqr 100); assumption).
  assert (N4 : near 3 (Y ^ 2) (pw (f_yint o))) by (apply (near_pw pw 0); [exact A | exact NY | apply fits_le with 100%Z; [lia | exact FY] | apply few_small; lia]).
  assert (F5 : fits 402 (S * val dx * t + Y ^ 2)) by (apply (fits_add 401); [lia | assumption | apply fits_le with 200%Z; [lia | exact F4]]).
  assert (N5 : near 5 (S * val dx * t + Y ^ 2) (fadd (fmul (fmul (f_S o) dx) tf) (pw (f_yint o)))).
  { apply near_add; [exact N3 | apply near_weaken with 3%nat; [lia | exact N4] | apply few_small; lia | apply fits_le with 402%Z; [lia | exact F5]]. }
  rewrite (near_nlt0 _ _ _ N1).
  replace (rlt (t ^ 2) 0) with false by (pose proof (pow2_ge_0 t); unfold rlt; destruct (Rlt_dec (t ^ 2) 0); [lra | reflexivity]).
  destruct (div_case 7 5 _ _ _ _ N1 N5) as [(_ & E1 & E2) | (Hp & q & E1 & E2 & Nq)].
  - apply few_small. lia.
  - intros Hx. apply fits_le with 804%Z; [lia |]. apply (fits_div 402 402); assumption.
  - rewrite E1, E2. reflexivity.
  - rewrite E1, E2. simpl rbind. cbn [same_opt].
    assert (F6 : fits 904 (val dx * (t ^ 2 / (S * val dx * t + Y ^ 2)))).
    { apply (fits_mul 100 804); [assumption |]. apply (fits_div 402 402); assumption. }
    assert (N6 : near 14 (val dx * (t ^ 2 / (S * val dx * t + Y ^ 2))) (fmul dx q)).
    { apply (near_mul 0 13); try assumption; [apply few_small; lia | apply fits_le with 904%Z; [lia | exact F6]]. }
    apply near_close with (1 := N6). lia.
Qed.

Lemma fxfromy_same : forall z raiseonerror, argument z ->
  same_opt (bpow radix2 (-49)) (fxfromy_f pw o z true raiseonerror) (xfromy_f (to_R o) (val z) true raiseonerror).
Proof.
  intros z ra Hz. destruct (arg_case z Hz) as (Fz & L & _).
  destruct fB as (_ & FB & PB & NB). destruct fS as (_ & FS & PS & NS). destruct fY as (FYf & FY & PY & NY).
  unfold fxfromy_f, xfromy_f. rewrite L, (flt_correct _ _ FYf Fz).
  cbn [c_yint c_y c_B c_S to_R andb]. fold B S Y. cbn zeta.
  destruct (rlt Y (val z)) eqn:Hbig; [destruct ra; reflexivity |].
  destruct (rlt (val z) 0) eqn:Hneg; [destruct ra; reflexivity |].
  assert (Fd : fits 100 (val z)).
  { destruct Hz as (_ & [H | H]); [| exact H]. unfold rlt in Hneg. destruct (Rlt_dec (val z) 0); [discriminate | lra]. }
  assert (Hle : 0 <= Y - val z) by (unfold rlt in Hbig; destruct (Rlt_dec Y (val z)); [discriminate | lra]).
  pose proof (near_0 z Fz (fits_pos _ _ Fd)) as Nz.
  destruct (sub_grid (f_yint o) z FYf Fz FY Fd) as (G1 & _). destruct (G1 Hle) as (Nd & Fdd). fold Y in Nd, Fdd.
  assert (F1 : fits 252 (Y * (Y - val z))) by (apply (fits_mul 100 152); assumption).
  assert (N1 : near 2 (Y * (Y - val z)) (fmul (f_yint o) (fsub (f_yint o) z))).
  { apply (near_mul 0 1); try assumption; [apply few_small; lia | apply fits_le with 252%Z; [lia | exact F1]]. }
  assert (FB2 : fits 200 (B ^ 2)) by (apply (fits_sqr 100); assumption).
  assert (NB2 : near 3 (B ^ 2) (pw (f_B o))) by (apply (near_pw pw 0); [exact A | exact NB | apply fits_le with 100%Z; [lia | exact FB] | apply few_small; lia]).
  assert (FS2 : fits 200 (S ^ 2)) by (apply (fits_sqr 100); assumption).
  assert (NS2 : near 3 (S ^ 2) (pw (f_S o))) by (apply (near_pw pw 0); [exact A | exact NS | apply fits_le with 100%Z; [lia | exact FS] | apply few_small; lia]).
  assert (FBS : fits 200 (B * S)) by (apply (fits_mul 100 100); assumption).
  assert (NBS : near 1 (B * S) (fmul (f_B o) (f_S o))) by (apply (near_mul 0 0); try assumption; [apply few_small; lia | apply fits_le with 200%Z; [lia | exact FBS]]).
  assert (Fa : fits 300 (B ^ 2 * Y)) by (apply (fits_mul 200 100); assumption).
  assert (Na : near 4 (B ^ 2 * Y) (fmul (pw (f_B o)) (f_yint o))) by (apply (near_mul 3 0); try assumption; [apply few_small; lia | apply fits_le with 300%Z; [lia | exact Fa]]).
  assert (Fb : fits 300 (B * S * val z)) by (apply (fits_mul 200 100); assumption).
  assert (Nb : near 2 (B * S * val z) (fmul (fmul (f_B o) (f_S o)) z)) by (apply (near_mul 1 0); try assumption; [apply few_small; lia | apply fits_le with 300%Z; [lia | exact Fb]]).
  assert (Fc : fits 300 (B * S * Y)) by (apply (fits_mul 200 100); assumption).
  assert (Nc : near 2 (B * S * Y) (fmul (fmul (f_B o) (f_S o)) (f_yint o))) by (apply (near_mul 1 0); try assumption; [apply few_small; lia | apply fits_le with 300%Z; [lia | exact Fc]]).
  assert (Fe : fits 300 (S ^ 2 * val z)) by (apply (fits_mul 200 100); assumption).
  assert (Ne : near 4 (S ^ 2 * val z) (fmul (pw (f_S o)) z)) by (apply (near_mul 3 0); try assumption; [apply few_small; lia | apply fits_le with 300%Z; [lia | exact Fe]]).
  assert (Fab : fits 301 (B ^ 2 * Y + B * S * val z)) by (apply (fits_add 300); [lia | assumption | assumption]).
  assert (Nab : near 5 (B ^ 2 * Y + B * S * val z) (fadd (fmul (pw (f_B o)) (f_yint o)) (fmul (fmul (f_B o) (f_S o)) z))).
  { apply near_add; [exact Na | apply near_weaken with 2%nat; [lia | exact Nb] | apply few_small; lia | apply fits_le with 301%Z; [lia | exact Fab]]. }
  assert (Fabc : fits 302 (B ^ 2 * Y + B * S * val z + B * S * Y)) by (apply (fits_add 301); [lia | assumption | apply fits_le with 300%Z; [lia | exact Fc]]).
  assert (Nabc : near 6 (B ^ 2 * Y + B * S * val z + B * S * Y)
    (fadd (fadd (fmul (pw (f_B o)) (f_yint o)) (fmul (fmul (f_B o) (f_S o)) z)) (fmul (fmul (f_B o) (f_S o)) (f_yint o)))).
  { apply near_add; [exact Nab | apply near_weaken with 2%nat; [lia | exact Nc] | apply few_small; lia | apply fits_le with 302%Z; [lia | exact Fabc]]. }
  assert (Ft4 : fits 303 (B ^ 2 * Y + B * S * val z + B * S * Y + S ^ 2 * val z)) by (apply (fits_add 302); [lia | assumption | apply fits_le with 300%Z; [lia | exact Fe]]).
  match goal with |- context [fdiv _ ?D] => assert (N4 : near 7 (B ^ 2 * Y + B * S * val z + B * S * Y + S ^ 2 * val z) D) end.
  { apply near_add; [exact Nabc | apply near_weaken with 4%nat; [lia | exact Ne] | apply few_small; lia | apply fits_le with 303%Z; [lia | exact Ft4]]. }
  destruct (div_case 2 7 _ _ _ _ N1 N4) as [(_ & E1 & E2) | (_ & q & E1 & E2 & Nq)].
  - apply few_small. lia.
  - intros Hx. apply fits_le with 555%Z; [lia |]. apply (fits_div 252 303); assumption.
  - rewrite E1, E2. reflexivity.
  - rewrite E1, E2. simpl rbind. cbn [same_opt]. apply near_close with (1 := Nq). lia.
Qed.
End Curve.
