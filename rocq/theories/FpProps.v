(** The curve in double precision. *)
From Coq Require Import ZArith Reals Bool Lia Lra.
From Flocq Require Import Core Relative IEEE754.BinarySingleNaN IEEE754.Binary IEEE754.Bits.
From Verif Require Import CurveModel FpModel FpSpec FpProofs FpProofs2 FpProofs3.
Local Open Scope R_scope.

(** the hypotheses can be met: a correctly rounded square, and a curve *)
Definition sq (f : fl) : fl := fmul f f.
Lemma sq_accurate : accurate sq.
Proof.
  intros f Ff F. pose proof (fits_pos _ _ F) as P. pose proof (near_0 f Ff P) as N.
  assert (M : near 1 (val f * val f) (fmul f f)).
  { apply (near_mul 0 0); try assumption; [apply few_small; lia |]. apply fits_le with 900%Z; [lia |]. apply (fits_mul 450 450); assumption. }
  pose proof u_pos. pose proof u_small.
  destruct (near_close_gen 1 _ _ (2 * u) M) as (C1 & C2).
  - simpl. lra.
  - simpl INR. rewrite !Rmult_1_l. apply Rmult_le_reg_r with (1 - u); [lra |].
    replace (u / (1 - u) * (1 - u)) with u by (field; lra).
    assert (0 <= u * (1 - 2 * u)) by (apply Rmult_le_pos; lra). lra.
  - split; [exact C1 |]. replace (bpow radix2 (-52)) with (2 * u).
    + replace (val f ^ 2) with (val f * val f) by ring. rewrite (Rabs_pos_eq (val f * val f)) in C2 by (apply Rmult_le_pos; exact P). exact C2.
    + unfold u. change 2 with (bpow radix2 1). rewrite <- bpow_plus. reflexivity.
Qed.
Definition ftwo : fl := B754_finite 53 1024 false 4503599627370496 (-51) eq_refl.
Definition fthree : fl := B754_finite 53 1024 false 6755399441055744 (-51) eq_refl.
Lemma val_two : val ftwo = 2.
Proof. unfold val, ftwo, B2R, F2R. cbn [Fnum Fexp cond_Zopp bpow]. change (Z.pow_pos radix2 51) with 2251799813685248%Z. field. Qed.
Lemma val_three : val fthree = 3.
Proof. unfold val, fthree, B2R, F2R. cbn [Fnum Fexp cond_Zopp bpow]. change (Z.pow_pos radix2 51) with 2251799813685248%Z. field. Qed.
Lemma fits_mid : forall x, 1 <= x <= 4 -> fits 100 x.
Proof.
  intros x H. right. split.
  - apply Rle_trans with (bpow radix2 0); [apply bpow_le; lia | simpl; lra].
  - apply Rle_trans with (bpow radix2 2); [simpl; lra | apply bpow_le; lia].
Qed.
Definition curve_ex (base : bool) : fcurve := mkFcurve base fone fone ftwo fone.
Lemma ordinary_ex : forall base, ordinary (curve_ex base).
Proof.
  intros. unfold ordinary, curve_ex. cbn [f_B f_S f_yint f_y].
  repeat split; try reflexivity; apply fits_mid; rewrite ?val_one, ?val_two; lra.
Qed.
Lemma argument_ex : argument fone.
Proof. split; [reflexivity |]. right. apply fits_mid. rewrite val_one. lra. Qed.
Definition bits (a : res (option fl)) : Z := match a with Ret (Some v) => bits_of_b64 v | _ => (-1)%Z end.

(** ** C172 the formulas of a curve in double precision *)
Theorem C172_pa : forall pw o, accurate pw -> ordinary o -> same (bpow radix2 (-49)) (fpa pw o) (pa (to_R o)).
Proof. intros pw o A O. exact (fpa_same pw A o O). Qed.
Print Assumptions C172_pa.
Theorem C172_pb : forall pw o, accurate pw -> ordinary o -> same (bpow radix2 (-49)) (fpb pw o) (pb (to_R o)).
Proof. intros pw o A O. exact (fpb_same pw A o O). Qed.
Print Assumptions C172_pb.
Theorem C172_xint : forall pw o, accurate pw -> ordinary o -> same (bpow radix2 (-49)) (fxint pw o) (xint (to_R o)).
Proof. intros pw o A O. exact (fxint_same pw A o O). Qed.
Print Assumptions C172_xint.
Theorem C172_p_marg : forall pw o dy fullcurve raiseonerror, accurate pw -> ordinary o -> argument dy ->
  same_opt (bpow radix2 (-49)) (fp_marg_f pw o dy fullcurve true raiseonerror) (p_marg_f (to_R o) (val dy) fullcurve true raiseonerror).
Proof. intros pw o dy fullcurve ra A O H. exact (fp_marg_same pw A o O dy fullcurve ra H). Qed.
Print Assumptions C172_p_marg.
Theorem C172_dyfromdx : forall pw o dx raiseonerror, accurate pw -> ordinary o -> argument dx ->
  same_opt (bpow radix2 (-49)) (fdyfromdx_f pw o dx true raiseonerror) (dyfromdx_f (to_R o) (val dx) true raiseonerror).
Proof. intros pw o dx ra A O H. exact (fdyfromdx_same pw A o O dx ra H). Qed.
Print Assumptions C172_dyfromdx.
Theorem C172_xfromy : forall pw o y raiseonerror, accurate pw -> ordinary o -> argument y ->
  same_opt (bpow radix2 (-49)) (fxfromy_f pw o y true raiseonerror) (xfromy_f (to_R o) (val y) true raiseonerror).
Proof. intros pw o y ra A O H. exact (fxfromy_same pw A o O y ra H). Qed.
Print Assumptions C172_xfromy.
(** the amount to pay for an output: the error grows with the fall of the root of the price *)
Theorem C172_dxfromdy : forall pw o dy (k : nat) raiseonerror, accurate pw -> ordinary o -> argument dy ->
  (1 <= k)%nat -> INR k <= bpow radix2 20 ->
  val (f_S o) * val (f_y o) + val (f_B o) * val (f_yint o) <=
    INR k * (val (f_S o) * (val (f_y o) - val dy) + val (f_B o) * val (f_yint o)) ->
  same_opt ((6 * INR k + 10) * bpow radix2 (-53)) (fdxfromdy_f pw o dy true raiseonerror)
    (dxfromdy_f (to_R o) (val dy) true raiseonerror).
Proof. exact fdxfromdy_same. Qed.
Print Assumptions C172_dxfromdy.
(** without a bound on the fall there is no bound: emptying a curve with a small end price
    divides by zero, though the amount is a number *)
Definition steep : fcurve := mkFcurve false (B754_finite 53 1024 false 4503599627370496 (-112) eq_refl) fone fone fone.
Theorem C172_dxfromdy_refuted : exists o dy, ordinary o /\ argument dy /\ val dy = val (f_y o) /\ 0 < val (f_B o) /\
  (forall pw raiseonerror, fdxfromdy_f pw o dy true raiseonerror = Raise ZeroDivision) /\
  (forall raiseonerror, exists dx, 0 < dx /\ dxfromdy_f (to_R o) (val dy) true raiseonerror = Ret (Some dx)).
Proof.
  assert (VB : val (f_B steep) = bpow radix2 (-60)).
  { unfold steep. cbn [f_B]. unfold val, B2R, F2R. cbn [Fnum Fexp cond_Zopp].
    change (IZR 4503599627370496) with (bpow radix2 52). rewrite <- bpow_plus. reflexivity. }
  pose proof (bpow_gt_0 radix2 (-60)) as P.
  exists steep, fone. split.
  { unfold ordinary. rewrite VB. cbn [steep f_B f_S f_yint f_y].
    repeat split; try reflexivity; try (apply fits_mid; rewrite val_one; lra).
    right. split; apply bpow_le; lia. }
  split; [exact argument_ex |]. split; [reflexivity |]. split; [rewrite VB; exact P |]. split.
  - intros pw ra. unfold fdxfromdy_f. cbn [steep f_B f_S f_yint f_y].
    match goal with |- context [if ?b then _ else _] => replace b with false by (vm_compute; reflexivity) end.
    match goal with |- context [if ?b then _ else _] => replace b with false by (vm_compute; reflexivity) end.
    match goal with |- context [if ?b then _ else _] => replace b with false by (vm_compute; reflexivity) end.
    cbn zeta. unfold fdiv.
    match goal with |- context [if ?b then _ else _] => replace b with true by (vm_compute; reflexivity) end. reflexivity.
  - intros ra. unfold dxfromdy_f, to_R. cbn [c_B c_S c_yint c_y]. rewrite VB. cbn [steep f_S f_yint f_y]. rewrite val_one.
    unfold req, rlt, rdiv. destruct (Req_EM_T (bpow radix2 (-60)) 0); [lra |]. cbn [andb].
    destruct (Rlt_dec 1 0); [lra |]. destruct (Rlt_dec 1 1); [lra |]. cbn zeta.
    set (e := bpow radix2 (-60)) in *. unfold req.
    assert (Q : 0 < (1 * 1 + e * 1) * (1 * 1 + e * 1 - 1 * 1)) by nra.
    destruct (Req_EM_T ((1 * 1 + e * 1) * (1 * 1 + e * 1 - 1 * 1)) 0); [lra |]. cbn [rbind].
    eexists. split; [| reflexivity]. rewrite Rmult_1_l. apply Rdiv_lt_0_compat; [lra | exact Q].
Qed.
Print Assumptions C172_dxfromdy_refuted.
Example C172_ex : accurate sq /\ ordinary (curve_ex false) /\ argument fone /\
  bits (fdyfromdx_f sq (curve_ex false) fone true true) = 4608469161550694693%Z /\
  bits (fp_marg_f sq (curve_ex false) fzero false true true) = 4612248968380809216%Z /\
  bits (fxfromy_f sq (curve_ex false) fone true true) = 4599676419421066581%Z /\
  bits (fdxfromdy_f sq (curve_ex false) fone true true) = 4604180019048437077%Z /\
  bits (let* x := fxint sq (curve_ex false) in Ret (Some x)) = bits (Ret (Some fone)) /\ (INR 2 <= bpow radix2 20) /\
  val (f_S (curve_ex false)) * val (f_y (curve_ex false)) + val (f_B (curve_ex false)) * val (f_yint (curve_ex false)) <=
    INR 2 * (val (f_S (curve_ex false)) * (val (f_y (curve_ex false)) - val fone) + val (f_B (curve_ex false)) * val (f_yint (curve_ex false))).
Proof.
  split; [exact sq_accurate |]. split; [apply ordinary_ex |]. split; [exact argument_ex |].
  split; [vm_compute; reflexivity |]. split; [vm_compute; reflexivity |]. split; [vm_compute; reflexivity |]. split; [vm_compute; reflexivity |].
  split; [vm_compute; reflexivity |].
  split.
  - apply Rle_trans with (bpow radix2 1); [simpl; lra | apply bpow_le; lia].
  - cbn [curve_ex f_S f_y f_B f_yint]. rewrite val_one, val_two. simpl. lra.
Qed.

(** ** C173 the price range of an order, in double precision *)
Theorem C173_from_prices : forall pw base p1 p2 yint y, accurate pw ->
  finite p1 -> fits 100 (val p1) -> 0 < val p1 -> finite p2 -> fits 100 (val p2) -> 0 < val p2 ->
  finite yint -> finite y -> 0 <= val y -> val y <= val yint ->
  exists o lo hi, ffrom_prices pw base p1 p2 yint y = Ret o /\ f_base o = base /\ f_yint o = yint /\ f_y o = y /\
    fpminmax pw o = Ret (Some (lo, hi)) /\
    close (bpow radix2 (-49)) lo (Rmin (val p1) (val p2)) /\ close (bpow radix2 (-49)) hi (Rmax (val p1) (val p2)).
Proof. exact ffrom_prices_range. Qed.
Print Assumptions C173_from_prices.
(** the range is not exactly the one asked for *)
Theorem C173_exact_refuted : exists p1 p2 o lo hi, val p1 = 3 /\ val p2 = 2 /\
  ffrom_prices sq false p1 p2 fone fone = Ret o /\ fpminmax sq o = Ret (Some (lo, hi)) /\ 2 < val lo /\ val hi < 3.
Proof.
  destruct (C173_from_prices sq false fthree ftwo fone fone) as (o & lo & hi & E & _ & _ & _ & M & (Flo & _) & (Fhi & _)).
  { exact sq_accurate. } { reflexivity. } { apply fits_mid; rewrite val_three; lra. } { rewrite val_three; lra. }
  { reflexivity. } { apply fits_mid; rewrite val_two; lra. } { rewrite val_two; lra. } { reflexivity. } { reflexivity. }
  { rewrite val_one; lra. } { lra. }
  exists fthree, ftwo, o, lo, hi. split; [exact val_three |]. split; [exact val_two |]. split; [exact E |]. split; [exact M |].
  set (t := match ffrom_prices sq false fthree ftwo fone fone with Ret o => match fpminmax sq o with Ret (Some (lo, hi)) => flt ftwo lo && flt hi fthree | _ => false end | _ => false end).
  assert (T : t = true) by (vm_compute; reflexivity).
  unfold t in T. rewrite E, M in T. apply andb_prop in T. destruct T as (T1 & T2).
  rewrite flt_correct in T1, T2 by (assumption || reflexivity). rewrite val_two in T1. rewrite val_three in T2. unfold rlt in T1, T2.
  destruct (Rlt_dec 2 (val lo)); [| discriminate]. destruct (Rlt_dec (val hi) 3); [| discriminate]. split; assumption.
Qed.
Print Assumptions C173_exact_refuted.
Definition range_bits (base : bool) : Z * Z :=
  match ffrom_prices sq base fthree ftwo fone fone with
  | Ret o => match fpminmax sq o with Ret (Some (lo, hi)) => (bits_of_b64 lo, bits_of_b64 hi) | _ => (0, 0)%Z end
  | _ => (0, 0)%Z
  end.
(** 2.0000000000000004 and 2.9999999999999996; 1.9999999999999996 and 3.0 *)
Example C173_ex : range_bits false = (4611686018427387905, 4613937818241073151)%Z /\ range_bits true = (4611686018427387902, 4613937818241073152)%Z /\
  fits 100 (val fthree) /\ 0 < val fthree /\ val fone <= val fone.
Proof.
  split; [vm_compute; reflexivity |]. split; [vm_compute; reflexivity |].
  split; [apply fits_mid; rewrite val_three; lra |]. rewrite val_three. lra.
Qed.
