(** Constant product curves in double precision. *)
From Coq Require Import ZArith Reals Bool List Lia Lra.
From Flocq Require Import Core IEEE754.BinarySingleNaN IEEE754.Binary IEEE754.Bits.
From Verif Require Import CurveModel FpModel FpSpec FpProofs FpProofs2 FpCpcModel FpCpcSpec FpCpcProofs FpCpcProofs2 FpOrderProps.
Import ListNotations.
Local Open Scope R_scope.

(** ** C180 Constant product curves computed with floats *)
(** the constructors, with all of k, x, y and p *)
Theorem C180_from_kx : forall k x, amount k -> amount x -> exists c, fc_from_kx k x = Ret c /\ fc_k c = k /\ fc_x c = x /\ curve_ok c (val k) (val x) (val k / val x) (val k / val x / val x).
Proof. exact kx_ok. Qed.
Print Assumptions C180_from_kx.
Theorem C180_from_ky : forall k y, amount k -> amount y -> exists c, fc_from_ky k y = Ret c /\ fc_k c = k /\ curve_ok c (val k) (val k / val y) (val y) (val y * val y / val k).
Proof. exact ky_ok. Qed.
Print Assumptions C180_from_ky.
Theorem C180_from_xy : forall x y, amount x -> amount y -> exists c, fc_from_xy x y = Ret c /\ fc_x c = x /\ curve_ok c (val x * val y) (val x) (val y) (val y / val x).
Proof. exact xy_ok. Qed.
Print Assumptions C180_from_xy.
Theorem C180_from_pk : forall p k, amount p -> amount k -> exists c, fc_from_pk p k = Ret c /\ fc_k c = k /\ curve_ok c (val k) (sqrt (val k / val p)) (sqrt (val k * val p)) (val p).
Proof. exact pk_ok. Qed.
Print Assumptions C180_from_pk.
Theorem C180_from_px : forall p x, amount p -> amount x -> exists c, fc_from_px p x = Ret c /\ fc_x c = x /\ curve_ok c (val x * val x * val p) (val x) (val x * val p) (val p).
Proof. exact px_ok. Qed.
Print Assumptions C180_from_px.
Theorem C180_from_py : forall p y, amount p -> amount y -> exists c, fc_from_py p y = Ret c /\ curve_ok c (val y * val y / val p) (val y / val p) (val y) (val p).
Proof. exact py_ok. Qed.
Print Assumptions C180_from_py.
(** what comes out for what is put in: never negative, never more than there is, and accurate relative to what there is *)
Theorem C180_dyfromdx : forall c dx, pool c -> input dx -> exists y dy, fc_y c = Ret y /\ fc_dyfromdx c dx = Ret dy /\ finite dy /\ - val y <= val dy <= 0 /\
  Rabs (val dy - (val (fc_k c) / (val (fc_x c) + val dx) - val (fc_k c) / val (fc_x c))) <= bpow radix2 (-50) * (val (fc_k c) / val (fc_x c)).
Proof. exact dy_ok. Qed.
Print Assumptions C180_dyfromdx.
Theorem C180_dxfromdy : forall c dy, pool c -> input dy -> exists dx, fc_dxfromdy c dy = Ret dx /\ finite dx /\ - val (fc_x c) <= val dx /\
  Rabs (val dx - (val (fc_k c) / (val (fc_k c) / val (fc_x c) + val dy) - val (fc_x c))) <= bpow radix2 (-50) * val (fc_x c).
Proof. exact dx_ok. Qed.
Print Assumptions C180_dxfromdy.
(** a trade: balances move the right way, and the actual ones by what was traded *)
Theorem C180_execute : forall c dx ib, pool c -> input dx -> input (fc_xa c) -> input (fc_ya c) ->
  exists c' y y', fc_execute c (TradeX dx) ib = Ret c' /\ fc_k c' = fc_k c /\ fc_y c = Ret y /\ fc_y c' = Ret y' /\
    finite (fc_x c') /\ val (fc_x c) <= val (fc_x c') /\ 0 <= val y' <= val y /\
    Rabs (val (fc_x c') - (val (fc_x c) + val dx)) <= bpow radix2 (-52) * (val (fc_x c) + val dx) /\
    finite (fc_xa c') /\ Rabs (val (fc_xa c') - (val (fc_xa c) + val dx)) <= bpow radix2 (-51) * (val (fc_xa c) + val (fc_x c) + val dx) /\
    finite (fc_ya c') /\ Rabs (val (fc_ya c') - (val (fc_ya c) + (val (fc_k c) / (val (fc_x c) + val dx) - val (fc_k c) / val (fc_x c)))) <= bpow radix2 (-50) * (val (fc_ya c) + val (fc_k c) / val (fc_x c)).
Proof. exact execute_x. Qed.
Print Assumptions C180_execute.
Theorem C180_execute_y : forall c dy ib, pool c -> input dy -> input (fc_xa c) -> input (fc_ya c) ->
  exists c' y', fc_execute c (TradeY dy) ib = Ret c' /\ fc_k c' = fc_k c /\ fc_y c' = Ret y' /\ finite (fc_x c') /\ finite y' /\
    Rabs (val (fc_x c') - val (fc_k c) / (val (fc_k c) / val (fc_x c) + val dy)) <= bpow radix2 (-51) * (val (fc_k c) / (val (fc_k c) / val (fc_x c) + val dy)) /\
    Rabs (val y' - (val (fc_k c) / val (fc_x c) + val dy)) <= bpow radix2 (-50) * (val (fc_k c) / val (fc_x c) + val dy) /\
    finite (fc_xa c') /\ Rabs (val (fc_xa c') - (val (fc_xa c) + (val (fc_k c) / (val (fc_k c) / val (fc_x c) + val dy) - val (fc_x c)))) <= bpow radix2 (-50) * (val (fc_xa c) + val (fc_x c)) /\
    finite (fc_ya c') /\ Rabs (val (fc_ya c') - (val (fc_ya c) + val dy)) <= bpow radix2 (-50) * (val (fc_ya c) + val (fc_k c) / val (fc_x c) + val dy).
Proof. exact execute_y. Qed.
Print Assumptions C180_execute_y.
(** ValueError is raised if and only if more than there is would be taken out *)
Theorem C180_bounds : forall c, (forall t, fc_execute c t true <> Raise ValueError) /\
  (forall dx, finite dx -> finite (fc_xa c) -> (fc_execute c (TradeX dx) false = Raise ValueError <-> val dx < - val (fc_xa c))) /\
  (forall dy, finite dy -> finite (fc_ya c) -> (fc_execute c (TradeY dy) false = Raise ValueError <-> val dy < - val (fc_ya c))).
Proof. exact refused_iff. Qed.
Print Assumptions C180_bounds.
(** after any number of trades the constant is the same double, and x times y is as close to it as at the start: rounding does not add up *)
Theorem C180_no_drift : forall ts c c', fc_run c ts = Ret c' -> amount (fc_k c) -> amount (fc_x c') ->
  fc_k c' = fc_k c /\ exists y, fc_y c' = Ret y /\ Rabs (val (fc_x c') * val y - val (fc_k c)) <= bpow radix2 (-52) * val (fc_k c).
Proof. exact no_drift. Qed.
Print Assumptions C180_no_drift.

(** concrete doubles *)
Definition f2 : fl := B754_finite 53 1024 false 4503599627370496 (-51) eq_refl.
Definition f3 : fl := B754_finite 53 1024 false 6755399441055744 (-51) eq_refl.
Definition f49 : fl := B754_finite 53 1024 false 6896136929411072 (-47) eq_refl.
Definition fbig : fl := B754_finite 53 1024 false 4503599627370496 1 eq_refl.
Definition fthird : fl := B754_finite 53 1024 false 6004799503160661 (-54) eq_refl.
Definition fm23 : fl := B754_finite 53 1024 true 6004799503160662 (-53) eq_refl.
Definition fr49 : fl := B754_finite 53 1024 false 5882252574524729 (-58) eq_refl.
Definition fb49 : fl := B754_finite 53 1024 false 6896136929411073 (-47) eq_refl.
Definition fdiff : fl := B754_finite 53 1024 false 4503599627370496 (-99) eq_refl.
Definition ftenth : fl := B754_finite 53 1024 false 7205759403792794 (-56) eq_refl.
Definition f11 : fl := B754_finite 53 1024 false 4953959590107546 (-52) eq_refl.
Definition f02' : fl := B754_finite 53 1024 false 7205759403792800 (-55) eq_refl.
Lemma fdiv_is : forall a b v, feq b fzero = false -> bits_of_b64 (b64_div mode_NE a b) = bits_of_b64 v -> fdiv a b = Ret v.
Proof. intros a b v H E. unfold fdiv. rewrite H. f_equal. apply bits_inj, E. Qed.
Lemma amount_is : forall m e H, (-100 <= e)%Z -> (e <= 47)%Z -> amount (B754_finite 53 1024 false m e H).
Proof.
  intros m e H L1 L2. assert (V : val (B754_finite 53 1024 false m e H) = IZR (Zpos m) * bpow radix2 e) by reflexivity.
  assert (M1 : 1 <= IZR (Zpos m)) by (apply IZR_le; lia).
  assert (M2 : IZR (Zpos m) <= bpow radix2 53).
  { change (bpow radix2 53) with (IZR (2 ^ 53)). apply IZR_le. pose proof H as K. apply andb_prop in K. destruct K as (K & _). apply Zeq_bool_eq in K. unfold SpecFloat.fexp, SpecFloat.emin in K. rewrite Digits.Zpos_digits2_pos in K.
    assert (D : (Digits.Zdigits radix2 (Zpos m) <= 53)%Z) by lia. pose proof (Digits.Zpower_gt_Zdigits radix2 53 (Zpos m) D) as P. rewrite Z.abs_eq in P by lia. change (Zpower radix2 53) with (2 ^ 53)%Z in P. lia. }
  pose proof (bpow_gt_0 radix2 e) as P. split; [reflexivity |]. rewrite V. split; [apply Rmult_lt_0_compat; lra |]. right. split.
  - apply Rle_trans with (1 * bpow radix2 e); [rewrite Rmult_1_l; apply bpow_le; lia | apply Rmult_le_compat_r; lra].
  - apply Rle_trans with (bpow radix2 53 * bpow radix2 e); [apply Rmult_le_compat_r; lra |]. rewrite <- bpow_plus. apply bpow_le. lia.
Qed.
Lemma input_of : forall f, amount f -> input f. Proof. intros f (F & _ & H). split; assumption. Qed.
Lemma input_zero : input fzero. Proof. split; [reflexivity | left; reflexivity]. Qed.
Ltac amt := apply amount_is; lia.

(** a small trade on a large pool gives nothing *)
Theorem C180_relative_refuted : exists c dx dy, pool c /\ amount dx /\ fc_dyfromdx c dx = Ret dy /\ val dy = 0 /\ val (fc_k c) / (val (fc_x c) + val dx) - val (fc_k c) / val (fc_x c) < 0.
Proof.
  exists (mkFcpc fbig fbig fbig fone), fone, fzero. split; [split; amt |]. split; [amt |]. split.
  - unfold fc_dyfromdx, fc_y. cbn [fc_k fc_x]. replace (fadd fbig fone) with fbig by (symmetry; apply bits_inj; vm_compute; reflexivity).
    rewrite (fdiv_is fbig fbig fone) by (vm_compute; reflexivity). cbn [rbind]. apply f_equal, bits_inj. vm_compute. reflexivity.
  - split; [reflexivity |]. cbn [fc_k fc_x]. rewrite val_one. replace (val fbig) with 9007199254740992; [lra |]. unfold val, B2R, fbig, F2R, cond_Zopp. cbn [Fnum Fexp]. simpl (bpow _ _). lra.
Qed.
Print Assumptions C180_relative_refuted.
(** the price of nothing is not always nothing *)
Theorem C180_zero_refuted : exists c dx, pool c /\ fc_dxfromdy c fzero = Ret dx /\ 0 < val dx.
Proof.
  exists (mkFcpc fone f49 f49 fr49), fdiff. split; [split; amt |]. split.
  - unfold fc_dxfromdy, fc_y. cbn [fc_k fc_x]. rewrite (fdiv_is fone f49 fr49) by (vm_compute; reflexivity). cbn [rbind].
    replace (fadd fr49 fzero) with fr49 by (symmetry; apply bits_inj; vm_compute; reflexivity). rewrite (fdiv_is fone fr49 fb49) by (vm_compute; reflexivity). cbn [rbind]. apply f_equal, bits_inj. vm_compute. reflexivity.
  - assert (A : amount fdiff) by amt. apply A.
Qed.
Print Assumptions C180_zero_refuted.
(** a pool can pay more than its curve says *)
Theorem C180_overpays_refuted : exists c dx dy, pool c /\ amount dx /\ fc_dyfromdx c dx = Ret dy /\ val dy < val (fc_k c) / (val (fc_x c) + val dx) - val (fc_k c) / val (fc_x c).
Proof.
  exists (mkFcpc fone fone fone fone), f2, fm23. split; [split; amt |]. split; [amt |]. split.
  - unfold fc_dyfromdx, fc_y. cbn [fc_k fc_x]. replace (fadd fone f2) with f3 by (symmetry; apply bits_inj; vm_compute; reflexivity).
    rewrite (fdiv_is fone f3 fthird), (fdiv_is fone fone fone) by (vm_compute; reflexivity). cbn [rbind]. apply f_equal, bits_inj. vm_compute. reflexivity.
  - cbn [fc_k fc_x]. rewrite val_one. replace (val f2) with 2 by (unfold val, B2R, f2, F2R, cond_Zopp; cbn [Fnum Fexp]; simpl (bpow _ _); lra).
    unfold val, B2R, fm23, F2R, cond_Zopp. cbn [Fnum Fexp]. simpl (bpow _ _). simpl Z.opp. lra.
Qed.
Print Assumptions C180_overpays_refuted.
(** the actual balance after a trade is not the sum of the old one and what was added *)
Theorem C180_act_refuted : exists c dx c', pool c /\ amount dx /\ fc_execute c (TradeX dx) false = Ret c' /\ val (fadd (fc_xa c) dx) < val (fc_xa c').
Proof.
  assert (E1 : fadd fone ftenth = f11) by (apply bits_inj; vm_compute; reflexivity).
  assert (E2 : fsub (fadd ftenth f11) fone = f02') by (apply bits_inj; vm_compute; reflexivity).
  assert (G : exists q, fdiv fone f11 = Ret q) by (eexists; unfold fdiv; replace (feq f11 fzero) with false by (vm_compute; reflexivity); reflexivity).
  destruct G as (q & G).
  exists (mkFcpc fone fone ftenth fone), ftenth. eexists. split; [split; amt |]. split; [amt |]. split.
  - unfold fc_execute. cbn [fc_k fc_x fc_xa fc_ya]. replace (fge_neg ftenth ftenth) with true by (vm_compute; reflexivity). cbn [negb andb]. cbv zeta. unfold fc_y. cbn [fc_k fc_x]. rewrite E1, G. cbn [rbind].
    rewrite (fdiv_is fone fone fone) by (vm_compute; reflexivity). cbn [rbind]. unfold fmake. rewrite G. cbn [rbind]. rewrite E2. reflexivity.
  - cbn [fc_xa]. replace (fadd ftenth ftenth) with (B754_finite 53 1024 false 7205759403792794 (-55) eq_refl : fl) by (symmetry; apply bits_inj; vm_compute; reflexivity).
    unfold val, B2R, f02', F2R, cond_Zopp. cbn [Fnum Fexp]. simpl (bpow _ _). lra.
Qed.
Print Assumptions C180_act_refuted.

(** a pool of 49 and 1/49 to which 2 are added, and then 3 *)
Example C180_ex : pool (mkFcpc fone f49 f49 fr49) /\ input f2 /\ input f3 /\ input f49 /\ input fr49 /\ amount f2 /\ amount f49 /\
  exists c', fc_run (mkFcpc fone f49 f49 fr49) [(TradeX f2, false); (TradeX f3, false)] = Ret c' /\ amount (fc_x c').
Proof.
  split; [split; amt |]. do 4 (split; [apply input_of; amt |]). do 2 (split; [amt |]).
  set (c1 := fadd f49 f2). set (c2 := fadd c1 f3).
  assert (V2 : c2 = B754_finite 53 1024 false 7599824371187712 (-47) eq_refl) by (apply bits_inj; vm_compute; reflexivity).
  unfold fc_run, fc_execute. cbn [fc_k fc_x fc_xa fc_ya]. replace (fge_neg f2 f49) with true by (vm_compute; reflexivity). cbn [negb andb]. cbv zeta. unfold fmake, fc_y. cbn [fc_k fc_x]. fold c1.
  assert (D1 : exists q, fdiv fone c1 = Ret q) by (eexists; unfold fdiv; replace (feq c1 fzero) with false by (vm_compute; reflexivity); reflexivity).
  assert (D2 : exists q, fdiv fone c2 = Ret q) by (eexists; unfold fdiv; replace (feq c2 fzero) with false by (vm_compute; reflexivity); reflexivity).
  destruct D1 as (q1 & D1). destruct D2 as (q2 & D2). rewrite D1. cbn [rbind]. rewrite (fdiv_is fone f49 fr49) by (vm_compute; reflexivity). cbn [rbind fc_k fc_x fc_xa fc_ya].
  replace (fge_neg f3 (fsub (fadd f49 c1) f49)) with true by (vm_compute; reflexivity). cbn [negb andb]. fold c2. rewrite D2, D1. cbn [rbind]. eexists. split; [reflexivity |]. cbn [fc_x]. rewrite V2. amt.
Qed.
(** taking out more than is there *)
Example C180_bounds_ex : finite fm23 /\ val fm23 < - val fr49 /\ finite (fc_ya (mkFcpc fone f49 f49 fr49)).
Proof. split; [reflexivity |]. split; [| reflexivity]. unfold val, B2R, fm23, fr49, F2R, cond_Zopp. cbn [Fnum Fexp]. simpl (bpow _ _). simpl Z.opp. lra. Qed.
