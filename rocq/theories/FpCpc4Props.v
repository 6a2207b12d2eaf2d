(** Trades of constant product curves inside of their ranges in double precision. *)
From Coq Require Import ZArith Reals Bool List Lia Lra.
From Flocq Require Import Core IEEE754.BinarySingleNaN IEEE754.Binary IEEE754.Bits.
From Verif Require Import CurveModel FpModel FpSpec FpProofs FpProofs2 FpCpcModel FpCpcSpec FpCpcProofs FpOrderProps FpCpcProps FpCpc2Model FpCpc2Spec FpCpc2Proofs FpCpc2Props FpCpc4Model FpCpc4Proofs.
Local Open Scope R_scope.

(** ** C183 Trades inside of the range, with floats *)
(** a trade is the one without bounds if the new balance is in the range computed, and None otherwise *)
Theorem C183_dy : forall c dx y' y m M, fdiv (fc_k c) (fadd (fc_x c) dx) = Ret y' -> fc_y c = Ret y -> fc_y_min c = Ret m -> fc_y_max c = Ret M -> finite y' -> finite m -> all_finite M ->
  fc_dy c dx true = Ret (Some (fsub y' y)) /\ fc_dyfromdx c dx = Ret (fsub y' y) /\
  (val m <= val y' /\ below y' M -> fc_dy c dx false = Ret (Some (fsub y' y))) /\ (~ (val m <= val y' /\ below y' M) -> fc_dy c dx false = Ret None).
Proof. exact dy_ok. Qed.
Print Assumptions C183_dy.
Theorem C183_dx : forall c dy y x' M, fc_y c = Ret y -> fdiv (fc_k c) (fadd y dy) = Ret x' -> fc_x_max c = Ret M -> finite x' -> finite (fc_x_min c) -> all_finite M ->
  fc_dx c dy true = Ret (Some (fsub x' (fc_x c))) /\ fc_dxfromdy c dy = Ret (fsub x' (fc_x c)) /\
  (val (fc_x_min c) <= val x' /\ below x' M -> fc_dx c dy false = Ret (Some (fsub x' (fc_x c)))) /\ (~ (val (fc_x_min c) <= val x' /\ below x' M) -> fc_dx c dy false = Ret None).
Proof. exact FpCpc4Proofs.dx_ok. Qed.
Print Assumptions C183_dx.
(** taking all of x is always in the range, though both ends are rounded: dy_max is y_max - y, and not negative *)
Theorem C183_dy_max : forall c, pool c -> input (fc_xa c) -> input (fc_ya c) -> val (fc_xa c) < val (fc_x c) ->
  exists y M, fc_y c = Ret y /\ fc_y_max c = Ret (Some M) /\ fc_dy_max c = Ret (Some (fsub M y)) /\ 0 <= val (fsub M y) /\
    Rabs (val M - val (fc_k c) / (val (fc_x c) - val (fc_xa c))) <= bpow radix2 (-51) * (val (fc_k c) / (val (fc_x c) - val (fc_xa c))).
Proof. exact dy_max_ok. Qed.
Print Assumptions C183_dy_max.
(** taking all of y is in the range if there is some x, at least 2^-50 of the virtual balance *)
Theorem C183_dx_max : forall c y, pool c -> fc_y c = Ret y -> amount y -> input (fc_xa c) -> input (fc_ya c) -> val (fc_ya c) < val y ->
  exists M, fc_x_max c = Ret (Some M) /\ (val (fc_x_min c) <= val M -> fc_dx_max c = Ret (Some (fsub M (fc_x c)))) /\ (val M < val (fc_x_min c) -> fc_dx_max c = Ret None) /\
    (bpow radix2 (-50) * val (fc_x c) <= val (fc_xa c) -> val (fc_x_min c) <= val M) /\
    Rabs (val M - val (fc_k c) / (val y - val (fc_ya c))) <= bpow radix2 (-51) * (val (fc_k c) / (val y - val (fc_ya c))).
Proof. exact dx_max_ok. Qed.
Print Assumptions C183_dx_max.
(** a pool without a range has no largest trade *)
Theorem C183_full : forall c, (finite (fc_x c) -> fc_xa c = fc_x c -> fc_dy_max c = Ret None) /\ (forall y, fc_y c = Ret y -> finite y -> fc_ya c = y -> fc_dx_max c = Ret None).
Proof. exact full_ok. Qed.
Print Assumptions C183_full.
(** the trade to a price *)
Theorem C183_dxdyfromp : forall c p, pool c -> amount p -> exists dx dy, fc_dxdyfromp c (Some p) true = Ret (dx, dy, p) /\
  (let X := sqrt (val (fc_k c) / val p) in let x := val (fc_x c) in Rabs (val dx - (X - x)) <= bpow radix2 (-48) * (X + x)) /\
  (let Y := sqrt (val (fc_k c) * val p) in let y := val (fc_k c) / val (fc_x c) in Rabs (val dy - (Y - y)) <= bpow radix2 (-48) * (Y + y)).
Proof. exact dxdyfromp_ok. Qed.
Print Assumptions C183_dxdyfromp.

(** a pool of 59 with a constant of 3 and nothing that can be traded: dy_max is a number, dx_max is None though x_max is a number *)
Definition f59 : fl := B754_finite 53 1024 false 8303511812964352 (-47) eq_refl.
Definition y59 : fl := B754_finite 53 1024 false 7327890919111316 (-57) eq_refl.
Definition b59 : fl := B754_finite 53 1024 false 8303511812964351 (-47) eq_refl.
Theorem C183_dx_max_refuted : exists c y M, pool c /\ fc_y c = Ret y /\ amount y /\ input (fc_xa c) /\ input (fc_ya c) /\ val (fc_ya c) < val y /\ fc_x_max c = Ret (Some M) /\ fc_dx_max c = Ret None.
Proof.
  assert (E1 : fdiv f3 f59 = Ret y59) by (apply fdiv_is; vm_compute; reflexivity).
  assert (E2 : fdiv f3 y59 = Ret b59) by (apply fdiv_is; vm_compute; reflexivity).
  assert (E3 : fsub y59 fzero = y59) by (apply bits_inj; vm_compute; reflexivity).
  assert (E4 : fsub f59 fzero = f59) by (apply bits_inj; vm_compute; reflexivity).
  exists (mkFcpc f3 f59 fzero fzero), y59, b59. split; [split; amt |]. split; [exact E1 |]. split; [amt |]. split; [exact input_zero |]. split; [exact input_zero |].
  assert (P : 0 < val y59) by (apply (amount_is 7327890919111316 (-57) eq_refl); lia). split; [cbn [fc_ya]; rewrite val_zero; exact P |].
  assert (XM : fc_x_max (mkFcpc f3 f59 fzero fzero) = Ret (Some b59)).
  { unfold fc_x_max, fc_y_min, fc_y. cbn [fc_k fc_x fc_ya]. rewrite E1. cbn [rbind]. rewrite E3. replace (flt fzero y59) with true by (vm_compute; reflexivity). rewrite E2. reflexivity. }
  split; [exact XM |].
  destruct (C183_dx_max (mkFcpc f3 f59 fzero fzero) y59) as (M & XM' & _ & N & _); [split; amt | exact E1 | amt | exact input_zero | exact input_zero | cbn [fc_ya]; rewrite val_zero; exact P |].
  rewrite XM in XM'. injection XM' as <-. apply N. unfold fc_x_min. cbn [fc_x fc_xa]. rewrite E4. unfold val, B2R, f59, b59, F2R, cond_Zopp. cbn [Fnum Fexp]. apply Rmult_lt_compat_r; [apply bpow_gt_0 | apply IZR_lt; reflexivity].
Qed.
Print Assumptions C183_dx_max_refuted.

(** a pool of 3 of which 1 can be traded, with a constant of 49 *)
Definition y49 : fl := B754_finite 53 1024 false 4597424619607381 (-48) eq_refl.
Example C183_ex : let c := mkFcpc f49 f3 fone fone in pool c /\ fc_y c = Ret y49 /\ amount y49 /\ input (fc_xa c) /\ input (fc_ya c) /\ val (fc_xa c) < val (fc_x c) /\ val (fc_ya c) < val y49 /\ bpow radix2 (-50) * val (fc_x c) <= val (fc_xa c).
Proof.
  cbn zeta. cbn [fc_x fc_xa fc_ya]. assert (V3 : val f3 = 3) by (unfold val, B2R, f3, F2R, cond_Zopp; cbn [Fnum Fexp]; simpl (bpow _ _); lra).
  split; [split; amt |]. split; [unfold fc_y; cbn [fc_k fc_x]; apply fdiv_is; vm_compute; reflexivity |]. split; [amt |]. split; [apply input_of; amt |]. split; [apply input_of; amt |].
  rewrite V3, val_one. split; [lra |]. split; [unfold val, B2R, y49, F2R, cond_Zopp; cbn [Fnum Fexp]; simpl (bpow _ _); lra |].
  assert (bpow radix2 (-50) <= / 4) by (change (/ 4) with (bpow radix2 (-2)); apply bpow_le; lia). lra.
Qed.
