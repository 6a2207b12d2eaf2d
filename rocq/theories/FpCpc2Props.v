(** Pools of Uniswap and Carbon as constant product curves in double precision. *)
From Coq Require Import ZArith Reals Bool List Lia Lra.
From Flocq Require Import Core IEEE754.BinarySingleNaN IEEE754.Binary IEEE754.Bits.
From Verif Require Import CurveModel FpModel FpSpec FpProofs FpProofs2 FpCpcModel FpCpcSpec FpCpcProofs FpCpcProofs2 FpOrderProps FpCpcProps FpCpc2Model FpCpc2Spec FpCpc2Proofs.
Local Open Scope R_scope.

(** ** C181 Pools as curves computed with floats *)
(** a pool of Uniswap v2 from its balances: no upper end, and a lower end of zero up to rounding *)
Theorem C181_univ2_xy : forall x y, amount x -> amount y -> fits 99 (val y) -> exists c, fc_from_univ2 (Some x) (Some y) None = Ret c /\ c = mkFcpc (fmul x y) x x y /\
  val (fc_x_min c) = 0 /\ fc_p_max c = Ret None /\ small_end c (val y) (val y / val x).
Proof. exact univ2_xy. Qed.
Print Assumptions C181_univ2_xy.
Theorem C181_univ2_ky : forall k y, amount k -> amount y -> fits 99 (val y) -> exists c x, fc_from_univ2 None (Some y) (Some k) = Ret c /\ fdiv k y = Ret x /\ c = mkFcpc k x x y /\
  val (fc_x_min c) = 0 /\ fc_p_max c = Ret None /\ small_end c (val y) (val y * val y / val k).
Proof. exact univ2_ky. Qed.
Print Assumptions C181_univ2_ky.
(** from k and x there is no range at all *)
Theorem C181_univ2_kx : forall k x, amount k -> amount x -> exists c y, fc_from_univ2 (Some x) None (Some k) = Ret c /\ fdiv k x = Ret y /\ c = mkFcpc k x x y /\
  val (fc_x_min c) = 0 /\ fc_p_max c = Ret None /\ (exists m, fc_y_min c = Ret m /\ val m = 0) /\ fc_p_min c = Ret None.
Proof. exact univ2_kx. Qed.
Print Assumptions C181_univ2_kx.
(** a pool with a range: the actual balances are never negative and are accurate relative to the virtual ones *)
Theorem C181_pkpp : forall p k p_min p_max, amount p -> amount k -> amount p_min -> amount p_max -> val p_min <= val p <= val p_max ->
  exists c, fc_from_pkpp p k p_min p_max = Ret c /\ fc_k c = k /\ finite (fc_xa c) /\ finite (fc_ya c) /\
    Rabs (val (fc_x c) - sqrt (val k / val p)) <= bpow radix2 (-49) * sqrt (val k / val p) /\ 0 <= val (fc_xa c) <= val (fc_x c) /\ 0 <= val (fc_ya c) /\
    Rabs (val (fc_xa c) - (sqrt (val k / val p) - sqrt (val k / val p_max))) <= bpow radix2 (-50) * sqrt (val k / val p) /\
    Rabs (val (fc_ya c) - (sqrt (val k * val p) - sqrt (val k * val p_min))) <= bpow radix2 (-50) * sqrt (val k * val p).
Proof. exact pkpp_ok. Qed.
Print Assumptions C181_pkpp.
(** a pool of Uniswap v3 is such a pool, and its price must be inside of its range *)
Theorem C181_univ3 : forall P L Pa Pb, finite P -> finite Pa -> finite Pb ->
  (val Pa < val P < val Pb -> fc_from_univ3 P L Pa Pb = fc_from_pkpp P (fmul L L) Pa Pb) /\
  (~ val Pa < val P < val Pb -> fc_from_univ3 P L Pa Pb = Raise AssertionError).
Proof. exact univ3_ok. Qed.
Print Assumptions C181_univ3.
(** an order of Carbon *)
Theorem C181_carbon : forall pw yint y A B, accurate pw -> amount yint -> input y -> amount A -> input B -> val y <= val yint -> 0 < val y + val yint * val B / val A ->
  exists c y' m, fc_from_carbon pw yint y A B = Ret c /\ fc_ya c = y /\ val (fc_xa c) = 0 /\ val (fc_x_min c) = val (fc_x c) /\ fc_y c = Ret y' /\ fc_y_min c = Ret m /\
    Rabs (val (fc_k c) - val yint ^ 2 / val A ^ 2) <= bpow radix2 (-49) * (val yint ^ 2 / val A ^ 2) /\
    Rabs (val (fc_x c) - val yint ^ 2 / val A ^ 2 / (val y + val yint * val B / val A)) <= bpow radix2 (-49) * (val yint ^ 2 / val A ^ 2 / (val y + val yint * val B / val A)) /\
    Rabs (val y' - (val y + val yint * val B / val A)) <= bpow radix2 (-50) * (val y + val yint * val B / val A) /\
    Rabs (val m - val yint * val B / val A) <= bpow radix2 (-50) * (val y + val yint * val B / val A).
Proof. exact carbon_ok. Qed.
Print Assumptions C181_carbon.
(** an order with a single price cannot be read *)
Theorem C181_carbon_zero : forall pw yint y A B, finite yint -> finite y -> finite A -> 0 <= val y <= val yint -> val A = 0 -> fc_from_carbon pw yint y A B = Raise ZeroDivision.
Proof. exact carbon_zero. Qed.
Print Assumptions C181_carbon_zero.
(** such an order, of which x_act is 0, is at the upper end of its range: its highest price is the same double as its price *)
Theorem C181_top_price : forall c p, finite (fc_x c) -> 0 < val (fc_x c) -> val (fc_x c) <= bpow radix2 900 -> fc_xa c = fzero -> fc_p c = Ret p -> fc_p_max c = Ret (Some p) /\ fc_x_min c = fc_x c.
Proof. exact top_price. Qed.
Print Assumptions C181_top_price.
(** the ends of the range, from the smallest balances *)
Theorem C181_low_end : forall c m, fc_y_min c = Ret m -> finite m ->
  (val m <= 0 -> fc_x_max c = Ret None /\ fc_p_min c = Ret None) /\
  (amount (fc_k c) -> amount m -> exists q r, fc_x_max c = Ret (Some q) /\ Rabs (val q - val (fc_k c) / val m) <= bpow radix2 (-52) * (val (fc_k c) / val m) /\
     fc_p_min c = Ret (Some r) /\ Rabs (val r - val m * val m / val (fc_k c)) <= bpow radix2 (-50) * (val m * val m / val (fc_k c))).
Proof. exact low_ok. Qed.
Print Assumptions C181_low_end.
Theorem C181_high_end : forall c, finite (fc_x_min c) -> let m := fc_x_min c in
  (val m <= 0 -> fc_y_max c = Ret None /\ fc_p_max c = Ret None) /\
  (amount (fc_k c) -> amount m -> exists q r, fc_y_max c = Ret (Some q) /\ Rabs (val q - val (fc_k c) / val m) <= bpow radix2 (-52) * (val (fc_k c) / val m) /\
     fc_p_max c = Ret (Some r) /\ Rabs (val r - val (fc_k c) / (val m * val m)) <= bpow radix2 (-50) * (val (fc_k c) / (val m * val m))).
Proof. exact high_ok. Qed.
Print Assumptions C181_high_end.
(** the state of a curve at a price *)
Theorem C181_xyfromp : forall c p, amount (fc_k c) -> amount p -> exists x y, fc_xyfromp c (Some p) true = Ret (x, y, p) /\ finite x /\ finite y /\
  Rabs (val x - sqrt (val (fc_k c) / val p)) <= bpow radix2 (-49) * sqrt (val (fc_k c) / val p) /\
  Rabs (val y - sqrt (val (fc_k c) * val p)) <= bpow radix2 (-49) * sqrt (val (fc_k c) * val p).
Proof. exact xyfromp_ok. Qed.
Print Assumptions C181_xyfromp.
(** inside of the range of the curve *)
Theorem C181_bounded : forall c p x y q, fc_xyfromp c p false = Ret (x, y, q) -> exists x0 y0 ym xM yM, fc_xyfromp c p true = Ret (x0, y0, q) /\ fc_y_min c = Ret ym /\ fc_x_max c = Ret xM /\ fc_y_max c = Ret yM /\
  (finite (fc_x_min c) -> all_finite xM -> finite x0 -> below (fc_x_min c) xM -> val (fc_x_min c) <= val x /\ below x xM /\ (val (fc_x_min c) <= val x0 -> below x0 xM -> x = x0) /\ (x = x0 \/ x = fc_x_min c \/ xM = Some x)) /\
  (finite ym -> all_finite yM -> finite y0 -> below ym yM -> val ym <= val y /\ below y yM /\ (val ym <= val y0 -> below y0 yM -> y = y0) /\ (y = y0 \/ y = ym \/ yM = Some y)).
Proof. exact bounded_ok. Qed.
Print Assumptions C181_bounded.

(** concrete doubles *)
Definition f14 : fl := B754_finite 53 1024 false 7881299347898368 (-49) eq_refl.
Definition f11_ : fl := B754_finite 53 1024 false 6192449487634432 (-49) eq_refl.
Definition f196 : fl := B754_finite 53 1024 false 6896136929411072 (-45) eq_refl.
Definition fx : fl := B754_finite 53 1024 false 5015372312298961 (-48) eq_refl.
Definition fy11 : fl := B754_finite 53 1024 false 6192449487634433 (-49) eq_refl.
Definition fm11 : fl := B754_finite 53 1024 false 4503599627370496 (-101) eq_refl.
Definition k01 : fl := B754_finite 53 1024 false 5764607523034236 (-59) eq_refl.
Definition y01 : fl := B754_finite 53 1024 false 7205759403792795 (-56) eq_refl.
Definition m01 : fl := B754_finite 53 1024 false 4503599627370496 (-108) eq_refl.
Lemma fdiv_some : forall a b, feq b fzero = false -> exists q, fdiv a b = Ret q.
Proof. intros a b H. unfold fdiv. rewrite H. eexists. reflexivity. Qed.

(** a pool of 0.1 and 0.1, which has no range, has a lowest price *)
Theorem C181_univ2_refuted : exists x y c r, amount x /\ amount y /\ fc_from_univ2 (Some x) (Some y) None = Ret c /\ fc_p_min c = Ret (Some r).
Proof.
  assert (E1 : fmul ftenth ftenth = k01) by (apply bits_inj; vm_compute; reflexivity).
  assert (E2 : fdiv k01 ftenth = Ret y01) by (apply fdiv_is; vm_compute; reflexivity).
  assert (E3 : fsub y01 ftenth = m01) by (apply bits_inj; vm_compute; reflexivity).
  assert (G : exists q, fdiv k01 m01 = Ret q /\ feq q fzero = false /\ flt fzero q = true) by (eexists; unfold fdiv; replace (feq m01 fzero) with false by (vm_compute; reflexivity); split; [reflexivity |]; split; vm_compute; reflexivity).
  destruct G as (q & G1 & G2 & G3). destruct (fdiv_some m01 q G2) as (r & Er).
  exists ftenth, ftenth, (mkFcpc k01 ftenth ftenth ftenth), r. split; [amt |]. split; [amt |]. split.
  - unfold fc_from_univ2, fmake. rewrite E1, E2. reflexivity.
  - unfold fc_p_min, fc_x_max, fc_y_min, fc_y. cbn [fc_k fc_x fc_xa fc_ya]. rewrite E2. cbn [rbind]. rewrite E3. replace (flt fzero m01) with true by (vm_compute; reflexivity). rewrite G1. cbn [rbind]. rewrite G3, Er. reflexivity.
Qed.
Print Assumptions C181_univ2_refuted.
(** an order of Carbon that sells down to a price of zero has a positive lowest y *)
Theorem C181_carbon_refuted : exists pw yint y A c m, accurate pw /\ amount yint /\ amount y /\ amount A /\ fc_from_carbon pw yint y A fzero = Ret c /\ fc_y_min c = Ret m /\ 0 < val m /\ exists xM, fc_x_max c = Ret (Some xM).
Proof.
  assert (E1 : fmul f14 f14 = f196) by (apply bits_inj; vm_compute; reflexivity).
  assert (E2 : fmul fone fone = fone) by (apply bits_inj; vm_compute; reflexivity).
  assert (E3 : fdiv f196 fone = Ret f196) by (apply fdiv_is; vm_compute; reflexivity).
  assert (E4 : fmul f14 fzero = fzero) by (apply bits_inj; vm_compute; reflexivity).
  assert (E5 : fdiv fzero fone = Ret fzero) by (apply fdiv_is; vm_compute; reflexivity).
  assert (E6 : fadd f11_ fzero = f11_) by (apply bits_inj; vm_compute; reflexivity).
  assert (E7 : fdiv f196 f11_ = Ret fx) by (apply fdiv_is; vm_compute; reflexivity).
  assert (E8 : fdiv f196 fx = Ret fy11) by (apply fdiv_is; vm_compute; reflexivity).
  assert (E9 : fsub fy11 f11_ = fm11) by (apply bits_inj; vm_compute; reflexivity).
  exists (fun f => fmul f f), f14, f11_, fone, (mkFcpc f196 fx fzero f11_), fm11. split; [exact square_accurate |]. do 3 (split; [amt |]). split.
  - unfold fc_from_carbon, fmake. replace (fle f11_ f14) with true by (vm_compute; reflexivity). replace (fle fzero f11_) with true by (vm_compute; reflexivity). replace (fle fzero fone) with true by (vm_compute; reflexivity). cbn [negb].
    rewrite E4, E5. cbn [rbind]. rewrite E1, E2, E3. cbn [rbind]. rewrite E6, E7. cbn [rbind]. rewrite E8. reflexivity.
  - unfold fc_x_max, fc_y_min, fc_y. cbn [fc_k fc_x fc_xa fc_ya]. rewrite E8. cbn [rbind]. rewrite E9. split; [reflexivity |]. split; [apply Rmult_lt_0_compat; [apply IZR_lt; reflexivity | apply bpow_gt_0] |].
    replace (flt fzero fm11) with true by (vm_compute; reflexivity). destruct (fdiv_some f196 fm11) as (q & Eq); [vm_compute; reflexivity |]. rewrite Eq. eexists. reflexivity.
Qed.
Print Assumptions C181_carbon_refuted.

(** a price of 2 in the range from 1 to 3, a constant of 49; an order with a capacity of 14, a balance of 11, A = 1 and B = 2 *)
Example C181_ex : amount f2 /\ amount f49 /\ amount fone /\ amount f3 /\ val fone < val f2 < val f3 /\ fits 99 (val f2) /\ amount f14 /\ input f11_ /\ input f2 /\ val f11_ <= val f14 /\ 0 < val f11_ + val f14 * val f2 / val fone /\ accurate (fun f => fmul f f).
Proof.
  assert (V2 : val f2 = 2) by (unfold val, B2R, f2, F2R, cond_Zopp; cbn [Fnum Fexp]; simpl (bpow _ _); lra).
  assert (V3 : val f3 = 3) by (unfold val, B2R, f3, F2R, cond_Zopp; cbn [Fnum Fexp]; simpl (bpow _ _); lra).
  assert (V14 : val f14 = 14) by (unfold val, B2R, f14, F2R, cond_Zopp; cbn [Fnum Fexp]; simpl (bpow _ _); lra).
  assert (V11 : val f11_ = 11) by (unfold val, B2R, f11_, F2R, cond_Zopp; cbn [Fnum Fexp]; simpl (bpow _ _); lra).
  do 4 (split; [amt |]). rewrite val_one, V2, V3, V14, V11. split; [lra |]. split; [right; simpl (bpow _ _); lra |]. split; [amt |]. do 2 (split; [apply input_of; amt |]). split; [lra |]. split; [lra | exact square_accurate].
Qed.
(** the order above is at the upper end of its range *)
Example C181_top_ex : finite (fc_x (mkFcpc f196 fx fzero f11_)) /\ 0 < val fx /\ val fx <= bpow radix2 900 /\ exists p, fc_p (mkFcpc f196 fx fzero f11_) = Ret p.
Proof.
  assert (A : amount fx) by amt. split; [reflexivity |]. split; [apply A |]. split; [apply Rle_trans with (bpow radix2 100); [apply fits_up; apply A | apply bpow_le; lia] |].
  unfold fc_p, fc_y. cbn [fc_k fc_x]. rewrite (fdiv_is f196 fx fy11) by (vm_compute; reflexivity). cbn [rbind]. apply fdiv_some. vm_compute. reflexivity.
Qed.
(** the smallest balances of a pool of 3 with 1 that can be traded, and a constant of 49 *)
Example C181_end_ex : fc_x_min (mkFcpc f49 f3 fone fone) = f2 /\ amount f49 /\ amount f2.
Proof. split; [apply bits_inj; vm_compute; reflexivity |]. split; amt. Qed.
