(** Orders of Carbon given by their prices, as constant product curves in double precision. *)
From Coq Require Import ZArith Reals Bool List Lia Lra.
From Flocq Require Import Core IEEE754.BinarySingleNaN IEEE754.Binary IEEE754.Bits.
From Verif Require Import CurveModel FpModel FpSpec FpProofs FpProofs2 FpCpcModel FpCpcSpec FpCpcProofs FpOrderProps FpCpcProps FpCpc2Model FpCpc2Spec FpCpc2Proofs FpCpc2Props FpCpc3Model FpCpc3Spec FpCpc3Proofs.
Local Open Scope R_scope.

(** ** C182 Orders given by their prices, with floats *)
(** A and B are the roots of the prices, A up to the root of the larger one; A is never negative *)
Theorem C182_prices : forall pa pb, price pa -> price pb -> val pb < val pa -> roots_of (-51) (fc_prices false pa pb) (val pa) (val pb).
Proof. exact prices_ok. Qed.
Print Assumptions C182_prices.
(** A is not zero unless the prices are next to each other *)
Theorem C182_apart : forall pa pb A B, price pa -> price pb -> val pb * (1 + bpow radix2 (-50)) <= val pa -> fc_prices false pa pb = Ret (A, B) -> amount A.
Proof. exact prices_apart. Qed.
Print Assumptions C182_apart.
(** equal prices are moved apart by 1.0000001 each, which leaves half of the digits of A *)
Theorem C182_equal : forall pa pb, price pa -> price pb -> val pa = val pb -> let p := val pa in let w := val fwiden in
  exists A B, fc_prices false pa pb = Ret (A, B) /\ amount A /\ finite B /\
    Rabs (val A - (sqrt (p * w) - sqrt (p / w))) <= bpow radix2 (-25) * (sqrt (p * w) - sqrt (p / w)) /\ Rabs (val B - sqrt (p / w)) <= bpow radix2 (-51) * sqrt (p / w).
Proof. exact prices_equal. Qed.
Print Assumptions C182_equal.
(** this factor is the double nearest to 1.0000001: the difference is below half of its last place *)
Theorem C182_widen : Rabs (val fwiden - 10000001 / 10000000) < bpow radix2 (-53).
Proof. unfold val, B2R, fwiden, F2R, cond_Zopp. cbn [Fnum Fexp]. simpl (bpow _ _). apply Rabs_def1; lra. Qed.
Print Assumptions C182_widen.
(** prices in the wrong order are refused *)
Theorem C182_refused : forall pa pb, finite pa -> finite pb -> val pa < val pb -> fc_prices false pa pb = Raise AssertionError.
Proof. exact prices_refused. Qed.
Print Assumptions C182_refused.
(** prices in the other direction: their inverses, which keep their order or become equal *)
Theorem C182_inverse : forall pa pb qa qb, price pa -> price pb -> fdiv fone pa = Ret qa -> fdiv fone pb = Ret qb ->
  fc_prices true pa pb = fc_prices false qa qb /\ (val pa < val pb -> val qb <= val qa) /\ (val qb < val qa -> roots_of (-50) (fc_prices true pa pb) (/ val pa) (/ val pb)).
Proof. exact prices_inverse. Qed.
Print Assumptions C182_inverse.
(** the curve is that of the order given by these A and B, of which C181 speaks *)
Theorem C182_same : forall pw inv yint y pa pb A B, fc_prices inv pa pb = Ret (A, B) -> finite A -> 0 <= val A -> fc_from_carbon_p pw inv yint y pa pb = fc_from_carbon pw yint y A B.
Proof. exact carbon_p_same. Qed.
Print Assumptions C182_same.
Theorem C182_raise : forall pw inv yint y pa pb, finite yint -> finite y ->
  (val yint < val y \/ val y < 0 -> fc_from_carbon_p pw inv yint y pa pb = Raise AssertionError) /\
  (0 <= val y <= val yint -> forall e, fc_prices inv pa pb = Raise e -> fc_from_carbon_p pw inv yint y pa pb = Raise e).
Proof. exact carbon_p_raise. Qed.
Print Assumptions C182_raise.
(** orders with equal prices, or with prices that are not next to each other, can always be read *)
Theorem C182_read : forall pw yint y pa pb, accurate pw -> amount yint -> input y -> val y <= val yint -> price pa -> price pb -> val pa = val pb \/ val pb * (1 + bpow radix2 (-50)) <= val pa ->
  exists A B c, fc_prices false pa pb = Ret (A, B) /\ amount A /\ amount B /\ fc_from_carbon_p pw false yint y pa pb = Ret c /\ fc_ya c = y /\ val (fc_xa c) = 0 /\
    Rabs (val (fc_k c) - val yint ^ 2 / val A ^ 2) <= bpow radix2 (-49) * (val yint ^ 2 / val A ^ 2) /\
    Rabs (val (fc_x c) - val yint ^ 2 / val A ^ 2 / (val y + val yint * val B / val A)) <= bpow radix2 (-49) * (val yint ^ 2 / val A ^ 2 / (val y + val yint * val B / val A)).
Proof. exact carbon_p_read. Qed.
Print Assumptions C182_read.

(** 1 and the next double: an order between these prices cannot be read *)
Definition fnext : fl := B754_finite 53 1024 false 4503599627370497 (-52) eq_refl.
Theorem C182_order_refuted : exists pw yint y pa pb, accurate pw /\ amount yint /\ amount y /\ val y <= val yint /\ price pa /\ price pb /\ val pb < val pa /\ fc_from_carbon_p pw false yint y pa pb = Raise ZeroDivision.
Proof.
  assert (V : val fnext = 1 + bpow radix2 (-52)) by (unfold val, B2R, fnext, F2R, cond_Zopp; cbn [Fnum Fexp]; simpl (bpow _ _); lra).
  assert (e : 0 < bpow radix2 (-52) <= 1) by (split; [apply bpow_gt_0 | change 1 with (bpow radix2 0); apply bpow_le; lia]).
  assert (b : bpow radix2 (-90) <= 1) by (change 1 with (bpow radix2 0); apply bpow_le; lia). assert (b' : 2 <= bpow radix2 90) by (change 2 with (bpow radix2 1); apply bpow_le; lia).
  exists (fun f => fmul f f), f2, fone, fnext, fone. split; [exact square_accurate |]. do 2 (split; [amt |]).
  assert (V2 : val f2 = 2) by (unfold val, B2R, f2, F2R, cond_Zopp; cbn [Fnum Fexp]; simpl (bpow _ _); lra).
  split; [rewrite val_one, V2; lra |]. split; [split; [reflexivity | rewrite V; lra] |]. split; [split; [reflexivity | rewrite val_one; lra] |]. split; [rewrite V, val_one; lra |].
  rewrite (C182_same _ false f2 fone fnext fone fzero fone); [| | reflexivity | rewrite val_zero; lra].
  - apply C181_carbon_zero; try reflexivity. rewrite val_one, V2. lra.
  - unfold fc_prices. cbn [rbind]. replace (feq fnext fone) with false by (vm_compute; reflexivity). cbn [rbind]. replace (flt fone fnext) with true by (vm_compute; reflexivity). cbn [negb].
    assert (S1 : fsqrt fnext = Ret fone) by (unfold fsqrt; replace (flt fnext fzero) with false by (vm_compute; reflexivity); apply f_equal, bits_inj; vm_compute; reflexivity).
    assert (S2 : fsqrt fone = Ret fone) by (unfold fsqrt; replace (flt fone fzero) with false by (vm_compute; reflexivity); apply f_equal, bits_inj; vm_compute; reflexivity).
    rewrite S1, S2. cbn [rbind]. replace (fsub fone fone) with fzero by (apply bits_inj; vm_compute; reflexivity). reflexivity.
Qed.
Print Assumptions C182_order_refuted.

(** prices of 3 and 2, a capacity of 14 and a balance of 11 *)
Example C182_ex : price f3 /\ price f2 /\ val f2 < val f3 /\ val f2 * (1 + bpow radix2 (-50)) <= val f3 /\ amount f14 /\ input f11_ /\ val f11_ <= val f14 /\ accurate (fun f => fmul f f) /\ (exists qa, fdiv fone f3 = Ret qa) /\ (exists qb, fdiv fone f2 = Ret qb).
Proof.
  assert (V2 : val f2 = 2) by (unfold val, B2R, f2, F2R, cond_Zopp; cbn [Fnum Fexp]; simpl (bpow _ _); lra).
  assert (V3 : val f3 = 3) by (unfold val, B2R, f3, F2R, cond_Zopp; cbn [Fnum Fexp]; simpl (bpow _ _); lra).
  assert (V14 : val f14 = 14) by (unfold val, B2R, f14, F2R, cond_Zopp; cbn [Fnum Fexp]; simpl (bpow _ _); lra).
  assert (V11 : val f11_ = 11) by (unfold val, B2R, f11_, F2R, cond_Zopp; cbn [Fnum Fexp]; simpl (bpow _ _); lra).
  assert (b : bpow radix2 (-90) <= 1) by (change 1 with (bpow radix2 0); apply bpow_le; lia). assert (b' : 4 <= bpow radix2 90) by (change 4 with (bpow radix2 2); apply bpow_le; lia).
  assert (e : bpow radix2 (-50) <= / 4) by (change (/ 4) with (bpow radix2 (-2)); apply bpow_le; lia).
  split; [split; [reflexivity | rewrite V3; lra] |]. split; [split; [reflexivity | rewrite V2; lra] |]. rewrite V2, V3, V14, V11. split; [lra |]. split; [lra |]. split; [amt |]. split; [apply input_of; amt |]. split; [lra |]. split; [exact square_accurate |].
  split; apply fdiv_some; vm_compute; reflexivity.
Qed.
