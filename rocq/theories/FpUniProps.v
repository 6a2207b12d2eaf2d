(** Prices of Uniswap v3 pools in double precision. *)
From Coq Require Import ZArith Reals Bool List Lia Lra.
From Flocq Require Import Core IEEE754.BinarySingleNaN IEEE754.Binary IEEE754.Bits.
From Verif Require Import CurveModel FpModel FpSpec FpProofs FpProofs2 FpCpcSpec FpCpcProofs FpOrderProps FpCpcProps FpUniModel FpUniSpec FpUniProofs.
Local Open Scope R_scope.

(** ** C184 Prices of the Uniswap v3 calculator with floats *)
Theorem C184_price : forall s, root_price s -> finite (u_price_f s) /\ Rabs (val (u_price_f s) - IZR (s ^ 2) / IZR (2 ^ 192)) <= bpow radix2 (-52) * (IZR (s ^ 2) / IZR (2 ^ 192)).
Proof. exact price_ok. Qed.
Print Assumptions C184_price.
(** a larger root never has a smaller price *)
Theorem C184_monotone : forall s t, root_price s -> root_price t -> (s <= t)%Z -> val (u_price_f s) <= val (u_price_f t).
Proof. exact price_mono. Qed.
Print Assumptions C184_monotone.
(** with decimals, in both directions *)
Theorem C184_decimals : forall s d, root_price s -> factor d -> let P := IZR (s ^ 2) / IZR (2 ^ 192) * val d in
  exists q, finite (u_p s d) /\ Rabs (val (u_p s d) - P) <= bpow radix2 (-51) * P /\ u_p_inv s d = Ret q /\ finite q /\ Rabs (val q - / P) <= bpow radix2 (-51) * / P.
Proof. exact p_ok. Qed.
Print Assumptions C184_decimals.
(** back from a price, and there and back *)
Theorem C184_from_price : forall p, amount p -> exists r, u_sp96_from_price p = Ret r /\ finite r /\ Rabs (val r - sqrt (val p) * IZR (2 ^ 96)) <= bpow radix2 (-51) * (sqrt (val p) * IZR (2 ^ 96)).
Proof. exact from_price_ok. Qed.
Print Assumptions C184_from_price.
Theorem C184_roundtrip : forall s, root_price s -> exists r, u_sp96_from_price (u_price_f s) = Ret r /\ finite r /\ Rabs (val r - IZR s) <= bpow radix2 (-51) * IZR s.
Proof. exact roundtrip. Qed.
Print Assumptions C184_roundtrip.
(** the reserve of token 1 is never negative if the price computed is in the range *)
Theorem C184_reserve : forall l s d pa, (0 <= l < 2 ^ 128)%Z -> root_price s -> factor d -> finite pa -> 0 <= val pa -> fits 390 (val pa) -> val pa <= val (u_p s d) ->
  exists r, u_tkn1reserve l s d pa = Ret r /\ finite r /\ 0 <= val r.
Proof. exact reserve_ok. Qed.
Print Assumptions C184_reserve.
(** and is accurate relative to that of a pool reaching down to a price of zero *)
Theorem C184_reserve_near : forall l s d pa, (0 <= l < 2 ^ 128)%Z -> root_price s -> factor d -> finite pa -> fits 98 (val pa) -> val pa <= val (u_p s d) ->
  let P := IZR (s ^ 2) / IZR (2 ^ 192) * val d in fits 98 P ->
  exists r, u_tkn1reserve l s d pa = Ret r /\ Rabs (val r - IZR l * (sqrt P - sqrt (val pa)) * val d) <= bpow radix2 (-49) * (IZR l * sqrt P * val d).
Proof. exact reserve_near. Qed.
Print Assumptions C184_reserve_near.
(** two roots that are not the same can have the same price: sp96 cannot be recovered from it *)
Theorem C184_injective_refuted : exists s t, root_price s /\ root_price t /\ (s < t)%Z /\ u_price_f s = u_price_f t.
Proof.
  exists (2 ^ 96)%Z, (2 ^ 96 + 1)%Z. split; [unfold root_price; lia |]. split; [unfold root_price; lia |]. split; [lia |]. apply bits_inj. vm_compute. reflexivity.
Qed.
Print Assumptions C184_injective_refuted.

(** the root of the pool in the repository's tests, and prices of at least 1 *)
Example C184_ex : root_price 1725337071198080486317035748446190 /\ factor f2 /\ amount f2 /\ finite fone /\ fits 390 (val fone) /\ fits 98 (val fone) /\ val fone <= val (u_p (2 ^ 96) f2) /\ fits 98 (IZR ((2 ^ 96) ^ 2) / IZR (2 ^ 192) * val f2).
Proof.
  assert (V2 : val f2 = 2) by (unfold val, B2R, f2, F2R, cond_Zopp; cbn [Fnum Fexp]; simpl (bpow _ _); lra).
  assert (A : amount f2) by amt. split; [unfold root_price; lia |]. split; [split; [apply A |]; split; [right; rewrite V2; change 2 with (bpow radix2 1); split; apply bpow_le; lia | lra] |]. split; [exact A |]. split; [reflexivity |].
  do 2 (split; [right; rewrite val_one; change 1 with (bpow radix2 0); split; apply bpow_le; lia |]).
  replace (u_p (2 ^ 96) f2) with f2 by (apply bits_inj; vm_compute; reflexivity). rewrite val_one, V2. split; [lra |].
  replace (IZR ((2 ^ 96) ^ 2) / IZR (2 ^ 192) * 2) with 2 by (change ((2 ^ 96) ^ 2)%Z with (2 ^ 192)%Z; field; apply IZR_neq; lia). right. change 2 with (bpow radix2 1). split; apply bpow_le; lia.
Qed.
