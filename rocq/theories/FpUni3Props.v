(** The total value locked of Uniswap v3 pools in double precision. *)
From Coq Require Import ZArith Reals Bool List Lia Lra.
From Flocq Require Import Core IEEE754.BinarySingleNaN IEEE754.Binary IEEE754.Bits.
From Verif Require Import CurveModel FpModel FpSpec FpProofs FpProofs2 FpCpcSpec FpCpcProofs FpOrderProps FpCpcProps FpUniModel FpUniSpec FpUniProofs FpUni2Model FpUni3Model FpUni3Proofs.
Local Open Scope R_scope.

(** ** C186 The total value locked with floats, in token 0 (k true) and in token 1: never negative if the price
    computed is in the range, and accurate relative to a pool without ends *)
Theorem C186_tvl : forall l s d pa pb k, (0 <= l < 2 ^ 128)%Z -> root_price s -> factor d -> finite pa -> finite pb -> fits 98 (val pa) -> fits 98 (val pb) -> val pa <= val (u_p s d) <= val pb ->
  let P := IZR (s ^ 2) / IZR (2 ^ 192) * val d in fits 98 P ->
  let T := IZR l * (/ sqrt P - / sqrt (val pb)) * val d + IZR l * (sqrt P - sqrt (val pa)) * val d / P in
  let E := IZR l / sqrt P * val d in
  exists t, u_tvl l s d pa pb k = Ret t /\ finite t /\ 0 <= val t /\ Rabs (val t - (if k then T else T * P)) <= bpow radix2 (-47) * (if k then E else E * P).
Proof. exact tvl_ok. Qed.
Print Assumptions C186_tvl.

(** a price of 1 in a range from 1 to 2 *)
Example C186_ex : root_price (2 ^ 96) /\ factor fone /\ finite fone /\ finite f2 /\ fits 98 (val fone) /\ fits 98 (val f2) /\ val fone <= val (u_p (2 ^ 96) fone) <= val f2 /\ fits 98 (IZR ((2 ^ 96) ^ 2) / IZR (2 ^ 192) * val fone).
Proof.
  assert (V2 : val f2 = 2) by (unfold val, B2R, f2, F2R, cond_Zopp; cbn [Fnum Fexp]; simpl (bpow _ _); lra).
  replace (u_p (2 ^ 96) fone) with fone by (apply bits_inj; vm_compute; reflexivity). rewrite V2, val_one. split; [unfold root_price; lia |].
  split; [split; [reflexivity |]; split; [right; rewrite val_one; change 1 with (bpow radix2 0); split; apply bpow_le; lia | rewrite val_one; lra] |]. split; [reflexivity |]. split; [reflexivity |].
  split; [right; change 1 with (bpow radix2 0); split; apply bpow_le; lia |]. split; [right; change 2 with (bpow radix2 1); split; apply bpow_le; lia |]. split; [lra |].
  replace (IZR ((2 ^ 96) ^ 2) / IZR (2 ^ 192) * 1) with 1 by (change ((2 ^ 96) ^ 2)%Z with (2 ^ 192)%Z; field; apply IZR_neq; lia). right; change 1 with (bpow radix2 0); split; apply bpow_le; lia.
Qed.
