(** The reserve of token 0 of Uniswap v3 pools in double precision. *)
From Coq Require Import ZArith Reals Bool List Lia Lra.
From Flocq Require Import Core IEEE754.BinarySingleNaN IEEE754.Binary IEEE754.Bits.
From Verif Require Import CurveModel FpModel FpSpec FpProofs FpProofs2 FpCpcSpec FpCpcProofs FpOrderProps FpCpcProps FpUniModel FpUniSpec FpUniProofs FpUni2Model FpUni2Proofs.
Local Open Scope R_scope.

(** ** C185 The reserve of token 0 with floats: never negative if the price computed is in the range, and accurate
    relative to that of a pool without an upper end *)
Theorem C185_reserve0 : forall l s d pb, (0 <= l < 2 ^ 128)%Z -> root_price s -> factor d -> finite pb -> fits 98 (val pb) -> val (u_p s d) <= val pb ->
  let P := IZR (s ^ 2) / IZR (2 ^ 192) * val d in fits 98 P ->
  exists r, u_tkn0reserve l s d pb = Ret r /\ finite r /\ 0 <= val r /\ Rabs (val r - IZR l * (/ sqrt P - / sqrt (val pb)) * val d) <= bpow radix2 (-49) * (IZR l / sqrt P * val d).
Proof. exact reserve0_near. Qed.
Print Assumptions C185_reserve0.
(** at the upper end of the range nothing is left, exactly *)
Theorem C185_end : forall l s d, (0 <= l < 2 ^ 128)%Z -> root_price s -> factor d -> fits 98 (val (u_p s d)) -> fits 98 (IZR (s ^ 2) / IZR (2 ^ 192) * val d) ->
  exists r, u_tkn0reserve l s d (u_p s d) = Ret r /\ val r = 0.
Proof. exact reserve0_end. Qed.
Print Assumptions C185_end.

(** a price of 1 in a range up to 2 *)
Example C185_ex : root_price (2 ^ 96) /\ factor fone /\ finite f2 /\ fits 98 (val f2) /\ val (u_p (2 ^ 96) fone) <= val f2 /\ fits 98 (val (u_p (2 ^ 96) fone)) /\ fits 98 (IZR ((2 ^ 96) ^ 2) / IZR (2 ^ 192) * val fone).
Proof.
  assert (V2 : val f2 = 2) by (unfold val, B2R, f2, F2R, cond_Zopp; cbn [Fnum Fexp]; simpl (bpow _ _); lra).
  replace (u_p (2 ^ 96) fone) with fone by (apply bits_inj; vm_compute; reflexivity). rewrite V2, val_one. split; [unfold root_price; lia |].
  split; [split; [reflexivity |]; split; [right; rewrite val_one; change 1 with (bpow radix2 0); split; apply bpow_le; lia | rewrite val_one; lra] |]. split; [reflexivity |].
  split; [right; change 2 with (bpow radix2 1); split; apply bpow_le; lia |]. split; [lra |].
  replace (IZR ((2 ^ 96) ^ 2) / IZR (2 ^ 192) * 1) with 1 by (change ((2 ^ 96) ^ 2)%Z with (2 ^ 192)%Z; field; apply IZR_neq; lia). split; right; change 1 with (bpow radix2 0); split; apply bpow_le; lia.
Qed.
