(** Encoded orders in double precision. *)
From Coq Require Import ZArith QArith Qreals Reals Bool Lia Lra String.
From Flocq Require Import Core IEEE754.BinarySingleNaN IEEE754.Binary IEEE754.Bits.
From Verif Require Import TradeModel CurveModel SdkModel FpModel FpSpec FpProofs FpProofs2 FpSdkModel FpSdkProofs FpSdkProofs2 FpProps.
Local Open Scope R_scope.

(** ** C174 encoded orders in double precision *)
(** encoding doubles is encoding rational numbers next to them, so C108 applies *)
Theorem C174_encode : forall y hi lo z t, finite hi -> fits 100 (val hi) -> finite lo -> fits 100 (val lo) ->
  exists qh ql : Q, Rabs (Q2R qh - val hi) <= bpow radix2 (-51) * val hi /\ Rabs (Q2R ql - val lo) <= bpow radix2 (-51) * val lo /\
    (val lo <= val hi -> (ql <= qh)%Q) /\ (0 <= ql)%Q /\
    feo_encode y hi lo z t = eo_encode (inject_Z y) qh ql None (option_map inject_Z z) t.
Proof. exact encode_same. Qed.
Print Assumptions C174_encode.
Theorem C174_negative : forall y hi lo z t, (finite hi /\ val hi < 0) \/ (finite hi /\ fits 100 (val hi) /\ finite lo /\ val lo < 0) ->
  feo_encode y hi lo z t = Raise ValueError.
Proof. exact encode_neg. Qed.
Print Assumptions C174_negative.
(** decoding is exact *)
Theorem C174_decode : forall v, (0 <= v / 2 ^ 48 <= 200)%Z ->
  exists f q, feo_decode v = Ret f /\ eo_decode v = Ret q /\ finite f /\ val f = Q2R q.
Proof. intros v H. destruct (decode_same v H) as (f & q & H1 & H2 & H3 & H4 & _). exists f, q. auto. Qed.
Print Assumptions C174_decode.
Theorem C174_p_end : forall o, (0 <= eo_B o / 2 ^ 48 <= 200)%Z ->
  exists f q, feo_p_end o = Ret f /\ eo_p_end o = Ret q /\ close (bpow radix2 (-52)) f (Q2R q).
Proof. exact p_end_same. Qed.
Print Assumptions C174_p_end.
Theorem C174_p_start : forall pw o, accurate pw -> (0 <= eo_A o / 2 ^ 48 <= 200)%Z -> (0 <= eo_B o / 2 ^ 48 <= 200)%Z ->
  exists f q, feo_p_start pw o = Ret f /\ eo_p_start o = Ret q /\ close (bpow radix2 (-50)) f (Q2R q).
Proof. exact p_start_same. Qed.
Print Assumptions C174_p_start.
(** the marginal price of a full and of an empty order is the start and the end price; of others it raises *)
Theorem C174_p_marg : forall pw o, feo_p_marg pw o =
  if Z.eq_dec (eo_y o) (eo_z o) then feo_p_start pw o else if Z.eq_dec (eo_y o) 0 then feo_p_end o else Raise RuntimeError.
Proof.
  intros pw o. unfold feo_p_marg. destruct (Z.eqb_spec (eo_y o) (eo_z o)); destruct (Z.eq_dec (eo_y o) (eo_z o)); try contradiction; try reflexivity.
  destruct (Z.eqb_spec (eo_y o) 0); destruct (Z.eq_dec (eo_y o) 0); try contradiction; reflexivity.
Qed.
Print Assumptions C174_p_marg.
(** from prices to prices *)
Theorem C174_range : forall pw y hi lo z t, accurate pw -> (0 <= y)%Z -> (match z with Some z => 0 <= z | None => True end)%Z ->
  finite hi -> fits 100 (val hi) -> finite lo -> fits 100 (val lo) -> val lo <= val hi ->
  exists o pe ps, feo_encode y hi lo z t = Ret o /\ eo_y o = y /\ eo_z o = match z with Some z => z | None => y end /\
    feo_p_end o = Ret pe /\ feo_p_start pw o = Ret ps /\ finite pe /\ finite ps /\
    0 <= val pe /\ val pe <= val lo * (1 + bpow radix2 (-49)) /\ sqrt (val lo) <= sqrt (val pe) * (1 + bpow radix2 (-46)) + bpow radix2 (-47) /\
    0 <= val ps /\ val ps <= val hi * (1 + bpow radix2 (-49)) /\ sqrt (val hi) <= sqrt (val ps) * (1 + bpow radix2 (-44)) + bpow radix2 (-46).
Proof. exact range_same. Qed.
Print Assumptions C174_range.
(** in double precision the end price can be above the price asked for *)
Definition v_up : fl := B754_finite 53 1024 false 4503599627395072 (-68) eq_refl.
Theorem C174_below_refuted : exists v o q, finite v /\ fits 100 (val v) /\ feo_encode 1 v v None None = Ret o /\ eo_p_end o = Ret q /\ val v < Q2R q.
Proof.
  assert (V : val v_up = 4503599627395072 * bpow radix2 (-68)) by reflexivity.
  assert (V2 : val v_up = 4503599627395072 / 295147905179352825856).
  { rewrite V. change (bpow radix2 (-68)) with (/ IZR 295147905179352825856). reflexivity. }
  exists v_up. do 2 eexists. split; [reflexivity |]. split.
  - right. rewrite V. change 4503599627395072 with (IZR 4503599627395072). split.
    + apply Rle_trans with (1 * bpow radix2 (-68)); [rewrite Rmult_1_l; apply bpow_le; lia |]. apply Rmult_le_compat_r; [apply bpow_ge_0 | lra].
    + apply Rle_trans with (bpow radix2 53 * bpow radix2 (-68)); [apply Rmult_le_compat_r; [apply bpow_ge_0 | change (bpow radix2 53) with (IZR 9007199254740992); lra] |].
      rewrite <- bpow_plus. apply bpow_le. lia.
  - split; [vm_compute; reflexivity |]. split; [vm_compute; reflexivity |]. rewrite V2. unfold Q2R. cbn [Qnum Qden]. lra.
Qed.
Print Assumptions C174_below_refuted.
Example C174_ex : accurate sq /\ finite fthree /\ fits 100 (val fthree) /\ fits 100 (val ftwo) /\ val ftwo <= val fthree /\
  feo_encode 1000 fthree ftwo (Some 1200%Z) (Some "USDC"%string) = Ret (mkEorder "USDC" 1000 1200 89463231189262 480507841477086) /\
  (0 <= 480507841477086 / 2 ^ 48 <= 200)%Z.
Proof.
  split; [exact sq_accurate |]. split; [reflexivity |]. split; [apply fits_mid; rewrite val_three; lra |]. split; [apply fits_mid; rewrite val_two; lra |].
  split; [rewrite val_two, val_three; lra |]. split; [vm_compute; reflexivity |]. split; discriminate.
Qed.
