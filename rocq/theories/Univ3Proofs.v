From Coq Require Import ZArith Reals Lra Lia.
From Verif Require Import HelperModel HelperProofs Univ3Model Univ3Spec.
Local Open Scope R_scope.

Lemma base_gt1 : 1 < 10001 / 10000. Proof. lra. Qed.
Lemma tick_price_pos t : 0 < tick_price t.
Proof. apply powerRZ_lt. lra. Qed.
Lemma decf_pos u : 0 < decf u.
Proof. apply powerRZ_lt. lra. Qed.
Lemma tick_price_add a b : tick_price (a + b) = tick_price a * tick_price b.
Proof. unfold tick_price. apply powerRZ_add. lra. Qed.

Lemma powerRZ_gt1 x z : 1 < x -> (0 < z)%Z -> 1 < powerRZ x z.
Proof.
  intros Hx Hz. destruct z as [|q|q]; [lia| |lia]. cbn [powerRZ].
  apply Rlt_pow_R1; [exact Hx|]. lia.
Qed.
Lemma powerRZ_strict x a b : 1 < x -> (a < b)%Z -> powerRZ x a < powerRZ x b.
Proof.
  intros Hx H. replace b with (a + (b - a))%Z by lia. rewrite powerRZ_add by lra.
  assert (H1 := powerRZ_gt1 x (b - a) Hx ltac:(lia)). assert (H2 : 0 < powerRZ x a) by (apply powerRZ_lt; lra).
  rewrite <- (Rmult_1_r (powerRZ x a)) at 1. apply Rmult_lt_compat_l; assumption.
Qed.
Lemma powerRZ_le_mono x a b : 1 < x -> (a <= b)%Z -> powerRZ x a <= powerRZ x b.
Proof.
  intros Hx H. destruct (Z.eq_dec a b) as [->|]; [lra|]. left. apply powerRZ_strict; [exact Hx|lia].
Qed.

Lemma papb_some u pa pb : papb u = Some (pa, pb) <->
  exists ta tb, tickab (tick u) (fee_const u) = Some (ta, tb) /\ pa = tick_price ta * decf u /\ pb = tick_price tb * decf u.
Proof.
  unfold papb, papb_raw. destruct (tickab (tick u) (fee_const u)) as [[ta tb]|].
  - split.
    + intros E. exists ta, tb. repeat split; congruence.
    + intros (a & b & E & -> & ->). congruence.
  - split; [discriminate|]. intros (a & b & E & _). discriminate.
Qed.

Lemma tickab_props t f a b : tickab t f = Some (a, b) -> (a <= t < b)%Z /\ ticksize f = Some (b - a)%Z.
Proof.
  unfold tickab. destruct (ticksize f) as [s|] eqn:E; [|discriminate]. intros H.
  assert (H' : tickab_of t s = (a, b)) by congruence.
  apply ticksize_cases in E as E'. apply tickab_of_ok in H'; [|lia]. destruct H' as (_ & _ & -> & H2).
  split; [exact H2|]. f_equal. lia.
Qed.

(** square roots of decimal factors *)
Definition sdec (z : Z) : R := sqrt (powerRZ 10 z).
Lemma sdec_pos z : 0 < sdec z.
Proof. apply sqrt_lt_R0, powerRZ_lt. lra. Qed.
Lemma sdec_sq z : sdec z * sdec z = powerRZ 10 z.
Proof. unfold sdec. apply sqrt_sqrt. left. apply powerRZ_lt. lra. Qed.
Lemma sdec_add a b : sdec (a + b) = sdec a * sdec b.
Proof. unfold sdec. rewrite powerRZ_add by lra. apply sqrt_mult; left; apply powerRZ_lt; lra. Qed.
Lemma sdec_0 : sdec 0 = 1.
Proof. unfold sdec. cbn [powerRZ]. apply sqrt_1. Qed.
Lemma sdec_one z : sdec z = 1 <-> z = 0%Z.
Proof.
  split; [|intros ->; exact sdec_0]. intros H. assert (E := sdec_sq z). rewrite H in E.
  destruct (Z.lt_trichotomy z 0) as [Hz|[Hz|Hz]]; [|exact Hz|].
  - assert (G := powerRZ_strict 10 z 0 ltac:(lra) Hz). cbn [powerRZ] in G. change (powerRZ 10 0) with 1 in G. lra.
  - assert (G := powerRZ_strict 10 0 z ltac:(lra) Hz). change (powerRZ 10 0) with 1 in G. lra.
Qed.

Lemma Rpower_half z : Rpower 10 (1 / 2 * IZR z) = sdec z.
Proof.
  assert (H : 0 < powerRZ 10 z) by (apply powerRZ_lt; lra).
  replace (1 / 2 * IZR z) with (IZR z * / 2) by lra. rewrite <- Rpower_mult.
  rewrite <- powerRZ_Rpower by lra. rewrite Rpower_sqrt by exact H. reflexivity.
Qed.

(** the raw price and its square root *)
Definition raw_sqrt (u : univ3) : R := IZR (sp96 u) / 2 ^ 96.
Lemma pow96_pos : 0 < 2 ^ 96. Proof. apply pow_lt. lra. Qed.
Lemma price_raw u : price_f (IZR (sp96 u)) = raw_sqrt u * raw_sqrt u.
Proof.
  unfold price_f, raw_sqrt. assert (H := pow96_pos).
  replace (2 ^ 192) with (2 ^ 96 * 2 ^ 96) by (rewrite <- pow_add; f_equal; lia).
  set (d := 2 ^ 96) in *. clearbody d. field. lra.
Qed.
Lemma sqrt_p u : (0 < sp96 u)%Z -> sqrt (p u) = raw_sqrt u * sdec (tkn0dec u - tkn1dec u).
Proof.
  intros H. assert (Hs : 0 < raw_sqrt u). { unfold raw_sqrt. apply Rdiv_lt_0_compat; [apply IZR_lt; exact H|apply pow96_pos]. }
  unfold p, decf. rewrite price_raw. rewrite sqrt_mult; [|apply Rmult_le_pos; lra|left; apply powerRZ_lt; lra].
  rewrite sqrt_square by lra. reflexivity.
Qed.
Lemma raw_sqrt_pos u : (0 < sp96 u)%Z -> 0 < raw_sqrt u.
Proof. intros H. unfold raw_sqrt. apply Rdiv_lt_0_compat; [apply IZR_lt; exact H|apply pow96_pos]. Qed.
Lemma p_pos u : (0 < sp96 u)%Z -> 0 < p u.
Proof.
  intros H. unfold p. rewrite price_raw. assert (H' := raw_sqrt_pos u H). assert (H2 := decf_pos u).
  apply Rmult_lt_0_compat; [apply Rmult_lt_0_compat; lra|lra].
Qed.
Lemma sqrt_tick u t : sqrt (tick_price t * decf u) = sqrt (tick_price t) * sdec (tkn0dec u - tkn1dec u).
Proof. unfold decf. rewrite sqrt_mult; [reflexivity|left; apply tick_price_pos|left; apply powerRZ_lt; lra]. Qed.

Lemma reserve0_value u ta tb : (0 < sp96 u)%Z -> tickab (tick u) (fee_const u) = Some (ta, tb) ->
  tkn0reserve u = Some (in_tokens (real_wei0 (IZR (liquidity u)) (raw_sqrt u) (sqrt (tick_price tb))) (tkn0dec u)
                        * sdec (3 * tkn0dec u - tkn1dec u)).
Proof.
  intros Hs Ht. assert (Hp := papb_some u (tick_price ta * decf u) (tick_price tb * decf u)).
  destruct Hp as [_ Hp]. unfold tkn0reserve. rewrite Hp by eauto. cbv zeta.
  rewrite sqrt_p, sqrt_tick by exact Hs.
  assert (H1 := raw_sqrt_pos u Hs). assert (H2 : 0 < sqrt (tick_price tb)) by (apply sqrt_lt_R0, tick_price_pos).
  set (d0 := tkn0dec u). set (d1 := tkn1dec u).
  assert (H3 := sdec_pos (d0 - d1)).
  assert (H4 := sdec_pos d0). 
  assert (E1 : decf u = sdec (d0 - d1) * sdec (d0 - d1)) by (rewrite sdec_sq; reflexivity).
  assert (E2 : sdec (3 * d0 - d1) = sdec d0 * sdec d0 * sdec (d0 - d1)).
  { rewrite <- !sdec_add. f_equal. lia. }
  rewrite E1, E2. unfold in_tokens, real_wei0. rewrite <- (sdec_sq d0).
  set (s := raw_sqrt u) in *. set (sb := sqrt (tick_price tb)) in *. set (q := sdec (d0 - d1)) in *. set (w := sdec d0) in *.
  clearbody s sb q w. clear Hp E1 E2.
  assert (H5 : 0 < s * q * (sb * q)) by (apply Rmult_lt_0_compat; apply Rmult_lt_0_compat; assumption).
  destruct (Req_EM_T (s * q * (sb * q)) 0); [lra|]. f_equal. field. lra.
Qed.

Lemma reserve1_value u ta tb : (0 < sp96 u)%Z -> tickab (tick u) (fee_const u) = Some (ta, tb) ->
  tkn1reserve u = Some (in_tokens (real_wei1 (IZR (liquidity u)) (raw_sqrt u) (sqrt (tick_price ta))) (tkn1dec u)
                        * sdec (3 * tkn0dec u - tkn1dec u)).
Proof.
  intros Hs Ht. assert (Hp := papb_some u (tick_price ta * decf u) (tick_price tb * decf u)).
  destruct Hp as [_ Hp]. unfold tkn1reserve. rewrite Hp by eauto.
  rewrite sqrt_p, sqrt_tick by exact Hs.
  set (d0 := tkn0dec u). set (d1 := tkn1dec u).
  assert (H3 := sdec_pos d1).
  assert (E1 : decf u = sdec (d0 - d1) * sdec (d0 - d1)) by (rewrite sdec_sq; reflexivity).
  assert (E2 : sdec (3 * d0 - d1) = sdec d1 * sdec d1 * (sdec (d0 - d1) * sdec (d0 - d1) * sdec (d0 - d1))).
  { rewrite <- !sdec_add. f_equal. lia. }
  rewrite E1, E2. unfold in_tokens, real_wei1. rewrite <- (sdec_sq d1). f_equal. field. lra.
Qed.
