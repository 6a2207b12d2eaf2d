(** Properties of the Uniswap v3 calculator: prices and liquidity (C71), reserves (C73). *)
From Coq Require Import ZArith Reals Lra Lia List.
From Verif Require Import HelperModel HelperProofs Univ3Model Univ3Spec Univ3Proofs.
Import ListNotations.
Local Open Scope R_scope.

(** a USDC/WETH like pool: decimals 6 and 18, and the same pool with 18 and 18 decimals *)
Definition pool (d0 d1 : Z) : univ3 := mkUniv3 (2 ^ 96 * 3) 21978 1000000 3000 d0 d1.

(** * C71: prices and liquidity *)

(** The range bounds are positive, ordered, and a factor 1.0001^(tick size) apart. *)
Theorem C71_bounds : forall u pa pb, papb u = Some (pa, pb) ->
  0 < pa < pb /\ exists s, ticksize (fee_const u) = Some s /\ pb = pa * powerRZ (10001 / 10000) s.
Proof.
  intros u pa pb H. apply papb_some in H as (ta & tb & Ht & -> & ->).
  apply tickab_props in Ht as [H1 H2]. assert (Hd := decf_pos u). assert (Ha := tick_price_pos ta).
  split.
  - split; [apply Rmult_lt_0_compat; assumption|]. apply Rmult_lt_compat_r; [exact Hd|].
    apply powerRZ_strict; [lra|lia].
  - exists (tb - ta)%Z. split; [exact H2|]. replace tb with (ta + (tb - ta))%Z at 1 by lia.
    rewrite tick_price_add. unfold tick_price. lra.
Qed.

(** If the pool's square root price belongs to its tick, that is if its raw price lies
    between 1.0001^tick and 1.0001^(tick+1), then the price lies in the range. *)
Theorem C71_price_in_range : forall u pa pb, papb u = Some (pa, pb) ->
  powerRZ (10001 / 10000) (tick u) <= IZR (sp96 u) ^ 2 / 2 ^ 192 < powerRZ (10001 / 10000) (tick u + 1) ->
  pa <= p u < pb.
Proof.
  intros u pa pb H [H1 H2]. apply papb_some in H as (ta & tb & Ht & -> & ->).
  apply tickab_props in Ht as [H3 _]. assert (Hd := decf_pos u). unfold p, price_f. split.
  - apply Rmult_le_compat_r; [lra|]. eapply Rle_trans; [|exact H1]. apply powerRZ_le_mono; [lra|lia].
  - apply Rmult_lt_compat_r; [lra|]. eapply Rlt_le_trans; [exact H2|]. apply powerRZ_le_mono; [lra|lia].
Qed.

(** The two price conventions are reciprocal; the order of the bounds is reversed. *)
Theorem C71_reciprocal : forall u pa pb qa qb, papb u = Some (pa, pb) -> papb_inv u = Some (qa, qb) ->
  pa * qa = 1 /\ pb * qb = 1 /\ 0 < qb < qa /\
  ((0 < sp96 u)%Z -> exists q, p_inv u = Some q /\ p u * q = 1).
Proof.
  intros u pa pb qa qb H. unfold papb_inv. rewrite H. intros E. injection E as <- <-.
  destruct (C71_bounds u pa pb H) as [[Ha Hb] _].
  split; [field; lra|]. split; [field; lra|]. split.
  - unfold Rdiv. rewrite !Rmult_1_l. split; [apply Rinv_0_lt_compat; lra|]. apply Rinv_lt_contravar; [|exact Hb].
    apply Rmult_lt_0_compat; lra.
  - intros Hs. apply p_pos in Hs. unfold p_inv. destruct (Req_EM_T (p u) 0); [lra|].
    exists (1 / p u). split; [reflexivity|]. field. lra.
Qed.

(** Converting a price to a square root price and back is the identity. *)
Theorem C71_sp96_round_trip : forall price,
  (0 <= price -> exists sp, sp96_from_price price = Some sp /\ price_f sp = price) /\
  (price < 0 -> sp96_from_price price = None).
Proof.
  intros price. unfold sp96_from_price. split; intros H; destruct (Rlt_dec price 0); try lra; [|reflexivity].
  exists (sqrt price * 2 ^ 96). split; [reflexivity|]. unfold price_f.
  assert (Hd := pow96_pos). replace (2 ^ 192) with (2 ^ 96 * 2 ^ 96) by (rewrite <- pow_add; f_equal; lia).
  assert (Hq : sqrt price * sqrt price = price) by (apply sqrt_sqrt; exact H).
  set (d := 2 ^ 96) in *. clearbody d. rewrite <- Hq at 2. field. lra.
Qed.

(** k is the product, p the quotient and kbar the square root of the virtual amounts in
    token units. *)
Theorem C71_k : forall u, (0 < sp96 u)%Z -> (0 <= liquidity u)%Z ->
  let x := in_tokens (virtual_wei0 (IZR (liquidity u)) (IZR (sp96 u) / 2 ^ 96)) (tkn0dec u) in
  let y := in_tokens (virtual_wei1 (IZR (liquidity u)) (IZR (sp96 u) / 2 ^ 96)) (tkn1dec u) in
  k u = x * y /\ p u * x = y /\ kbar u = sqrt (x * y).
Proof.
  intros u Hs Hl x y. assert (H1 := raw_sqrt_pos u Hs). unfold raw_sqrt in H1.
  assert (HLs : L u = IZR (liquidity u) / (sdec (tkn0dec u) * sdec (tkn1dec u))).
  { unfold L. rewrite Rpower_half, sdec_add. reflexivity. }
  assert (P0 := sdec_pos (tkn0dec u)). assert (P1 := sdec_pos (tkn1dec u)).
  assert (Hk : L u * L u = x * y).
  { rewrite HLs. subst x y. unfold in_tokens, virtual_wei0, virtual_wei1. rewrite <- !sdec_sq.
    set (s := IZR (sp96 u) / 2 ^ 96) in *. clearbody s. field. lra. }
  split; [unfold k; rewrite <- Hk; ring|]. split.
  - unfold p. rewrite price_raw. unfold raw_sqrt. unfold decf. subst x y. unfold in_tokens, virtual_wei0, virtual_wei1.
    unfold Z.sub. rewrite powerRZ_add by lra. rewrite powerRZ_neg'.
    assert (Q0 : 0 < powerRZ 10 (tkn0dec u)) by (apply powerRZ_lt; lra).
    assert (Q1 : 0 < powerRZ 10 (tkn1dec u)) by (apply powerRZ_lt; lra).
    set (s := IZR (sp96 u) / 2 ^ 96) in *. clearbody s. 
    field. lra.
  - unfold kbar. rewrite <- Hk. symmetry. apply sqrt_square. rewrite HLs. apply IZR_le in Hl.
    apply Rmult_le_pos; [exact Hl|]. left. apply Rinv_0_lt_compat, Rmult_lt_0_compat; assumption.
Qed.

Example C71_ex : exists pa pb, papb (pool 6 18) = Some (pa, pb) /\ (0 < sp96 (pool 6 18))%Z /\ (0 <= liquidity (pool 6 18))%Z.
Proof. eexists; eexists. split; [reflexivity|]. cbn. lia. Qed.
(* a pool whose square root price belongs to its tick *)
Example C71_ex_tick : let u := mkUniv3 (2 ^ 96) 0 1000 500 18 18 in
  powerRZ (10001 / 10000) (tick u) <= IZR (sp96 u) ^ 2 / 2 ^ 192 < powerRZ (10001 / 10000) (tick u + 1).
Proof.
  cbn [tick sp96]. change (powerRZ (10001 / 10000) 0) with 1.
  assert (E : powerRZ (10001 / 10000) (0 + 1) = 10001 / 10000) by (change (0 + 1)%Z with 1%Z; apply powerRZ_1). rewrite E.
  change (IZR (2 ^ 96)) with (IZR (Zpower_nat 2 96)).
  assert (E2 : IZR (Zpower_nat 2 96) = 2 ^ 96) by (rewrite Zpower_nat_Z, <- pow_IZR; reflexivity).
  rewrite E2. rewrite <- pow_mult. change (96 * 2)%nat with 192%nat.
  assert (H : 0 < 2 ^ 192) by (apply pow_lt; lra). set (d := 2 ^ 192) in *. clearbody d.
  replace (d / d) with 1 by (field; lra). lra.
Qed.

(** * C73: reserves *)

(** Both reported reserves are the amounts held by the position in token units multiplied
    by the square root of 10^(3*decimals0 - decimals1). *)
Theorem C73_reserves : forall u pa pb ra rb, (0 < sp96 u)%Z -> papb u = Some (pa, pb) -> papb_raw u = Some (ra, rb) ->
  let s := IZR (sp96 u) / 2 ^ 96 in
  let factor := sqrt (powerRZ 10 (3 * tkn0dec u - tkn1dec u)) in
  tkn0reserve u = Some (in_tokens (real_wei0 (IZR (liquidity u)) s (sqrt rb)) (tkn0dec u) * factor) /\
  tkn1reserve u = Some (in_tokens (real_wei1 (IZR (liquidity u)) s (sqrt ra)) (tkn1dec u) * factor).
Proof.
  intros u pa pb ra rb Hs H H'. apply papb_some in H as (ta & tb & Ht & _).
  assert (E : papb_raw u = Some (tick_price ta, tick_price tb)) by (unfold papb_raw; rewrite Ht; reflexivity).
  rewrite E in H'. injection H' as <- <-. split.
  - exact (reserve0_value u ta tb Hs Ht).
  - exact (reserve1_value u ta tb Hs Ht).
Qed.

(** Hence, for a pool with liquidity strictly inside its range, each reported reserve is
    the amount held exactly if decimals1 = 3 * decimals0. *)
Theorem C73_correct_iff : forall u ra rb, (0 < sp96 u)%Z -> (0 < liquidity u)%Z -> papb_raw u = Some (ra, rb) ->
  let s := IZR (sp96 u) / 2 ^ 96 in
  sqrt ra < s < sqrt rb ->
  (tkn0reserve u = Some (in_tokens (real_wei0 (IZR (liquidity u)) s (sqrt rb)) (tkn0dec u)) <-> tkn1dec u = (3 * tkn0dec u)%Z) /\
  (tkn1reserve u = Some (in_tokens (real_wei1 (IZR (liquidity u)) s (sqrt ra)) (tkn1dec u)) <-> tkn1dec u = (3 * tkn0dec u)%Z).
Proof.
  intros u ra rb Hs Hl H s Hr.
  assert (Hp : papb u = Some (ra * decf u, rb * decf u)) by (unfold papb; rewrite H; reflexivity).
  destruct (C73_reserves u _ _ _ _ Hs Hp H) as [E0 E1]. fold s in E0, E1. rewrite E0, E1. clear E0 E1.
  assert (H1 : 0 < s) by exact (raw_sqrt_pos u Hs). apply IZR_lt in Hl.
  change (sqrt (powerRZ 10 (3 * tkn0dec u - tkn1dec u))) with (sdec (3 * tkn0dec u - tkn1dec u)).
  assert (A : forall a, 0 < a -> (Some (a * sdec (3 * tkn0dec u - tkn1dec u)) = Some a <-> tkn1dec u = (3 * tkn0dec u)%Z)).
  { intros a Ha. split.
    - intros E. assert (E' : sdec (3 * tkn0dec u - tkn1dec u) = 1).
      { assert (G : a * sdec (3 * tkn0dec u - tkn1dec u) = a * 1) by (rewrite Rmult_1_r; congruence).
        apply Rmult_eq_reg_l in G; [exact G|lra]. }
      apply sdec_one in E'. lia.
    - intros E. replace (3 * tkn0dec u - tkn1dec u)%Z with 0%Z by lia. rewrite sdec_0, Rmult_1_r. reflexivity. }
  assert (B : forall w d, 0 < w -> 0 < in_tokens w d).
  { intros w d Hw. apply Rdiv_lt_0_compat; [exact Hw|]. apply powerRZ_lt. lra. }
  split; apply A, B.
  - unfold real_wei0. apply Rmult_lt_0_compat; [exact Hl|]. unfold Rdiv. rewrite !Rmult_1_l.
    assert (G : / sqrt rb < / s) by (apply Rinv_lt_contravar; [apply Rmult_lt_0_compat; lra|lra]). lra.
  - unfold real_wei1. apply Rmult_lt_0_compat; lra.
Qed.

(** The claim "tkn0reserve returns the token 0 reserve in token units" is false, here by a
    factor 10^18 for two tokens with 18 decimals. *)
Theorem C73_reserves_refuted : exists u ra rb, papb_raw u = Some (ra, rb) /\ (0 < sp96 u)%Z /\
  let true0 := in_tokens (real_wei0 (IZR (liquidity u)) (IZR (sp96 u) / 2 ^ 96) (sqrt rb)) (tkn0dec u) in
  0 < true0 /\ tkn0reserve u = Some (true0 * 10 ^ 18).
Proof.
  assert (HI : IZR (2 ^ 96) = 2 ^ 96).
  { change (2 ^ 96)%Z with (Zpower_nat 2 96). rewrite Zpower_nat_Z, <- pow_IZR. reflexivity. }
  pose (u := mkUniv3 (2 ^ 96) 0 1 500 18 18).
  exists u, (tick_price 0), (tick_price 10). split; [reflexivity|]. split; [reflexivity|]. cbv zeta.
  assert (E : papb u = Some (tick_price 0 * decf u, tick_price 10 * decf u)) by reflexivity.
  destruct (C73_reserves u _ _ _ _ ltac:(reflexivity) E eq_refl) as [E0 _]. rewrite E0. clear E E0.
  split.
  - cbn [sp96 liquidity tkn0dec u]. rewrite HI. assert (Hd := pow96_pos). replace (2 ^ 96 / 2 ^ 96) with 1 by (field; lra).
    apply Rdiv_lt_0_compat; [|apply powerRZ_lt; lra]. unfold real_wei0. rewrite Rmult_1_l.
    assert (G : 1 < sqrt (tick_price 10)).
    { rewrite <- sqrt_1 at 1. apply sqrt_lt_1; [lra|left; apply tick_price_pos|]. apply powerRZ_gt1; [lra|lia]. }
    assert (G' : / sqrt (tick_price 10) < / 1) by (apply Rinv_lt_contravar; lra).
    unfold Rdiv. rewrite !Rmult_1_l. lra.
  - do 2 f_equal. cbn [tkn0dec tkn1dec u]. change (3 * 18 - 18)%Z with (18 + 18)%Z.
    rewrite powerRZ_add by lra. rewrite sqrt_square by (left; apply powerRZ_lt; lra). reflexivity.
Qed.

(** Total value locked: the value in token 1 is the reserve of token 1 plus price times
    the reserve of token 0, and price times the value in token 0. *)
Theorem C73_tvl : forall u r0 r1, (0 < sp96 u)%Z -> tkn0reserve u = Some r0 -> tkn1reserve u = Some r1 ->
  exists v0 v1, tvl u true = Some v0 /\ tvl u false = Some v1 /\ v1 = p u * r0 + r1 /\ v1 = p u * v0.
Proof.
  intros u r0 r1 Hs H0 H1. apply p_pos in Hs. unfold tvl. rewrite H0, H1. unfold p_inv.
  destruct (Req_EM_T (p u) 0); [lra|]. eexists; eexists. split; [reflexivity|]. split; [reflexivity|].
  split; field; lra.
Qed.

Example C73_ex : exists ra rb r0 r1, papb_raw (pool 6 18) = Some (ra, rb) /\ (0 < liquidity (pool 6 18))%Z /\
  tkn0reserve (pool 6 18) = Some r0 /\ tkn1reserve (pool 6 18) = Some r1 /\ tkn1dec (pool 6 18) = (3 * tkn0dec (pool 6 18))%Z.
Proof.
  assert (E : papb (pool 6 18) = Some (tick_price 21960 * decf (pool 6 18), tick_price 22020 * decf (pool 6 18))) by reflexivity.
  assert (E' : papb_raw (pool 6 18) = Some (tick_price 21960, tick_price 22020)) by reflexivity.
  destruct (C73_reserves (pool 6 18) _ _ _ _ ltac:(reflexivity) E E') as [E0 E1].
  do 4 eexists. split; [exact E'|]. split; [reflexivity|]. split; [exact E0|]. split; [exact E1|]. reflexivity.
Qed.

(* a pool strictly inside its range *)
Example C73_ex_inside : let u := mkUniv3 (2 ^ 96 + 2 ^ 76) 0 1000000 500 18 18 in
  exists ra rb, papb_raw u = Some (ra, rb) /\ sqrt ra < IZR (sp96 u) / 2 ^ 96 < sqrt rb.
Proof.
  intros u. exists (tick_price 0), (tick_price 10). split; [reflexivity|].
  assert (HI : forall n, IZR (2 ^ Z.of_nat n) = 2 ^ n) by (intros n; rewrite <- pow_IZR; reflexivity).
  assert (E : IZR (sp96 u) / 2 ^ 96 = 1 + / 2 ^ 20).
  { cbn [sp96 u]. rewrite plus_IZR. change (2 ^ 96)%Z with (2 ^ Z.of_nat 96)%Z. change (2 ^ 76)%Z with (2 ^ Z.of_nat 76)%Z. rewrite !HI.
    replace (2 ^ 96) with (2 ^ 76 * 2 ^ 20) by (rewrite <- pow_add; f_equal).
    assert (0 < 2 ^ 76) by (apply pow_lt; lra). assert (0 < 2 ^ 20) by (apply pow_lt; lra).
    set (a := 2 ^ 76) in *. set (b := 2 ^ 20) in *. clearbody a b. field. lra. }
  rewrite E. assert (H20 : 2 ^ 20 = 1048576) by lra. rewrite H20.
  assert (E0 : tick_price 0 = 1) by reflexivity. rewrite E0, sqrt_1. split; [lra|].
  rewrite <- (sqrt_square (1 + / 1048576)) by lra. apply sqrt_lt_1; [nra|left; apply tick_price_pos|].
  apply Rlt_le_trans with (tick_price 1); [unfold tick_price; rewrite powerRZ_1; lra|].
  apply powerRZ_le_mono; [lra|lia].
Qed.

Print Assumptions C71_bounds. Print Assumptions C71_price_in_range. Print Assumptions C71_reciprocal.
Print Assumptions C71_sp96_round_trip. Print Assumptions C71_k.
Print Assumptions C73_reserves. Print Assumptions C73_correct_iff. Print Assumptions C73_reserves_refuted. Print Assumptions C73_tvl.
