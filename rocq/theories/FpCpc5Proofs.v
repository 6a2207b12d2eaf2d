(** Lemmas for FpCpc5Props.v. *)
From Coq Require Import ZArith Reals Bool List Lia Lra.
From Flocq Require Import Core IEEE754.BinarySingleNaN IEEE754.Binary IEEE754.Bits.
From Verif Require Import CurveModel FpModel FpSpec FpProofs FpProofs2 FpCpcModel FpCpcSpec FpCpcProofs FpCpc5Model.
Local Open Scope R_scope.

Lemma tvl_near : forall c m inb ya, pool c -> finite (fc_xa c) -> fits 100 (val (fc_xa c)) -> near 1 ya (fc_ya c) -> fits 200 ya -> finite m -> fits 100 (val m) ->
  let P := val (fc_k c) / val (fc_x c) / val (fc_x c) in let T := (P * val (fc_xa c) + ya) * val m in
  exists t, fc_tvl c m inb = Ret t /\ finite t /\ 0 <= val t /\ Rabs (val t - (if inb then T / P else T)) <= bpow radix2 (-49) * (if inb then T / P else T).
Proof.
  intros c m inb ya ((Fk & k0 & Gk) & Fx & x0 & Gx) Fxa Gxa Nya Gya Fm Gm P T.
  assert (Fy : fits 200 (val (fc_k c) / val (fc_x c))) by (apply (fits_div 100 100); assumption). assert (FP : fits 300 P) by (apply (fits_div 200 100); assumption).
  assert (P0 : 0 < P) by (unfold P; apply Rdiv_lt_0_compat; [apply Rdiv_lt_0_compat; assumption | assumption]).
  destruct (near_fdiv 0 0 _ _ _ _ (near_0 _ Fk (Rlt_le _ _ k0)) (near_0 _ Fx (Rlt_le _ _ x0))) as (y & Ey & Ny); [apply few_small; lia | exact x0 | apply (fits_le 200 1000 _ ltac:(lia) Fy) |].
  destruct (near_fdiv 1 0 _ _ _ _ Ny (near_0 _ Fx (Rlt_le _ _ x0))) as (p & Ep & Np); [apply few_small; lia | exact x0 | apply (fits_le 300 1000 _ ltac:(lia) FP) |]. fold P in Np. change (near 2 P p) in Np.
  assert (F1 : fits 400 (P * val (fc_xa c))) by (apply (fits_mul 300 100); assumption).
  assert (N1 : near 3 (P * val (fc_xa c)) (fmul p (fc_xa c))) by (apply (near_mul 2 0); [exact Np | apply near_0; [exact Fxa | apply (fits_pos _ _ Gxa)] | apply few_small; lia | apply (fits_le 400 1000 _ ltac:(lia) F1)]).
  assert (F2 : fits 401 (P * val (fc_xa c) + ya)) by (apply (fits_add 400); [lia | exact F1 | apply (fits_le 200 400 _ ltac:(lia) Gya)]).
  assert (N2 : near 4 (P * val (fc_xa c) + ya) (fadd (fmul p (fc_xa c)) (fc_ya c))) by (apply near_add; [exact N1 | apply (near_weaken 1 3); [lia | exact Nya] | apply few_small; lia | apply (fits_le 401 1000 _ ltac:(lia) F2)]).
  assert (F3 : fits 501 T) by (apply (fits_mul 401 100); assumption).
  assert (N3 : near 5 T (fmul (fadd (fmul p (fc_xa c)) (fc_ya c)) m)) by (apply (near_mul 4 0); [exact N2 | apply near_0; [exact Fm | apply (fits_pos _ _ Gm)] | apply few_small; lia | apply (fits_le 501 1000 _ ltac:(lia) F3)]).
  unfold fc_tvl, fc_p, fc_y. rewrite Ey. cbn [rbind]. rewrite Ep. cbn [rbind]. destruct inb.
  - destruct (near_fdiv 5 2 _ _ _ _ N3 Np) as (t & Et & Nt); [apply few_small; lia | exact P0 | apply (fits_le 801 1000 _ ltac:(lia)); apply (fits_div 501 300); assumption |].
    exists t. split; [exact Et |]. split; [apply Nt |]. split; [apply (near_pos _ _ _ Nt) | apply near49 with 8%nat; [exact Nt | lia]].
  - eexists. split; [reflexivity |]. split; [apply N3 |]. split; [apply (near_pos _ _ _ N3) | apply near49 with 5%nat; [exact N3 | lia]].
Qed.
Lemma tvl_ok : forall c m inb, pool c -> finite (fc_xa c) -> fits 100 (val (fc_xa c)) -> finite (fc_ya c) -> fits 100 (val (fc_ya c)) -> finite m -> fits 100 (val m) ->
  let P := val (fc_k c) / val (fc_x c) / val (fc_x c) in let T := (P * val (fc_xa c) + val (fc_ya c)) * val m in
  exists t, fc_tvl c m inb = Ret t /\ finite t /\ 0 <= val t /\ Rabs (val t - (if inb then T / P else T)) <= bpow radix2 (-49) * (if inb then T / P else T).
Proof.
  intros c m inb Hp A B C D E F. apply tvl_near; try assumption; [apply (near_weaken 0 1); [lia | apply near_0; [exact C | apply (fits_pos _ _ D)]] | apply (fits_le 100 200 _ ltac:(lia) D)].
Qed.
Lemma tvl_full : forall k x m, amount k -> amount x -> finite m -> fits 100 (val m) -> exists c q b, fc_from_kx k x = Ret c /\ fc_tvl c m false = Ret q /\ fc_tvl c m true = Ret b /\
  (let T := 2 * (val k / val x) * val m in Rabs (val q - T) <= bpow radix2 (-49) * T) /\ (let T := 2 * val x * val m in Rabs (val b - T) <= bpow radix2 (-49) * T).
Proof.
  intros k x m Hk Hx Fm Gm. pose proof Hk as (Fk & k0 & Gk). pose proof Hx as (Fx & x0 & Gx).
  assert (Fy : fits 200 (val k / val x)) by (apply (fits_div 100 100); assumption).
  destruct (near_fdiv 0 0 _ _ _ _ (near_0 _ Fk (Rlt_le _ _ k0)) (near_0 _ Fx (Rlt_le _ _ x0))) as (y & Ey & Ny); [apply few_small; lia | exact x0 | apply (fits_le 200 1000 _ ltac:(lia) Fy) |].
  set (c := mkFcpc k x x y). assert (Hc : pool c) by (split; assumption).
  destruct (tvl_near c m false (val k / val x) Hc Fx Gx Ny Fy Fm Gm) as (q & Eq & _ & _ & Aq). destruct (tvl_near c m true (val k / val x) Hc Fx Gx Ny Fy Fm Gm) as (b & Eb & _ & _ & Ab).
  cbn [fc_k fc_x fc_xa c] in Aq, Ab. exists c, q, b. split; [unfold fc_from_kx, fmake; rewrite Ey; reflexivity |]. split; [exact Eq |]. split; [exact Eb |]. cbv zeta. split.
  - replace (2 * (val k / val x) * val m) with ((val k / val x / val x * val x + val k / val x) * val m) by (field; lra). exact Aq.
  - replace (2 * val x * val m) with ((val k / val x / val x * val x + val k / val x) * val m / (val k / val x / val x)) by (field; split; lra). exact Ab.
Qed.
