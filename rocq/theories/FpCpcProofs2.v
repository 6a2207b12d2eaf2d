(** Trades on constant product curves in double precision. *)
From Coq Require Import ZArith Reals Bool List Lia Lra.
From Flocq Require Import Core IEEE754.BinarySingleNaN IEEE754.Binary IEEE754.Bits.
From Verif Require Import CurveModel FpModel FpSpec FpProofs FpProofs2 FpCpcModel FpCpcSpec FpCpcProofs.
Import ListNotations.
Local Open Scope R_scope.

Lemma near_up : forall m x f e, near m x f -> (m <= 8)%nat -> fits e x -> (e <= 800)%Z -> val f <= bpow radix2 801.
Proof.
  intros m x f e N Lm Fx He. pose proof N as (_ & x0 & _ & H). apply Rle_trans with (1 := H).
  assert (x1 : x <= bpow radix2 800). { destruct Fx as [E | (_ & L)]; [rewrite E; apply bpow_ge_0 | apply Rle_trans with (1 := L), bpow_le; lia]. }
  assert (CC : c ^ m <= 2) by (apply cn_2, few_small; lia). pose proof (cn_pos m). apply Rle_trans with (bpow radix2 800 * 2).
  - apply Rmult_le_compat; lra.
  - replace 2 with (bpow radix2 1) by reflexivity. rewrite <- bpow_plus. right. reflexivity.
Qed.
Lemma b900 : bpow radix2 801 + bpow radix2 801 <= bpow radix2 900.
Proof. replace (bpow radix2 801 + bpow radix2 801) with (bpow radix2 801 * 2) by ring. replace 2 with (bpow radix2 1) by reflexivity. rewrite <- bpow_plus. apply bpow_le. lia. Qed.
Lemma sub_ok : forall f g, finite f -> finite g -> 0 <= val f -> 0 <= val g -> val f <= bpow radix2 801 -> val g <= bpow radix2 801 ->
  finite (fsub f g) /\ val (fsub f g) = rnd (val f - val g) /\ Rabs (val (fsub f g) - (val f - val g)) <= u * Rabs (val f - val g).
Proof. intros f g F G f0 g0 f1 g1. pose proof b900. apply fsub_val; try assumption. apply Rabs_le. lra. Qed.
Lemma add_ok : forall f g, finite f -> finite g -> 0 <= val f -> 0 <= val g -> val f <= bpow radix2 801 -> val g <= bpow radix2 801 ->
  finite (fadd f g) /\ val (fadd f g) = rnd (val f + val g) /\ Rabs (val (fadd f g) - (val f + val g)) <= u * (val f + val g).
Proof.
  intros f g F G f0 g0 f1 g1. pose proof b900. assert (A : Rabs (val f + val g) = val f + val g) by (apply Rabs_pos_eq; lra).
  rewrite <- A at 3. apply fadd_val; try assumption. rewrite A. lra.
Qed.
Lemma abs_max : forall a b m, 0 <= a <= m -> 0 <= b <= m -> Rabs (a - b) <= m.
Proof. intros a b m Ha Hb. apply Rabs_le. lra. Qed.
Lemma scale_u : forall m x, (m <= 3)%nat -> 0 <= x -> 1.01 * INR m * u * x <= 1.01 * INR m * (u * x) /\ 0 <= u * x /\ u * x <= / 1024 * x.
Proof. intros m x _ x0. pose proof u_pos. pose proof u_small. split; [right; ring |]. split; [apply Rmult_le_pos; lra | apply Rmult_le_compat_r; lra]. Qed.
(** the difference of two near numbers *)
Lemma diff_err : forall j m q p Q P e, near j Q q -> near m P p -> (j <= 3)%nat -> (m <= 1)%nat -> Q <= P -> fits e P -> fits e Q -> (e <= 800)%Z ->
  finite (fsub q p) /\ val (fsub q p) = rnd (val q - val p) /\ Rabs (val (fsub q p) - (Q - P)) <= 8 * u * P.
Proof.
  intros j m q p Q P e Nq Np Lj Lm QP FP FQ He.
  pose proof (near_abs _ _ _ Nq ltac:(lia)) as A. pose proof (near_abs _ _ _ Np ltac:(lia)) as B.
  pose proof Nq as (Fq & Q0 & _). pose proof Np as (Fp & P0 & _).
  destruct (sub_ok q p Fq Fp (near_pos _ _ _ Nq) (near_pos _ _ _ Np)) as (F & V & E); [apply (near_up j Q q e); [exact Nq | lia | exact FQ | exact He] | apply (near_up m P p e); [exact Np | lia | exact FP | exact He] |].
  split; [exact F |]. split; [exact V |].
  destruct (scale_u 0 P ltac:(lia) P0) as (_ & U0 & U1). pose proof u_pos.
  assert (IJ : INR j <= 3) by (apply le_INR in Lj; simpl in Lj; lra). assert (IM : INR m <= 1) by (apply le_INR in Lm; simpl in Lm; lra).
  pose proof (pos_INR j). pose proof (pos_INR m).
  assert (A' : Rabs (val q - Q) <= 3.03 * (u * P)).
  { apply Rle_trans with (1 := A). replace (1.01 * INR j * u * Q) with ((1.01 * INR j) * (u * Q)) by ring.
    apply Rmult_le_compat; [lra | apply Rmult_le_pos; lra | lra | apply Rmult_le_compat_l; lra]. }
  assert (B' : Rabs (val p - P) <= 1.01 * (u * P)).
  { apply Rle_trans with (1 := B). replace (1.01 * INR m * u * P) with ((1.01 * INR m) * (u * P)) by ring. apply Rmult_le_compat_r; lra. }
  assert (D : Rabs (val q - val p) <= 1.01 * P).
  { pose proof (near_pos _ _ _ Nq). pose proof (near_pos _ _ _ Np). apply Rabs_le_inv in A'. apply Rabs_le_inv in B'. apply abs_max; lra. }
  assert (E' : u * Rabs (val q - val p) <= 1.01 * (u * P)).
  { replace (1.01 * (u * P)) with (u * (1.01 * P)) by ring. apply Rmult_le_compat_l; lra. }
  apply Rabs_le_inv in A'. apply Rabs_le_inv in B'. assert (E2 : Rabs (val (fsub q p) - (val q - val p)) <= 1.01 * (u * P)) by lra. apply Rabs_le_inv in E2.
  apply Rabs_le. lra.
Qed.

Lemma pool_y : forall c, pool c -> exists y, fc_y c = Ret y /\ near 1 (val (fc_k c) / val (fc_x c)) y /\ fits 200 (val (fc_k c) / val (fc_x c)) /\ 0 < val (fc_k c) / val (fc_x c).
Proof.
  intros c (Hk & Hx). pose proof Hk as (_ & k0 & Gk). pose proof Hx as (_ & x0 & Gx).
  assert (F : fits 200 (val (fc_k c) / val (fc_x c))) by (apply (fits_div 100 100); assumption).
  destruct (near_fdiv 0 0 (val (fc_k c)) (val (fc_x c)) (fc_k c) (fc_x c)) as (y & E & N); try (apply amount_near; assumption); [apply few_small; lia | exact x0 | apply (fits_le 200 1000 _ ltac:(lia) F) |].
  exists y. split; [exact E |]. split; [exact N |]. split; [exact F | apply Rdiv_lt_0_compat; assumption].
Qed.
Lemma dy_ok : forall c dx, pool c -> input dx -> exists y dy, fc_y c = Ret y /\ fc_dyfromdx c dx = Ret dy /\ finite dy /\ - val y <= val dy <= 0 /\
  Rabs (val dy - (val (fc_k c) / (val (fc_x c) + val dx) - val (fc_k c) / val (fc_x c))) <= bpow radix2 (-50) * (val (fc_k c) / val (fc_x c)).
Proof.
  intros c dx HP Hd. pose proof HP as (Hk & Hx). pose proof Hx as (_ & x0 & Gx).
  destruct (quotients (fc_k c) (fc_x c) (fadd (fc_x c) dx) dx 0 (val (fc_x c)) Hk (amount_near _ Hx) ltac:(lia) x0 (fits_le 100 200 _ ltac:(lia) Gx) Hd eq_refl) as (q & q' & Eq & Eq' & Nq & Nq' & _ & L & _ & QP & FQ).
  destruct (pool_y c HP) as (y & Ey & _ & FP & _). unfold fc_y in Ey. rewrite Eq in Ey. injection Ey as <-.
  destruct (diff_err 2 1 q' q _ _ 301 Nq' Nq ltac:(lia) ltac:(lia) QP (fits_le 200 301 _ ltac:(lia) FP) FQ ltac:(lia)) as (F & V & E).
  exists q, (fsub q' q). unfold fc_dyfromdx, fc_y. rewrite Eq', Eq. split; [reflexivity |]. split; [reflexivity |]. split; [exact F |].
  split; [rewrite V; split; [apply rnd_ge_opp; lra | apply rnd_neg; lra] |]. rewrite u50. exact E.
Qed.
Lemma dx_ok : forall c dy, pool c -> input dy -> exists dx, fc_dxfromdy c dy = Ret dx /\ finite dx /\ - val (fc_x c) <= val dx /\
  Rabs (val dx - (val (fc_k c) / (val (fc_k c) / val (fc_x c) + val dy) - val (fc_x c))) <= bpow radix2 (-50) * val (fc_x c).
Proof.
  intros c dy HP Hd. pose proof HP as (Hk & Hx). pose proof Hx as (Fx & x0 & Gx). pose proof Hk as (_ & k0 & _).
  destruct (pool_y c HP) as (y & Ey & Ny & FY & Y0).
  destruct (quotients (fc_k c) y (fadd y dy) dy 1 (val (fc_k c) / val (fc_x c)) Hk Ny ltac:(lia) Y0 FY Hd eq_refl) as (q & q' & Eq & Eq' & Nq & Nq' & _ & L & _ & QP & FQ).
  replace (val (fc_k c) / (val (fc_k c) / val (fc_x c))) with (val (fc_x c)) in QP by (field; lra).
  destruct (diff_err 3 0 q' (fc_x c) _ _ 301 Nq' (amount_near _ Hx) ltac:(lia) ltac:(lia) QP (fits_le 100 301 _ ltac:(lia) Gx) FQ ltac:(lia)) as (F & V & E).
  exists (fsub q' (fc_x c)). unfold fc_dxfromdy. rewrite Ey. cbn [rbind]. rewrite Eq'. split; [reflexivity |]. split; [exact F |].
  split; [rewrite V; apply rnd_ge_opp; lra |]. rewrite u50. exact E.
Qed.

(** ** bounds *)
Lemma fge_neg_ok : forall a b, finite a -> finite b -> fge_neg a b = true <-> - val b <= val a.
Proof.
  intros a b Fa Fb. unfold fge_neg, b64_compare. assert (Fo : finite (b64_opp b)) by (unfold finite, b64_opp; rewrite is_finite_Bopp; exact Fb).
  rewrite (Bcompare_correct 53 1024 a (b64_opp b) Fa Fo). unfold b64_opp at 1. rewrite B2R_Bopp. fold (val a) (val b).
  destruct (Rcompare_spec (val a) (- val b)); split; intro; try lra; try reflexivity; discriminate.
Qed.
Lemma refused : forall c, (forall dx, finite dx -> finite (fc_xa c) -> val dx < - val (fc_xa c) -> fc_execute c (TradeX dx) false = Raise ValueError) /\
  (forall dy, finite dy -> finite (fc_ya c) -> val dy < - val (fc_ya c) -> fc_execute c (TradeY dy) false = Raise ValueError).
Proof.
  intro c. split; intros d Fd Fa L; unfold fc_execute.
  - assert (E : fge_neg d (fc_xa c) = false) by (apply not_true_iff_false; rewrite fge_neg_ok by assumption; lra). rewrite E. reflexivity.
  - assert (E : fge_neg d (fc_ya c) = false) by (apply not_true_iff_false; rewrite fge_neg_ok by assumption; lra). rewrite E. reflexivity.
Qed.
(** an actual balance after a trade, from the old one [a], the new [n] and the old virtual balance [o] *)
Lemma act_err : forall j m a n o A P Q e, near j Q n -> near m P o -> (j <= 3)%nat -> (m <= 1)%nat -> near 0 A a -> fits e A -> fits e P -> fits e Q -> (e <= 800)%Z ->
  finite (fsub (fadd a n) o) /\
  Rabs (val (fsub (fadd a n) o) - (A + (Q - P))) <= 1.01 * (INR j * (u * Q) + INR m * (u * P)) + 1.01 * u * (A + Q) + u * (Rabs (A + Q - P) + 5 * u * (A + P + Q)).
Proof.
  intros j m a n o A P Q e Nn No Lj Lm Na FA FP FQ He.
  pose proof (near_abs _ _ _ Nn ltac:(lia)) as EN. pose proof (near_abs _ _ _ No ltac:(lia)) as EO.
  pose proof Nn as (Fn & Q0 & _). pose proof No as (Fo & P0 & _). pose proof Na as (Fa & A0 & _). pose proof (near_abs _ _ _ Na ltac:(lia)) as EA.
  replace (1.01 * INR 0 * u * A) with 0 in EA by (simpl; ring). apply Rabs_le_inv in EA. assert (VA : val a = A) by lra.
  pose proof (near_pos _ _ _ Nn) as n0. pose proof (near_pos _ _ _ No) as o0.
  assert (n1 : val n <= bpow radix2 801) by (apply (near_up j Q n e); [exact Nn | lia | exact FQ | exact He]).
  assert (o1 : val o <= bpow radix2 801) by (apply (near_up m P o e); [exact No | lia | exact FP | exact He]).
  assert (a1 : val a <= bpow radix2 801) by (apply (near_up 0 A a e); [exact Na | lia | exact FA | exact He]).
  destruct (add_ok a n Fa Fn ltac:(lra) n0 a1 n1) as (Fs & Vs & Es).
  set (s := fadd a n) in *. pose proof u_pos as U. pose proof u_small as U1.
  assert (s0 : 0 <= val s) by (rewrite Vs; apply rnd_pos; lra).
  assert (UQ : 0 <= u * Q) by (apply Rmult_le_pos; lra). assert (UP : 0 <= u * P) by (apply Rmult_le_pos; lra). assert (UA : 0 <= u * A) by (apply Rmult_le_pos; lra).
  assert (IJ : INR j <= 3) by (apply le_INR in Lj; simpl in Lj; lra). assert (IM : INR m <= 1) by (apply le_INR in Lm; simpl in Lm; lra).
  pose proof (pos_INR j). pose proof (pos_INR m).
  replace (1.01 * INR j * u * Q) with (1.01 * (INR j * (u * Q))) in EN by ring. replace (1.01 * INR m * u * P) with (1.01 * (INR m * (u * P))) in EO by ring.
  assert (TQ : INR j * (u * Q) <= 3 * (u * Q)) by (apply Rmult_le_compat_r; lra). assert (TP : INR m * (u * P) <= 1 * (u * P)) by (apply Rmult_le_compat_r; lra).
  assert (SQ : u * Q <= / 1024 * Q) by (apply Rmult_le_compat_r; lra).
  apply Rabs_le_inv in EN. apply Rabs_le_inv in EO.
  assert (Es' : Rabs (val s - (val a + val n)) <= 1.01 * u * (A + Q)).
  { apply Rle_trans with (1 := Es). rewrite VA. replace (1.01 * u * (A + Q)) with (u * (1.01 * (A + Q))) by ring. apply Rmult_le_compat_l; lra. }
  assert (s1 : Rabs (val s - val o) <= bpow radix2 900).
  { apply Rabs_le. split; [apply Rle_trans with (- bpow radix2 801); [pose proof b900; pose proof (bpow_ge_0 radix2 801); lra | lra] |].
    assert (val s <= bpow radix2 900); [| lra]. rewrite Vs. apply Rle_trans with (rnd (bpow radix2 900)); [apply rnd_mono; pose proof b900; lra |].
    right. apply round_generic; [apply valid_rnd_N |]. apply generic_format_bpow. unfold SpecFloat.fexp, SpecFloat.emin. lia. }
  destruct (fsub_val s o Fs Fo s1) as (Ff & _ & Ef). split; [exact Ff |].
  apply Rabs_le_inv in Es'.
  assert (D : Rabs (val s - val o) <= Rabs (A + Q - P) + 5 * u * (A + P + Q)).
  { replace (val s - val o) with ((A + Q - P) + (val s - val o - (A + Q - P))) by ring. apply Rle_trans with (1 := Rabs_triang _ _). apply Rplus_le_compat_l. apply Rabs_le.
    replace (5 * u * (A + P + Q)) with (5 * (u * A) + 5 * (u * P) + 5 * (u * Q)) by ring. replace (1.01 * u * (A + Q)) with (1.01 * (u * A) + 1.01 * (u * Q)) in Es' by ring. lra. }
  assert (Ef' : Rabs (val (fsub s o) - (val s - val o)) <= u * (Rabs (A + Q - P) + 5 * u * (A + P + Q))) by (apply Rle_trans with (1 := Ef); apply Rmult_le_compat_l; lra).
  set (T := u * (Rabs (A + Q - P) + 5 * u * (A + P + Q))) in *. set (W := 1.01 * u * (A + Q)) in *. apply Rabs_le_inv in Ef'. apply Rabs_le. lra.
Qed.
Lemma execute_x : forall c dx ib, pool c -> input dx -> input (fc_xa c) -> input (fc_ya c) ->
  exists c' y y', fc_execute c (TradeX dx) ib = Ret c' /\ fc_k c' = fc_k c /\ fc_y c = Ret y /\ fc_y c' = Ret y' /\
    finite (fc_x c') /\ val (fc_x c) <= val (fc_x c') /\ 0 <= val y' <= val y /\
    Rabs (val (fc_x c') - (val (fc_x c) + val dx)) <= bpow radix2 (-52) * (val (fc_x c) + val dx) /\
    finite (fc_xa c') /\ Rabs (val (fc_xa c') - (val (fc_xa c) + val dx)) <= bpow radix2 (-51) * (val (fc_xa c) + val (fc_x c) + val dx) /\
    finite (fc_ya c') /\ Rabs (val (fc_ya c') - (val (fc_ya c) + (val (fc_k c) / (val (fc_x c) + val dx) - val (fc_k c) / val (fc_x c)))) <= bpow radix2 (-50) * (val (fc_ya c) + val (fc_k c) / val (fc_x c)).
Proof.
  intros c dx ib HP Hd Ha Hb. pose proof HP as (Hk & Hx). pose proof Hx as (Fx & x0 & Gx).
  destruct (quotients (fc_k c) (fc_x c) (fadd (fc_x c) dx) dx 0 (val (fc_x c)) Hk (amount_near _ Hx) ltac:(lia) x0 (fits_le 100 200 _ ltac:(lia) Gx) Hd eq_refl) as (q & q' & Eq & Eq' & Nq & Nq' & Lx & L & Nb & QP & FQ).
  destruct (pool_y c HP) as (y & Ey & _ & FP & Y0). unfold fc_y in Ey. rewrite Eq in Ey. injection Ey as <-.
  destruct (input_near _ Hd) as (Nd & d0). destruct (input_near _ Ha) as (Na & a0). destruct (input_near _ Hb) as (Nya & b0).
  destruct Hd as (Fd & Gd). destruct Ha as (Fa & Ga). destruct Hb as (Fb & Gb).
  assert (G : fge_neg dx (fc_xa c) = true) by (apply fge_neg_ok; [assumption | assumption | lra]).
  assert (FB : fits 101 (val (fc_x c) + val dx)) by (apply (fits_add 100); [lia | exact Gx | exact Gd]).
  destruct (act_err 1 0 (fc_xa c) (fadd (fc_x c) dx) (fc_x c) (val (fc_xa c)) (val (fc_x c)) (val (fc_x c) + val dx) 101 Nb (amount_near _ Hx) ltac:(lia) ltac:(lia) Na (fits_le 100 101 _ ltac:(lia) Ga) (fits_le 100 101 _ ltac:(lia) Gx) FB ltac:(lia)) as (F1 & E1).
  destruct (act_err 2 1 (fc_ya c) q' q (val (fc_ya c)) (val (fc_k c) / val (fc_x c)) (val (fc_k c) / (val (fc_x c) + val dx)) 301 Nq' Nq ltac:(lia) ltac:(lia) Nya (fits_le 100 301 _ ltac:(lia) Gb) (fits_le 200 301 _ ltac:(lia) FP) FQ ltac:(lia)) as (F2 & E2).
  eexists _, q, q'. unfold fc_execute, fc_y, fmake. rewrite G. cbn [negb andb]. cbv zeta. rewrite Eq', Eq. cbn [rbind]. split; [reflexivity |]. cbn [fc_k fc_x fc_xa fc_ya].
  split; [reflexivity |]. split; [reflexivity |]. split; [exact Eq' |]. split; [apply Nb |]. split; [exact Lx |]. split; [exact L |].
  pose proof u_pos as U. pose proof u_small as U1.
  split. { pose proof (near_abs _ _ _ Nb ltac:(lia)) as E. apply Rle_trans with (1 := E). rewrite u52. replace (INR 1) with 1 by reflexivity. apply Rmult_le_compat_r; lra. }
  set (A := val (fc_xa c)) in *. set (B := val (fc_ya c)) in *. set (x := val (fc_x c)) in *. set (d := val dx) in *. set (Y := val (fc_k c) / x) in *. set (Y' := val (fc_k c) / (x + d)) in *.
  assert (Y'0 : 0 <= Y') by (apply (fits_pos _ _ FQ)).
  assert (UA : 0 <= u * A) by (apply Rmult_le_pos; lra). assert (UB : 0 <= u * B) by (apply Rmult_le_pos; lra). assert (Ux : 0 <= u * x) by (apply Rmult_le_pos; lra).
  assert (Ud : 0 <= u * d) by (apply Rmult_le_pos; lra). assert (UY : 0 <= u * Y) by (apply Rmult_le_pos; lra). assert (UY' : 0 <= u * Y') by (apply Rmult_le_pos; lra).
  assert (UYY : u * Y' <= u * Y) by (apply Rmult_le_compat_l; lra).
  assert (sq : forall z, 0 <= u * z -> u * (u * z) <= / 1024 * (u * z)) by (intros z Hz; apply Rmult_le_compat_r; lra).
  split; [exact F1 |]. split.
  - replace (A + d) with (A + (x + d - x)) by ring. apply Rle_trans with (1 := E1). rewrite u51. replace (A + (x + d) - x) with (A + d) by ring. rewrite (Rabs_pos_eq (A + d)) by lra.
    change (INR 0) with 0. change (INR 1) with 1. pose proof (sq A UA). pose proof (sq x Ux). pose proof (sq d Ud).
    clear - UA Ux Ud H H0 H1 U. assert (Z1 : u * (x + d) = u * x + u * d) by ring. assert (Z2 : u * (A + (x + d)) = u * A + u * x + u * d) by ring.
    assert (Z3 : u * (A + d + 5 * u * (A + x + (x + d))) = u * A + u * d + 5 * (u * (u * A)) + 10 * (u * (u * x)) + 5 * (u * (u * d))) by ring.
    assert (Z4 : 4 * u * (A + x + d) = 4 * (u * A) + 4 * (u * x) + 4 * (u * d)) by ring. rewrite Z1, Z3, Z4, Rmult_assoc, Z2. lra.
  - split; [exact F2 |]. apply Rle_trans with (1 := E2). rewrite u50.
    assert (M : Rabs (B + Y' - Y) <= B + Y) by (apply Rabs_le; lra). assert (M' : u * Rabs (B + Y' - Y) <= u * (B + Y)) by (apply Rmult_le_compat_l; lra).
    replace (INR 2) with 2 by reflexivity. change (INR 1) with 1. pose proof (sq B UB). pose proof (sq Y UY). pose proof (sq Y' UY').
    replace (u * (Rabs (B + Y' - Y) + 5 * u * (B + Y + Y'))) with (u * Rabs (B + Y' - Y) + 5 * (u * (u * B)) + 5 * (u * (u * Y)) + 5 * (u * (u * Y'))) by ring. lra.
Qed.

Lemma execute_y : forall c dy ib, pool c -> input dy -> input (fc_xa c) -> input (fc_ya c) ->
  exists c' y', fc_execute c (TradeY dy) ib = Ret c' /\ fc_k c' = fc_k c /\ fc_y c' = Ret y' /\ finite (fc_x c') /\ finite y' /\
    Rabs (val (fc_x c') - val (fc_k c) / (val (fc_k c) / val (fc_x c) + val dy)) <= bpow radix2 (-51) * (val (fc_k c) / (val (fc_k c) / val (fc_x c) + val dy)) /\
    Rabs (val y' - (val (fc_k c) / val (fc_x c) + val dy)) <= bpow radix2 (-50) * (val (fc_k c) / val (fc_x c) + val dy) /\
    finite (fc_xa c') /\ Rabs (val (fc_xa c') - (val (fc_xa c) + (val (fc_k c) / (val (fc_k c) / val (fc_x c) + val dy) - val (fc_x c)))) <= bpow radix2 (-50) * (val (fc_xa c) + val (fc_x c)) /\
    finite (fc_ya c') /\ Rabs (val (fc_ya c') - (val (fc_ya c) + val dy)) <= bpow radix2 (-50) * (val (fc_ya c) + val (fc_k c) / val (fc_x c) + val dy).
Proof.
  intros c dy ib HP Hd Ha Hb. pose proof HP as (Hk & Hx). pose proof Hx as (Fx & x0 & Gx). pose proof Hk as (Fk & k0 & Gk).
  destruct (pool_y c HP) as (y & Ey & Ny & FY & Y0).
  destruct (quotients (fc_k c) y (fadd y dy) dy 1 (val (fc_k c) / val (fc_x c)) Hk Ny ltac:(lia) Y0 FY Hd eq_refl) as (q & q' & _ & Eq' & _ & Nq' & _ & _ & Nb & QP & FQ).
  replace (val (fc_k c) / (val (fc_k c) / val (fc_x c))) with (val (fc_x c)) in QP by (field; lra).
  destruct (input_near _ Hd) as (Nd & d0). destruct (input_near _ Ha) as (Na & a0). destruct (input_near _ Hb) as (Nya & b0).
  destruct Hd as (Fd & Gd). destruct Ha as (Fa & Ga). destruct Hb as (Fb & Gb).
  assert (G : fge_neg dy (fc_ya c) = true) by (apply fge_neg_ok; [assumption | assumption | lra]).
  set (Y := val (fc_k c) / val (fc_x c)) in *. set (d := val dy) in *. set (Q := val (fc_k c) / (Y + d)) in *.
  assert (FB : fits 201 (Y + d)) by (apply (fits_add 200); [lia | exact FY | apply (fits_le 100 200 _ ltac:(lia) Gd)]).
  assert (Q0 : 0 < Q) by (apply Rdiv_lt_0_compat; lra).
  assert (KQ : val (fc_k c) / Q = Y + d) by (unfold Q; field; lra).
  destruct (near_fdiv 0 3 (val (fc_k c)) Q (fc_k c) q' (amount_near _ Hk) Nq') as (y' & Ey' & Ny'); [apply few_small; lia | exact Q0 | rewrite KQ; apply (fits_le 201 1000 _ ltac:(lia) FB) |].
  rewrite KQ in Ny'.
  destruct (act_err 3 0 (fc_xa c) q' (fc_x c) (val (fc_xa c)) (val (fc_x c)) Q 301 Nq' (amount_near _ Hx) ltac:(lia) ltac:(lia) Na (fits_le 100 301 _ ltac:(lia) Ga) (fits_le 100 301 _ ltac:(lia) Gx) FQ ltac:(lia)) as (F1 & E1).
  destruct (act_err 2 1 (fc_ya c) (fadd y dy) y (val (fc_ya c)) Y (Y + d) 201 Nb Ny ltac:(lia) ltac:(lia) Nya (fits_le 100 201 _ ltac:(lia) Gb) (fits_le 200 201 _ ltac:(lia) FY) FB ltac:(lia)) as (F2 & E2).
  eexists _, y'. unfold fc_execute, fmake. rewrite G. cbn [negb andb]. rewrite Ey. cbn [rbind]. cbv zeta. rewrite Eq'. cbn [rbind]. rewrite Ey'. cbn [rbind]. split; [reflexivity |]. unfold fc_y. cbn [fc_k fc_x fc_xa fc_ya].
  split; [reflexivity |]. split; [exact Ey' |]. split; [apply Nq' |]. split; [apply Ny' |].
  pose proof u_pos as U. pose proof u_small as U1.
  split. { pose proof (near_abs _ _ _ Nq' ltac:(lia)) as E. apply Rle_trans with (1 := E). rewrite u51. replace (INR 3) with 3 by (simpl; lra). apply Rmult_le_compat_r; lra. }
  split. { pose proof (near_abs _ _ _ Ny' ltac:(lia)) as E. apply Rle_trans with (1 := E). rewrite u50. replace (INR (S (0 + 3))) with 4 by (simpl; lra). apply Rmult_le_compat_r; lra. }
  set (A := val (fc_xa c)) in *. set (B := val (fc_ya c)) in *. set (x := val (fc_x c)) in *.
  assert (UA : 0 <= u * A) by (apply Rmult_le_pos; lra). assert (UB : 0 <= u * B) by (apply Rmult_le_pos; lra). assert (Ux : 0 <= u * x) by (apply Rmult_le_pos; lra).
  assert (Ud : 0 <= u * d) by (apply Rmult_le_pos; lra). assert (UY : 0 <= u * Y) by (apply Rmult_le_pos; lra). assert (UQ : 0 <= u * Q) by (apply Rmult_le_pos; lra).
  assert (UQx : u * Q <= u * x) by (apply Rmult_le_compat_l; lra).
  assert (sq : forall z, 0 <= u * z -> u * (u * z) <= / 1024 * (u * z)) by (intros z Hz; apply Rmult_le_compat_r; lra).
  split; [exact F1 |]. split.
  - apply Rle_trans with (1 := E1). rewrite u50.
    assert (M : Rabs (A + Q - x) <= A + x) by (apply Rabs_le; lra). assert (M' : u * Rabs (A + Q - x) <= u * (A + x)) by (apply Rmult_le_compat_l; lra).
    replace (INR 3) with 3 by (simpl; lra). change (INR 0) with 0. pose proof (sq A UA). pose proof (sq x Ux). pose proof (sq Q UQ).
    replace (u * (Rabs (A + Q - x) + 5 * u * (A + x + Q))) with (u * Rabs (A + Q - x) + 5 * (u * (u * A)) + 5 * (u * (u * x)) + 5 * (u * (u * Q))) by ring.
    assert (Z1 : u * (A + Q) = u * A + u * Q) by ring. assert (Z2 : u * (A + x) = u * A + u * x) by ring. assert (Z3 : 8 * u * (A + x) = 8 * (u * A) + 8 * (u * x)) by ring.
    rewrite (Rmult_assoc 1.01 u (A + Q)), Z1, Z3. rewrite Z2 in M'. lra.
  - split; [exact F2 |]. replace (B + d) with (B + (Y + d - Y)) by ring. apply Rle_trans with (1 := E2). rewrite u50. replace (B + (Y + d) - Y) with (B + d) by ring. rewrite (Rabs_pos_eq (B + d)) by lra.
    replace (INR 2) with 2 by reflexivity. change (INR 1) with 1. pose proof (sq B UB). pose proof (sq Y UY). pose proof (sq d Ud).
    assert (Z1 : u * (Y + d) = u * Y + u * d) by ring. assert (Z2 : u * (B + (Y + d)) = u * B + u * Y + u * d) by ring.
    assert (Z3 : u * (B + d + 5 * u * (B + Y + (Y + d))) = u * B + u * d + 5 * (u * (u * B)) + 10 * (u * (u * Y)) + 5 * (u * (u * d))) by ring.
    assert (Z4 : 8 * u * (B + Y + d) = 8 * (u * B) + 8 * (u * Y) + 8 * (u * d)) by ring.
    rewrite Z1, Z3, Z4, (Rmult_assoc 1.01 u (B + (Y + d))), Z2. lra.
Qed.
(** ValueError is raised for the bounds only *)
Lemma fdiv_raise : forall a b e, fdiv a b = Raise e -> e = ZeroDivision.
Proof. intros a b e H. unfold fdiv in H. destruct (feq b fzero); [injection H as <-; reflexivity | discriminate]. Qed.
Lemma bounds_only : forall c b t, (match t with TradeX dx => fge_neg dx (fc_xa c) | TradeY dy => fge_neg dy (fc_ya c) end = true \/ b = true) -> fc_execute c t b <> Raise ValueError.
Proof.
  intros c b t H. unfold fc_execute, fmake, fc_y. destruct t as [d | d].
  - replace (negb (fge_neg d (fc_xa c)) && negb b) with false by (symmetry; destruct H as [H | H]; rewrite H; [reflexivity | apply andb_false_r]). cbv zeta.
    destruct (fdiv (fc_k c) (fadd (fc_x c) d)) as [ny | e] eqn:E1; cbn [rbind]; [| intro X; injection X as ->; apply fdiv_raise in E1; discriminate].
    destruct (fdiv (fc_k c) (fc_x c)) as [y | e] eqn:E2; cbn [rbind]; [discriminate | intro X; injection X as ->; apply fdiv_raise in E2; discriminate].
  - replace (negb (fge_neg d (fc_ya c)) && negb b) with false by (symmetry; destruct H as [H | H]; rewrite H; [reflexivity | apply andb_false_r]).
    destruct (fdiv (fc_k c) (fc_x c)) as [y | e] eqn:E2; cbn [rbind]; [| intro X; injection X as ->; apply fdiv_raise in E2; discriminate]. cbv zeta.
    destruct (fdiv (fc_k c) (fadd y d)) as [nx | e] eqn:E1; cbn [rbind]; [| intro X; injection X as ->; apply fdiv_raise in E1; discriminate].
    destruct (fdiv (fc_k c) nx) as [z | e] eqn:E3; cbn [rbind]; [discriminate | intro X; injection X as ->; apply fdiv_raise in E3; discriminate].
Qed.
Lemma refused_iff : forall c, (forall t, fc_execute c t true <> Raise ValueError) /\
  (forall dx, finite dx -> finite (fc_xa c) -> (fc_execute c (TradeX dx) false = Raise ValueError <-> val dx < - val (fc_xa c))) /\
  (forall dy, finite dy -> finite (fc_ya c) -> (fc_execute c (TradeY dy) false = Raise ValueError <-> val dy < - val (fc_ya c))).
Proof.
  intro c. split; [intro t; apply bounds_only; right; reflexivity |]. destruct (refused c) as (R1 & R2). split; intros d Fd Fa.
  - split; [| apply R1; assumption]. intro H. destruct (Rlt_le_dec (val d) (- val (fc_xa c))) as [L | L]; [exact L |]. exfalso. apply (bounds_only c false (TradeX d)); [left; apply fge_neg_ok; assumption | exact H].
  - split; [| apply R2; assumption]. intro H. destruct (Rlt_le_dec (val d) (- val (fc_ya c))) as [L | L]; [exact L |]. exfalso. apply (bounds_only c false (TradeY d)); [left; apply fge_neg_ok; assumption | exact H].
Qed.

(** ** histories *)
Lemma execute_k : forall c t b c', fc_execute c t b = Ret c' -> fc_k c' = fc_k c.
Proof.
  intros c t b c' H. unfold fc_execute, fmake in H.
  destruct t as [d | d].
  - destruct (negb (fge_neg d (fc_xa c)) && negb b); [discriminate |]. cbv zeta in H.
    destruct (fdiv (fc_k c) (fadd (fc_x c) d)) as [ny |]; cbn [rbind] in H; [| discriminate]. destruct (fc_y c) as [y |]; cbn [rbind] in H; [| discriminate]. injection H as <-. reflexivity.
  - destruct (negb (fge_neg d (fc_ya c)) && negb b); [discriminate |]. destruct (fc_y c) as [y |]; cbn [rbind] in H; [| discriminate]. cbv zeta in H.
    destruct (fdiv (fc_k c) (fadd y d)) as [nx |]; cbn [rbind] in H; [| discriminate]. destruct (fdiv (fc_k c) nx) as [z |]; cbn [rbind] in H; [| discriminate]. injection H as <-. reflexivity.
Qed.
Lemma run_k : forall ts c c', fc_run c ts = Ret c' -> fc_k c' = fc_k c.
Proof.
  induction ts as [| (t, b) ts IH]; intros c c' H; cbn [fc_run] in H; [injection H as <-; reflexivity |].
  destruct (fc_execute c t b) as [c1 |] eqn:E; cbn [rbind] in H; [| discriminate]. rewrite (IH _ _ H). apply (execute_k _ _ _ _ E).
Qed.
Lemma no_drift : forall ts c c', fc_run c ts = Ret c' -> amount (fc_k c) -> amount (fc_x c') ->
  fc_k c' = fc_k c /\ exists y, fc_y c' = Ret y /\ Rabs (val (fc_x c') * val y - val (fc_k c)) <= bpow radix2 (-52) * val (fc_k c).
Proof.
  intros ts c c' H Hk Hx. pose proof (run_k _ _ _ H) as K. split; [exact K |].
  destruct (pool_y c') as (y & Ey & Ny & _ & _); [split; [rewrite K; exact Hk | exact Hx] |]. exists y. split; [exact Ey |].
  pose proof Hx as (_ & x0 & _). pose proof Hk as (_ & k0 & _). pose proof (near_abs _ _ _ Ny ltac:(lia)) as E. rewrite K in E. change (INR 1) with 1 in E. rewrite u52. pose proof u_pos.
  replace (val (fc_x c') * val y - val (fc_k c)) with (val (fc_x c') * (val y - val (fc_k c) / val (fc_x c'))) by (field; lra).
  rewrite Rabs_mult, (Rabs_pos_eq (val (fc_x c'))) by lra. apply Rle_trans with (val (fc_x c') * (1.01 * 1 * u * (val (fc_k c) / val (fc_x c')))); [apply Rmult_le_compat_l; lra |].
  replace (val (fc_x c') * (1.01 * 1 * u * (val (fc_k c) / val (fc_x c')))) with (1.01 * u * val (fc_k c)) by (field; lra). apply Rmult_le_compat_r; lra.
Qed.
