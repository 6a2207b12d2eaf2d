(** Entering a strategy. *)
From Coq Require Import Reals Lra Bool List.
From Verif Require Import CurveModel CurveSpec CurveProofs CurveProofs2 CurveProofs3 OrderModel OrderProofs StrategyModel RunModel RunSpec RunProofs.
Import ListNotations.
Local Open Scope R_scope.

Lemma sqrt2 a : 0 <= a -> sqrt a ^ 2 = a. Proof. intros. rewrite <- Rsqr_pow2. apply Rsqr_sqrt. assumption. Qed.
Lemma mm_swap lo hi : 0 < lo -> 0 < hi -> Rmin (if rle lo hi then hi else lo) (if rle lo hi then lo else hi) = Rmin lo hi /\ Rmax (if rle lo hi then hi else lo) (if rle lo hi then lo else hi) = Rmax lo hi.
Proof. intros. unfold rle. destruct (Rle_dec lo hi); split; try reflexivity; try (apply Rmin_comm); apply Rmax_comm. Qed.
Definition room (lo hi : R) (amt pm yint : option R) : Prop :=
  match pm, yint with None, None => True | None, Some z => amount amt <= z | Some m, None => Rmin lo hi < m <= Rmax lo hi | Some _, Some _ => False end.
Lemma sell_order_ok base amt lo hi pm yint : 0 < lo -> 0 < hi -> lo <> hi -> 0 <= amount amt -> room lo hi amt pm yint ->
  exists c, sell_order base amt lo hi pm yint = Ret c /\ sound c /\ 0 < c_S c /\ c_base c = base /\ c_y c = amount amt /\ c_B c ^ 2 = Rmin lo hi /\ top c = Rmax lo hi /\
    match pm, yint with Some m, _ => 0 < amount amt -> raw_price c (c_y c) = m | None, Some z => c_yint c = z | None, None => c_yint c = amount amt end.
Proof.
  intros Hl Hh Hn Ha Hr. unfold sell_order.
  assert (E : match amt with Some a => a | None => 0 end = amount amt) by reflexivity. rewrite E. set (a := amount amt) in *.
  destruct (mm_swap lo hi Hl Hh) as [M1 M2]. destruct (if rle lo hi then (lo, hi) else (hi, lo)) as [l h] eqn:LH.
  assert (W : l = (if rle lo hi then lo else hi) /\ h = (if rle lo hi then hi else lo)) by (destruct (rle lo hi); injection LH as <- <-; split; reflexivity). destruct W as [W1 W2]. rewrite <- W1, <- W2 in M1, M2.
  assert (L : 0 < l) by (rewrite W1; destruct (rle lo hi); assumption). assert (H : 0 < h) by (rewrite W2; destruct (rle lo hi); assumption).
  assert (N : h <> l) by (rewrite W1, W2; destruct (rle lo hi); congruence). clear W1 W2 LH.
  destruct (sqrt_minmax h l H L N) as [Q1 Q2]. rewrite M1 in Q1, Q2. rewrite M2 in Q2. assert (Hmin : 0 < Rmin lo hi) by (unfold Rmin; destruct (Rle_dec lo hi); lra). assert (Hmax : 0 < Rmax lo hi) by (unfold Rmax; destruct (Rle_dec lo hi); lra).
  assert (K : forall z, a <= z -> let c := mkCurve base (sqrt (Rmin lo hi)) (sqrt (Rmax lo hi) - sqrt (Rmin lo hi)) z a in
    sound c /\ 0 < c_S c /\ c_base c = base /\ c_y c = a /\ c_B c ^ 2 = Rmin lo hi /\ top c = Rmax lo hi).
  { intros z Hz. cbv zeta. unfold sound, top. cbn [c_B c_S c_yint c_y c_base]. repeat split; try lra; [apply sqrt2; lra|]. replace (sqrt (Rmin lo hi) + (sqrt (Rmax lo hi) - sqrt (Rmin lo hi))) with (sqrt (Rmax lo hi)) by ring. apply sqrt2. lra. }
  assert (Ok : forall yi pm', make_order (mkIn None None yi (Some h) (Some l) pm' (Some a) None false false) = make_order (by_prices h l yi pm' (Some a))) by reflexivity.
  destruct pm as [m|]; [destruct yint; [contradiction|]|].
  - cbn [rbind room] in *. rewrite Ok.
    assert (Hm : sqrt (Rmin lo hi) < sqrt m) by (apply sqrt_lt_1; lra). assert (Hm2 : sqrt m <= sqrt (Rmax lo hi)) by (apply sqrt_le_1; lra).
    set (z := a * (sqrt (Rmax lo hi) - sqrt (Rmin lo hi)) / (sqrt m - sqrt (Rmin lo hi))).
    assert (Ez : z * (sqrt m - sqrt (Rmin lo hi)) = a * (sqrt (Rmax lo hi) - sqrt (Rmin lo hi))) by (unfold z; field; lra).
    assert (Hz : a <= z). { apply (Rmult_le_reg_r (sqrt m - sqrt (Rmin lo hi))); [lra|]. rewrite Ez. apply Rmult_le_compat_l; [exact Ha|lra]. }
    assert (MO : make_order (by_prices h l None (Some m) (Some a)) = Ret (mkOrder (Some (sqrt (Rmin lo hi))) (Some (sqrt (Rmax lo hi) - sqrt (Rmin lo hi))) z (Rmax lo hi) (Rmin lo hi) a false)).
    { unfold make_order. rewrite convert_sorted by assumption. rewrite M1, M2. cbn [rbind]. unfold convert_yint, by_prices. cbn [i_yint i_pmarg i_y i_D i_adj]. rewrite !rsqrt_ok by lra. cbn [rbind]. rewrite rdiv_ok by lra. cbn [rbind opt_eqb].
      fold z. rewrite (req_false (Rmax lo hi)). 2:{ intros Q. rewrite Q in Q2. lra. } rewrite (req_true z z eq_refl). reflexivity. }
    rewrite MO. cbn [rbind]. rewrite (from_order_ok base _ (sqrt (Rmin lo hi)) (sqrt (Rmax lo hi) - sqrt (Rmin lo hi))) by (try reflexivity; lra). cbn [rbind o_yint o_y].
    destruct (K z Hz) as (K1 & K2 & K3 & K4 & K5 & K6). destruct (p_marg_sound _ K1) as [q Eq]. rewrite Eq. cbn [rbind]. eexists. split; [reflexivity|]. do 6 (split; [assumption|]). intros Pa. unfold raw_price. cbn [c_y c_B c_S c_yint].
    assert (Zp : 0 < z) by lra. replace (sqrt (Rmin lo hi) + (sqrt (Rmax lo hi) - sqrt (Rmin lo hi)) * (a / z)) with (sqrt m) by (unfold z; field; repeat split; lra). apply sqrt2. lra.
  - assert (MO : forall z, make_order (by_prices h l (Some z) None (Some a)) = Ret (mkOrder (Some (sqrt (Rmin lo hi))) (Some (sqrt (Rmax lo hi) - sqrt (Rmin lo hi))) z (Rmax lo hi) (Rmin lo hi) a false)).
    { intros z. unfold make_order. rewrite convert_sorted by assumption. rewrite M1, M2. cbn [rbind]. unfold convert_yint, by_prices. cbn [i_yint i_pmarg i_y i_D i_adj]. cbn [rbind opt_eqb].
      rewrite (req_false (Rmax lo hi)). 2:{ intros Q. rewrite Q in Q2. lra. } rewrite (req_true z z eq_refl). reflexivity. }
    assert (F : forall z, a <= z -> exists c, (let* o := make_order (mkIn None None (Some z) (Some h) (Some l) None (Some a) None false false) in let* c := from_order base o in let* _ := p_marg c in Ret c) = Ret c /\
      sound c /\ 0 < c_S c /\ c_base c = base /\ c_y c = a /\ c_B c ^ 2 = Rmin lo hi /\ top c = Rmax lo hi /\ c_yint c = z).
    { intros z Hz. rewrite Ok, MO. cbn [rbind]. rewrite (from_order_ok base _ (sqrt (Rmin lo hi)) (sqrt (Rmax lo hi) - sqrt (Rmin lo hi))) by (try reflexivity; lra). cbn [rbind o_yint o_y].
      destruct (K z Hz) as (K1 & K2 & K3 & K4 & K5 & K6). destruct (p_marg_sound _ K1) as [q Eq]. rewrite Eq. cbn [rbind]. eexists. split; [reflexivity|]. do 6 (split; [assumption|]). reflexivity. }
    destruct yint as [z|]; cbn [room] in Hr.
    + rewrite rlt_false by exact Hr. cbn [rbind]. destruct (F z Hr) as (c & F1 & F2). exists c. split; [exact F1|exact F2].
    + cbn [rbind]. destruct (F a ltac:(lra)) as (c & F1 & F2). exists c. split; [exact F1|exact F2].
Qed.

Lemma minmax_lt a b : Rmin a b < Rmax a b <-> a <> b. Proof. unfold Rmin, Rmax. destruct (Rle_dec a b); split; intros; lra. Qed.
Lemma min_inv a b : 0 < a -> 0 < b -> Rmin (/ a) (/ b) = / Rmax a b /\ Rmax (/ a) (/ b) = / Rmin a b.
Proof.
  intros A B. unfold Rmin, Rmax. destruct (Rle_dec a b) as [L|L], (Rle_dec (/ a) (/ b)) as [M|M]; split; try reflexivity; try lra.
  - assert (/ b <= / a) by (apply Rinv_le_contravar; lra). lra.
  - assert (/ b <= / a) by (apply Rinv_le_contravar; lra). lra.
  - assert (/ a <= / b) by (apply Rinv_le_contravar; lra). lra.
  - assert (/ a <= / b) by (apply Rinv_le_contravar; lra). lra.
Qed.
(** the book of a strategy *)
Definition fits (s : strategy) (b : book) : Prop :=
  good_book b /\ top (b_rsk b) = / sell_lo s /\ top (b_csh b) = buy_hi s /\ c_B (b_rsk b) ^ 2 = / sell_hi s /\ c_B (b_csh b) ^ 2 = buy_lo s.
Lemma min_pos a b : 0 < Rmin a b -> 0 < a /\ 0 < b. Proof. unfold Rmin. destruct (Rle_dec a b); lra. Qed.
Lemma enter_ok s : ready s -> exists b, enter s = Ret b /\ fits s b /\ c_y (b_rsk b) = amount (amt_rsk s) /\ c_y (b_csh b) = amount (amt_csh s) /\
  match psell_marginal s, y_int_sell s with Some m, _ => 0 < amount (amt_rsk s) -> price_at (b_rsk b) (c_y (b_rsk b)) = m | None, Some z => c_yint (b_rsk b) = z | None, None => c_yint (b_rsk b) = amount (amt_rsk s) end /\
  match pbuy_marginal s, y_int_buy s with Some m, _ => 0 < amount (amt_csh s) -> price_at (b_csh b) (c_y (b_csh b)) = m | None, Some z => c_yint (b_csh b) = z | None, None => c_yint (b_csh b) = amount (amt_csh s) end.
Proof.
  intros (S1 & S2 & B1 & B2 & A1 & A2 & SS & BS). unfold sell_lo, sell_hi, buy_lo, buy_hi in *. destruct (min_pos _ _ S1) as [Pa Pb]. destruct (min_pos _ _ B1) as [Qa Qb]. apply minmax_lt in S2. apply minmax_lt in B2.
  destruct (min_inv (p_sell_b s) (p_sell_a s) Pb Pa) as [I1 I2]. rewrite (Rmax_comm (p_sell_b s)) in I1. rewrite (Rmin_comm (p_sell_b s)) in I2.
  pose proof (Rinv_0_lt_compat _ Pa) as Ia. pose proof (Rinv_0_lt_compat _ Pb) as Ib.
  set (pm := match psell_marginal s with Some m => Some (/ m) | None => None end).
  assert (MP : forall m, psell_marginal s = Some m -> 0 < m). { intros m E. unfold sell_side in SS. rewrite E in SS. destruct (y_int_sell s); [contradiction|]. unfold sell_lo in SS. lra. }
  destruct (sell_order_ok true (amt_rsk s) (/ p_sell_b s) (/ p_sell_a s) pm (y_int_sell s)) as (a & Ea & Va & HSa & Ba & Ya & La & Ta & Ca); [exact Ib|exact Ia| |exact A1| |].
  { intros E. apply S2. rewrite <- (Rinv_inv (p_sell_a s)), <- E, Rinv_inv. reflexivity. }
  { unfold room, pm, sell_side, sell_lo, sell_hi in *. destruct (psell_marginal s) as [m|] eqn:Em; [|exact SS]. destruct (y_int_sell s); [exact SS|]. rewrite I1, I2. pose proof (MP m eq_refl) as Pm. split; [apply Rinv_lt_contravar; [apply Rmult_lt_0_compat; lra|lra]|apply Rinv_le_contravar; lra]. }
  destruct (sell_order_ok false (amt_csh s) (p_buy_b s) (p_buy_a s) (pbuy_marginal s) (y_int_buy s)) as (b & Eb & Vb & HSb & Bb & Yb & Lb & Tb & Cb); [exact Qb|exact Qa|congruence|exact A2| |].
  { unfold room. rewrite Rmin_comm, Rmax_comm. exact BS. }
  exists (mkBook a b). split.
  { unfold enter, add_strategy. assert (E1 : oto_curve true (psell_marginal s) = Ret pm).
    { unfold oto_curve, to_curve, pm. destruct (psell_marginal s) as [m|]; [|reflexivity]. pose proof (MP m eq_refl). rewrite rdiv_ok by lra. cbn. do 2 f_equal. unfold Rdiv. ring. }
    rewrite E1. cbn [rbind]. unfold to_curve. rewrite !rdiv_ok by lra. cbn [rbind]. unfold Rdiv. rewrite !Rmult_1_l, Ea. cbn [rbind]. rewrite Eb. reflexivity. }
  cbn [b_rsk b_csh]. unfold fits, good_book, sell_lo, sell_hi, buy_lo, buy_hi. cbn [b_rsk b_csh].
  split. { rewrite Ta, I2, Tb, La, I1, Lb. rewrite (Rmax_comm (p_buy_b s)), (Rmin_comm (p_buy_b s)). repeat split; assumption || apply Va || apply Vb. }
  split; [exact Ya|]. split; [exact Yb|]. split.
  - unfold pm in Ca. destruct (psell_marginal s) as [m|]; [|exact Ca]. intros P. unfold price_at, in_quote. rewrite Ba, (Ca P). apply Rinv_inv.
  - destruct (pbuy_marginal s) as [m|]; [|exact Cb]. intros P. unfold price_at, in_quote. rewrite Bb. exact (Cb P).
Qed.
