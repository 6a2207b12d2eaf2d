(** Paths on which nothing is sold, and spots beyond a range. *)
From Coq Require Import Reals Lra Lia Bool String List Arith.
From Verif Require Import CurveModel CurveSpec CurveProofs CurveProofs2 CurveProofs3 OrderModel StrategyModel RunModel RunSpec RunProofs RunProofs2 RunProofs3 RunProofs4 RunProofs5 RunProofs6.
Import ListNotations.
Local Open Scope R_scope.

Definition resting (a0 : curve) (r0 : R) (M : R) (b : book) : Prop :=
  exists y, b_csh b = with_y a0 y /\ 0 <= y <= c_y a0 /\ (y = c_y a0 \/ M <= raw_price a0 y) /\ (forall e, EPS <= e <= y -> raw_price a0 (y - e) < M) /\ c_y (b_rsk b) = r0 + cost a0 (c_y a0) (c_y a0 - y).
Lemma buy_step s p b y a0 r0 : 0 < p -> fits s b -> p <= sell_lo s -> valid a0 -> c_base a0 = false -> capped (b_csh b) = with_y a0 y -> 0 <= y <= c_y a0 -> c_y (b_rsk b) = r0 + cost a0 (c_y a0) (c_y a0 - y) ->
  exists d b', trade_book p b = Ret b' /\ fits s b' /\ 0 <= d <= y /\ (d = 0 \/ EPS <= d) /\ (0 < d -> p <= raw_price a0 (y - d)) /\ (forall e, EPS <= e <= y - d -> raw_price a0 (y - d - e) < p) /\
    b_csh b' = with_y a0 (y - d) /\ c_y (b_rsk b') = r0 + cost a0 (c_y a0) (c_y a0 - (y - d)).
Proof.
  intros Hp F Hs V0 Bs Cp Hy Hc. destruct (fits_step s p b Hp F) as (b2 & E2 & F2 & _). pose proof F as (G & T1 & T2 & _). destruct (book_step p b Hp G) as (d & x & e & z & E & D1 & X & D2 & Z & Hd & He & Hx & Hz & _ & _ & _ & _ & I5 & I6).
  destruct G as (Sa & Sb & HSa & HSb & Ba & Bb).
  assert (d0 : d = 0). { apply Rle_antisym; [|apply Hd]. apply Rnot_lt_le. intros C. specialize (I5 C). rewrite T1 in I5. assert (/ sell_lo s <= / p) by (apply Rinv_le_contravar; lra). lra. }
  subst d. rewrite cost_0 in X. subst x. assert (R0 : received 0 (b_csh b) = b_csh b) by (apply received_0; apply Sb). rewrite R0 in *. rewrite Rplus_0_r in *.
  destruct (capped_same (b_csh b)) as (Ca1 & Ca2 & Ca3 & Ca4). assert (Y : c_y (b_csh b) = y) by (rewrite <- Ca4, Cp; reflexivity). rewrite Cp, Y in *. cbn [c_y with_y c_base] in *.
  exists e. eexists. split; [exact E|]. split. { rewrite E in E2. assert (Inj : forall a b : book, Ret a = Ret b -> a = b) by congruence. apply Inj in E2. rewrite E2. exact F2. }
  destruct D2 as (D11 & D12 & D13 & D14). cbn [c_y with_y] in *. unfold in_quote in D13, D14. cbn [c_base with_y] in *. rewrite Bs in *.
  split; [exact He|]. split; [exact D12|]. split; [exact D13|]. split; [exact D14|]. cbn [b_rsk b_csh]. split; [reflexivity|].
  cbn [c_y with_y received]. rewrite Hc, Z, Rminus_0_r. rewrite (cost_same (with_y a0 y) a0) by reflexivity. rewrite Rplus_assoc. f_equal.
  replace (c_y a0 - (y - e)) with (c_y a0 - y + e) by ring. rewrite cost_split; [|exact V0|lra|lra|lra]. replace (c_y a0 - (c_y a0 - y)) with y by ring. reflexivity.
Qed.
Lemma trough_le path : forall p, trough p path <= p. Proof. unfold trough. induction path as [|q path IH]; intros p; cbn; [lra|]. pose proof (IH (Rmin p q)). pose proof (Rmin_l p q). lra. Qed.
Lemma trough_pos path : forall p, 0 < p -> Forall (fun q => 0 < q) path -> 0 < trough p path. Proof. unfold trough. induction path as [|q path IH]; intros p Hp F; cbn; [lra|]. inversion F; subst. apply IH; [apply Rmin_glb_lt; assumption|assumption]. Qed.
Lemma resting_first s b p a0 : 0 < p -> fits s b -> p <= sell_lo s -> a0 = capped (b_csh b) -> exists b', trade_book p b = Ret b' /\ fits s b' /\ resting a0 (c_y (b_rsk b)) p b'.
Proof.
  intros Hp F Hb ->. pose proof F as (G & _). destruct G as (Sa & Sb & HSa & HSb & Ba & Bb). pose proof (capped_valid _ Sb) as Va. destruct (capped_same (b_csh b)) as (Ca1 & Ca2 & Ca3 & Ca4). pose proof Va as (_ & _ & _ & Vy).
  destruct (buy_step s p b (c_y (b_csh b)) (capped (b_csh b)) (c_y (b_rsk b)) Hp F Hb Va) as (d & b' & E & F' & Hd & D2 & D3 & D4 & E1 & E2); [congruence|rewrite with_y_same; congruence|rewrite Ca4 in *; lra|rewrite Ca4; replace (c_y (b_csh b) - c_y (b_csh b)) with 0 by ring; rewrite cost_0; ring|].
  exists b'. split; [exact E|]. split; [exact F'|]. exists (c_y (b_csh b) - d). rewrite Ca4 in *. split; [exact E1|]. split; [lra|]. split; [destruct D2 as [D2|D2]; [left; lra|right; apply D3; pose proof EPS_pos; lra]|]. split; [exact D4|exact E2].
Qed.
Lemma resting_step s b p a0 r0 M : 0 < p -> 0 < M -> fits s b -> p <= sell_lo s -> valid a0 -> c_base a0 = false -> resting a0 r0 M b -> exists b', trade_book p b = Ret b' /\ fits s b' /\ resting a0 r0 (Rmin M p) b'.
Proof.
  intros Hp HM F Hb V0 B0 (y & Ey & Hy & HA & HB & HC).
  assert (Cp : capped (b_csh b) = with_y a0 y) by (rewrite Ey; apply capped_pos; destruct V0 as (_ & _ & V0 & _); exact V0).
  destruct (buy_step s p b y a0 r0 Hp F Hb V0 B0 Cp Hy HC) as (d & b' & E & F' & Hd & D2 & D3 & D4 & E1 & E2).
  exists b'. split; [exact E|]. split; [exact F'|]. exists (y - d). split; [exact E1|]. split; [lra|]. pose proof EPS_pos as HE. pose proof (Rmin_l M p). pose proof (Rmin_r M p).
  split; [|split].
  - destruct D2 as [->|D2]; [destruct HA as [HA|HA]; [left; lra|right; rewrite Rminus_0_r; lra]|]. right. specialize (D3 ltac:(lra)). lra.
  - intros e He. assert (L2 := D4 e He). assert (L1 : raw_price a0 (y - d - e) < M) by (replace (y - d - e) with (y - (d + e)) by ring; apply HB; lra). unfold Rmin. destruct (Rle_dec M p); assumption.
  - exact E2.
Qed.
Lemma resting_path s a0 r0 : forall path b M, Forall (fun p => 0 < p /\ p <= sell_lo s) path -> 0 < M -> fits s b -> valid a0 -> c_base a0 = false -> resting a0 r0 M b -> exists b', after b path = Ret b' /\ fits s b' /\ resting a0 r0 (trough M path) b'.
Proof.
  induction path as [|p path IH]; intros b M P HM F V0 B0 L; [exists b; auto|]. inversion P as [|? ? [Hp Hb] Hps]; subst. destruct (resting_step s b p a0 r0 M Hp HM F Hb V0 B0 L) as (b1 & E & F1 & L1).
  cbn [after]. rewrite E. cbn [rbind]. change (trough M (p :: path)) with (trough (Rmin M p) path). apply IH; try assumption. apply Rmin_glb_lt; assumption.
Qed.
Lemma resting_close a0 r0 M b b' : valid a0 -> resting a0 r0 M b -> resting a0 r0 M b' -> 0 < M -> c_y (b_csh b) - c_y (b_csh b') < EPS /\ M * (c_y (b_rsk b') - c_y (b_rsk b)) <= EPS.
Proof.
  intros V (y & E & Hy & A & B & C) (y' & E' & Hy' & A' & B' & C') HM. rewrite E, E', C, C'. cbn [c_y with_y]. pose proof EPS_pos as HE.
  assert (L : y - y' < EPS). { apply Rnot_le_lt. intros L. specialize (B (y - y') ltac:(lra)). replace (y - (y - y')) with y' in B by ring. destruct A' as [A'|A']; lra. }
  split; [exact L|]. destruct (Rle_dec y y') as [H|H].
  - assert (Q : cost a0 (c_y a0) (c_y a0 - y') <= cost a0 (c_y a0) (c_y a0 - y)). { replace (c_y a0 - y) with (c_y a0 - y' + (y' - y)) by ring. rewrite cost_split; [|exact V|lra|lra|lra]. replace (c_y a0 - (c_y a0 - y')) with y' by ring. pose proof (cost_nonneg a0 y' (y' - y) V ltac:(lra)). lra. }
    assert (M * (r0 + cost a0 (c_y a0) (c_y a0 - y') - (r0 + cost a0 (c_y a0) (c_y a0 - y))) <= M * 0) by (apply Rmult_le_compat_l; lra). lra.
  - replace (c_y a0 - y') with (c_y a0 - y + (y - y')) by ring. rewrite cost_split; [|exact V|lra|lra|lra]. replace (c_y a0 - (c_y a0 - y)) with y by ring.
    replace (r0 + (cost a0 (c_y a0) (c_y a0 - y) + cost a0 y (y - y')) - (r0 + cost a0 (c_y a0) (c_y a0 - y))) with (cost a0 y (y - y')) by ring.
    destruct A' as [A'|A']; [lra|]. pose proof (rate_pos a0 y V ltac:(lra)) as R1. pose proof (rate_pos a0 y' V ltac:(lra)) as R2. rewrite raw_rate in A'.
    assert (M1 : rate a0 y' <= rate a0 y). { pose proof (rate_sub a0 y (y - y')) as RS. replace (y - (y - y')) with y' in RS by ring. rewrite RS by (destruct V as (_ & _ & V & _); lra). assert (0 <= c_S a0 / c_yint a0 * (y - y')); [|lra]. destruct V as (_ & V2 & V & _). apply Rmult_le_pos; [|lra]. apply Rmult_le_pos; [lra|]. left. apply Rinv_0_lt_compat. exact V. }
    unfold cost. replace (y - (y - y')) with y' by ring. assert (PP : 0 < rate a0 y * rate a0 y') by (apply Rmult_lt_0_compat; assumption).
    assert (P : M <= rate a0 y * rate a0 y') by (eapply Rle_trans; [exact A'|]; replace (rate a0 y' ^ 2) with (rate a0 y' * rate a0 y') by ring; apply Rmult_le_compat_r; lra).
    apply (Rmult_le_reg_r (rate a0 y * rate a0 y')); [exact PP|]. replace (M * ((y - y') / (rate a0 y * rate a0 y')) * (rate a0 y * rate a0 y')) with (M * (y - y')) by (field; split; apply Rgt_not_eq; assumption).
    apply Rle_trans with (M * EPS); [apply Rmult_le_compat_l; lra|]. rewrite (Rmult_comm EPS). apply Rmult_le_compat_r; lra.
Qed.
Lemma falling s b p path : fits s b -> Forall (fun q => 0 < q /\ q <= sell_lo s) (p :: path) -> exists b1 b2, after b (p :: path) = Ret b1 /\ after b [trough p path] = Ret b2 /\
  Rabs (c_y (b_csh b1) - c_y (b_csh b2)) < / 10 ^ 10 /\ trough p path * Rabs (c_y (b_rsk b1) - c_y (b_rsk b2)) <= / 10 ^ 10 /\
  (0 < c_yint (b_csh b) -> 0 <= c_y (b_csh b1) <= c_y (b_csh b) /\ dxfromdy_f (b_csh b) (c_y (b_csh b) - c_y (b_csh b1)) true true = Ret (Some (c_y (b_rsk b1) - c_y (b_rsk b)))).
Proof.
  intros F P. inversion P as [|? ? [Hp Hb] Hps]; subst. pose proof F as (G & _). destruct G as (Sa & Sb & HSa & HSb & Ba & Bb). pose proof (capped_valid _ Sb) as Va. destruct (capped_same (b_csh b)) as (Ca1 & Ca2 & Ca3 & Ca4).
  destruct (resting_first s b p _ Hp F Hb eq_refl) as (b0 & E0 & F0 & L0). destruct (resting_path s (capped (b_csh b)) (c_y (b_rsk b)) path b0 p Hps Hp F0 Va ltac:(congruence) L0) as (b1 & E1 & F1 & L1).
  pose proof (trough_le path p) as PG. assert (PT : 0 < trough p path) by (apply trough_pos; [exact Hp|]; eapply Forall_impl; [|exact Hps]; intros q Hq; apply Hq). destruct (resting_first s b (trough p path) _ PT F ltac:(lra) eq_refl) as (b2 & E2 & F2 & L2).
  exists b1, b2. cbn [after]. rewrite E0. cbn [rbind]. rewrite E1, E2. split; [reflexivity|]. split; [reflexivity|]. fold EPS.
  destruct (resting_close _ _ _ _ _ Va L1 L2 PT) as [C1 C2]. destruct (resting_close _ _ _ _ _ Va L2 L1 PT) as [C3 C4].
  split; [apply Rabs_def1; lra|]. split. { unfold Rabs. destruct (Rcase_abs _); lra. }
  intros W. rewrite (capped_pos _ W) in *. destruct L1 as (y & Ey & Hy & _ & _ & HC). rewrite Ey, HC. cbn [c_y with_y]. split; [exact Hy|].
  rewrite dx_value; [|exact Va|lra|lra]. do 2 f_equal. ring.
Qed.
(** ** spots beyond a range *)
Lemma sold_out s path p b b' : fits s b -> separated s -> Forall (fun p => 0 < p) path -> 0 < p -> after b (path ++ [p]) = Ret b' ->
  (sell_hi s <= p -> c_y (b_rsk b') < / 10 ^ 10) /\ (p <= buy_lo s -> c_y (b_csh b') < / 10 ^ 10).
Proof.
  intros F Sep P Hp E. destruct (after_cleared s path p b b' F Sep P Hp E) as [(C1 & C2) _]. assert (F' : fits s b'). { destruct (after_fits s (path ++ [p]) b F) as (b2 & E2 & F2). { apply Forall_app. split; [exact P|]. constructor; [exact Hp|constructor]. } rewrite E in E2. assert (Inj : forall a b : book, Ret a = Ret b -> a = b) by congruence. apply Inj in E2. subst b2. exact F2. }
  destruct F' as ((Sa & Sb & HSa & HSb & Ba & Bb) & _ & _ & L1 & L2). fold EPS in *. pose proof EPS_pos as HE. split; intros H; apply Rnot_le_lt; intros L.
  - specialize (C1 (c_y (b_rsk b')) ltac:(lra)). unfold price_at, in_quote, raw_price in C1. rewrite Ba in C1. replace (c_y (b_rsk b') - c_y (b_rsk b')) with 0 in C1 by ring. unfold Rdiv in C1. rewrite Rmult_0_l, Rmult_0_r, Rplus_0_r, L1, Rinv_inv in C1. lra.
  - specialize (C2 (c_y (b_csh b')) ltac:(lra)). unfold price_at, in_quote, raw_price in C2. rewrite Bb in C2. replace (c_y (b_csh b') - c_y (b_csh b')) with 0 in C2 by ring. unfold Rdiv in C2. rewrite Rmult_0_l, Rmult_0_r, Rplus_0_r, L2 in C2. lra.
Qed.
