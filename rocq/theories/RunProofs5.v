(** The state of a strategy on the way: what is on offer, repeated spots, rising paths. *)
From Coq Require Import Reals Lra Lia Bool String List Arith.
From Verif Require Import CurveModel CurveSpec CurveProofs CurveProofs2 CurveProofs3 OrderModel StrategyModel RunModel RunSpec RunProofs RunProofs2 RunProofs3 RunProofs4.
Import ListNotations.
Local Open Scope R_scope.

Lemma capped_pos c : 0 < c_yint c -> capped c = c. Proof. intros H. unfold capped. rewrite req_false by lra. reflexivity. Qed.
Lemma raw_le_top c y : valid c -> 0 <= y <= c_yint c -> raw_price c y <= top c.
Proof. intros V H. unfold top. replace (c_B c + c_S c) with (rate c (c_yint c)) by (apply rate_full; exact V). rewrite <- raw_rate. apply raw_mono_le; [exact V|lra|lra]. Qed.
Lemma cost_same c c' y d : c_B c = c_B c' -> c_S c = c_S c' -> c_yint c = c_yint c' -> cost c y d = cost c' y d. Proof. intros A B C. unfold cost, rate. rewrite A, B, C. reflexivity. Qed.
Definition wide (b : book) : Prop := 0 < c_yint (b_rsk b) /\ 0 < c_yint (b_csh b).
Lemma step_cleared s p b b' : 0 < p -> separated s -> fits s b -> trade_book p b = Ret b' -> cleared p b' /\ wide b'.
Proof.
  intros Hp Sep F E. destruct F as (G & T1 & T2 & _). destruct (book_step p b Hp G) as (d & x & e & z & E' & D1 & X & D2 & Z & Hd & He & Hx & Hz & _ & _ & _ & _ & I5 & I6).
  rewrite E in E'. assert (Inj : forall a b : book, Ret a = Ret b -> a = b) by congruence. apply Inj in E'. subst b'. destruct G as (Sa & Sb & HSa & HSb & Ba & Bb).
  pose proof (capped_valid _ Sa) as Va. destruct (capped_same (b_rsk b)) as (Ca1 & Ca2 & Ca3 & Ca4). assert (Sb1 : sound (received x (b_csh b))) by (apply received_sound; assumption). pose proof (capped_valid _ Sb1) as Vb. destruct (capped_same (received x (b_csh b))) as (Cb1 & Cb2 & Cb3 & Cb4).
  set (a1 := with_y (capped (b_rsk b)) (c_y (b_rsk b) - d)) in *.
  assert (V1 : valid a1). { destruct Va as (A1 & A2 & A3 & A4). rewrite Ca4 in A4. repeat split; cbn; lra. }
  assert (W : 0 < c_yint (received z a1)). { cbn. pose proof (Rmax_l (c_yint (capped (b_rsk b))) (c_y (b_rsk b) - d + z)). destruct Va as (_ & _ & A3 & _). lra. }
  split; [|split; [exact W|destruct Vb as (_ & _ & Q & _); exact Q]]. unfold cleared. cbn [b_rsk b_csh]. fold EPS. split.
  - intros t Ht. assert (P1 : c_base (received z a1) = true) by (cbn; rewrite Ca1; exact Ba). unfold price_at, in_quote. rewrite P1.
    assert (V2 : valid (received z a1)). { assert (S2 : sound (received z a1)) by (apply received_sound; [apply valid_sound; exact V1|exact Hz]). destruct S2 as (A1 & A2 & A3). repeat split; lra. }
    assert (Pos : 0 < raw_price (received z a1) (c_y (received z a1) - t)) by (apply raw_pos; [exact V2|lra]).
    assert (L : raw_price (received z a1) (c_y (received z a1) - t) < / p).
    { destruct (Rle_lt_or_eq_dec 0 e ltac:(lra)) as [Pe|Pe].
      - specialize (I6 Pe). rewrite T2 in I6. unfold separated in Sep. pose proof EPS_pos. destruct V2 as (_ & _ & _ & V2y).
        assert (Tt : raw_price (received z a1) (c_y (received z a1) - t) <= top (received z a1)). { apply raw_le_top; [|lra]. assert (S2 : sound (received z a1)) by (apply received_sound; [apply valid_sound; exact V1|exact Hz]). destruct S2 as (A1 & A2 & A3). repeat split; lra. }
        assert (Te : top (received z a1) = / sell_lo s). { rewrite <- T1. unfold top. cbn. rewrite Ca2, Ca3. reflexivity. } rewrite Te in Tt. assert (/ sell_lo s < / p); [|lra]. apply Rinv_lt_contravar; [apply Rmult_lt_0_compat; lra|lra].
      - assert (Z0 : z = 0) by (rewrite Z, <- Pe; apply cost_0). clear Z. subst z. assert (R0 : received 0 a1 = a1) by (apply received_0; destruct V1 as (_ & _ & _ & ?); lra). rewrite R0 in Ht |- *.
        destruct D1 as (_ & _ & _ & D1). rewrite Ca4 in D1. specialize (D1 t ltac:(cbn in Ht; lra)). unfold in_quote in D1. rewrite Ca1, Ba in D1. exact D1. }
    rewrite <- (Rinv_inv p). apply Rinv_lt_contravar; [|exact L]. apply Rmult_lt_0_compat; [exact Pos|apply Rinv_0_lt_compat; exact Hp].
  - intros t Ht. destruct D2 as (_ & _ & _ & D2). rewrite Cb4 in D2. cbn [c_y received] in D2. specialize (D2 t ltac:(cbn in Ht; lra)). unfold in_quote in D2. rewrite Cb1 in D2. cbn [c_base received] in D2. rewrite Bb in D2.
    unfold price_at, in_quote. cbn [c_base with_y]. rewrite Cb1. cbn [c_base received]. rewrite Bb. exact D2.
Qed.
(** nothing happens at a spot that is already cleared *)
Lemma cleared_noop p b : 0 < p -> good_book b -> wide b -> cleared p b -> trade_book p b = Ret b.
Proof.
  intros Hp G (W1 & W2) (C1 & C2). fold EPS in C1, C2. destruct (book_step p b Hp G) as (d & x & e & z & E & D1 & X & D2 & Z & Hd & He & Hx & Hz & _). destruct G as (Sa & Sb & HSa & HSb & Ba & Bb).
  rewrite (capped_pos _ W1) in *. pose proof EPS_pos as HE.
  assert (d0 : d = 0). { destruct D1 as (_ & [D|D] & D1 & _); [exact D|]. specialize (D1 ltac:(lra)). specialize (C1 d ltac:(lra)). unfold price_at, in_quote in *. rewrite Ba in *.
    assert (V : valid (b_rsk b)) by (destruct Sa as (A1 & A2 & A3); repeat split; lra). pose proof (raw_pos (b_rsk b) (c_y (b_rsk b) - d) V ltac:(lra)) as P.
    assert (raw_price (b_rsk b) (c_y (b_rsk b) - d) < / p); [|lra]. rewrite <- (Rinv_inv (raw_price _ _)). apply Rinv_lt_contravar; [apply Rmult_lt_0_compat; [exact Hp|apply Rinv_0_lt_compat; exact P]|exact C1]. }
  subst d. rewrite cost_0 in X. subst x. assert (R0 : received 0 (b_csh b) = b_csh b) by (apply received_0; apply Sb). rewrite R0 in *. rewrite (capped_pos _ W2) in *. rewrite Rplus_0_r in *.
  assert (e0 : e = 0). { destruct D2 as (_ & [D|D] & D2 & _); [exact D|]. specialize (D2 ltac:(lra)). specialize (C2 e ltac:(lra)). unfold price_at, in_quote in *. rewrite Bb in *. lra. }
  subst e. rewrite cost_0 in Z. subst z. rewrite E. rewrite !with_y_same by ring. rewrite received_0 by apply Sa. destruct b; reflexivity.
Qed.
(** after a path *)
Lemma after_app b p1 p2 : after b (p1 ++ p2) = let* c := after b p1 in after c p2.
Proof. revert b. induction p1 as [|p p1 IH]; intros b; [reflexivity|]. cbn [app after]. destruct (trade_book p b) as [c|]; [|reflexivity]. cbn [rbind]. apply IH. Qed.
Lemma after_fits s : forall path b, fits s b -> Forall (fun p => 0 < p) path -> exists b', after b path = Ret b' /\ fits s b'.
Proof.
  induction path as [|p path IH]; intros b F P; [exists b; auto|]. inversion P as [|? ? Hp Hps]; subst. destruct (fits_step s p b Hp F) as (b1 & E & F1 & _). cbn [after]. rewrite E. cbn [rbind]. apply IH; assumption.
Qed.
Lemma after_cleared s path p b b' : fits s b -> separated s -> Forall (fun p => 0 < p) path -> 0 < p -> after b (path ++ [p]) = Ret b' -> cleared p b' /\ after b' [p] = Ret b'.
Proof.
  intros F Sep P Hp E. rewrite after_app in E. destruct (after_fits s path b F P) as (c & Ec & Fc). rewrite Ec in E. cbn [rbind after] in E. destruct (trade_book p c) as [c'|] eqn:Et; [|discriminate].
  cbn [rbind] in E. assert (Inj : forall a b : book, Ret a = Ret b -> a = b) by congruence. apply Inj in E. subst c'. destruct (step_cleared s p c b' Hp Sep Fc Et) as (C & W). split; [exact C|]. cbn [after]. rewrite cleared_noop; try assumption; [reflexivity|].
  destruct (fits_step s p c Hp Fc) as (c' & E' & F' & _). rewrite Et in E'. apply Inj in E'. subst c'. apply F'.
Qed.

(** ** paths on which nothing is bought *)
Definition lying (a0 : curve) (c0 : R) (M : R) (b : book) : Prop :=
  exists y, b_rsk b = with_y a0 y /\ 0 <= y <= c_y a0 /\ (y = c_y a0 \/ / M <= raw_price a0 y) /\ (forall e, EPS <= e <= y -> raw_price a0 (y - e) < / M) /\ c_y (b_csh b) = c0 + cost a0 (c_y a0) (c_y a0 - y).
Lemma sell_step s p b y a0 c0 (A B : R -> Prop) : 0 < p -> fits s b -> buy_hi s <= p -> valid a0 -> c_base a0 = true -> capped (b_rsk b) = with_y a0 y -> 0 <= y <= c_y a0 -> c_y (b_csh b) = c0 + cost a0 (c_y a0) (c_y a0 - y) ->
  exists d b', trade_book p b = Ret b' /\ fits s b' /\ 0 <= d <= y /\ (d = 0 \/ EPS <= d) /\ (0 < d -> / p <= raw_price a0 (y - d)) /\ (forall e, EPS <= e <= y - d -> raw_price a0 (y - d - e) < / p) /\
    b_rsk b' = with_y a0 (y - d) /\ c_y (b_csh b') = c0 + cost a0 (c_y a0) (c_y a0 - (y - d)).
Proof.
  intros Hp F Hb V0 Bs Cp Hy Hc. destruct (fits_step s p b Hp F) as (b2 & E2 & F2 & _). pose proof F as (G & T1 & T2 & _). destruct (book_step p b Hp G) as (d & x & e & z & E & D1 & X & D2 & Z & Hd & He & Hx & Hz & _ & _ & _ & _ & I5 & I6).
  destruct G as (Sa & Sb & HSa & HSb & Ba & Bb). destruct (capped_same (b_rsk b)) as (Ca1 & Ca2 & Ca3 & Ca4).
  assert (Y : c_y (b_rsk b) = y) by (rewrite <- Ca4, Cp; reflexivity). rewrite Cp, Y in *. cbn [c_y with_y c_base] in *.
  assert (e0 : e = 0). { apply Rle_antisym; [|apply He]. apply Rnot_lt_le. intros C. specialize (I6 C). rewrite T2 in I6. lra. }
  subst e. rewrite cost_0 in Z. subst z. exists d. eexists. split; [exact E|]. split. { rewrite E in E2. assert (Inj : forall a b : book, Ret a = Ret b -> a = b) by congruence. apply Inj in E2. rewrite E2. exact F2. }
  destruct D1 as (D11 & D12 & D13 & D14). cbn [c_y with_y] in *. unfold in_quote in D13, D14. cbn [c_base with_y] in *. rewrite Bs in *.
  split; [exact Hd|]. split; [exact D12|]. split; [exact D13|]. split; [exact D14|]. cbn [b_rsk b_csh]. split.
  - rewrite received_0; [reflexivity|]. cbn. destruct V0 as (_ & _ & _ & V0). lra.
  - cbn [c_y with_y]. rewrite Hc, X, Rminus_0_r. rewrite (cost_same (with_y a0 y) a0) by reflexivity. rewrite Rplus_assoc. f_equal.
    replace (c_y a0 - (y - d)) with (c_y a0 - y + d) by ring. rewrite cost_split; [|exact V0|lra|lra|lra]. replace (c_y a0 - (c_y a0 - y)) with y by ring. reflexivity.
Qed.
Lemma peak_ge path : forall p, p <= peak p path. Proof. unfold peak. induction path as [|q path IH]; intros p; cbn; [lra|]. pose proof (IH (Rmax p q)). pose proof (Rmax_l p q). lra. Qed.
Lemma lying_first s b p a0 : 0 < p -> fits s b -> buy_hi s <= p -> a0 = capped (b_rsk b) -> exists b', trade_book p b = Ret b' /\ fits s b' /\ lying a0 (c_y (b_csh b)) p b'.
Proof.
  intros Hp F Hb ->. pose proof F as (G & _). destruct G as (Sa & Sb & HSa & HSb & Ba & Bb). pose proof (capped_valid _ Sa) as Va. destruct (capped_same (b_rsk b)) as (Ca1 & Ca2 & Ca3 & Ca4). pose proof Va as (_ & _ & _ & Vy).
  destruct (sell_step s p b (c_y (b_rsk b)) (capped (b_rsk b)) (c_y (b_csh b)) (fun _ => True) (fun _ => True) Hp F Hb Va) as (d & b' & E & F' & Hd & D2 & D3 & D4 & E1 & E2); [congruence|rewrite with_y_same; congruence|rewrite Ca4 in *; lra|rewrite Ca4; replace (c_y (b_rsk b) - c_y (b_rsk b)) with 0 by ring; rewrite cost_0; ring|].
  exists b'. split; [exact E|]. split; [exact F'|]. exists (c_y (b_rsk b) - d). rewrite Ca4 in *. split; [exact E1|]. split; [lra|]. split; [destruct D2 as [D2|D2]; [left; lra|right; apply D3; pose proof EPS_pos; lra]|]. split; [exact D4|exact E2].
Qed.
Lemma inv_max M p : 0 < M -> 0 < p -> / Rmax M p = Rmin (/ M) (/ p).
Proof. intros A B. symmetry. apply (min_inv M p A B). Qed.
Lemma lying_step s b p a0 c0 M : 0 < p -> 0 < M -> fits s b -> buy_hi s <= p -> valid a0 -> c_base a0 = true -> lying a0 c0 M b -> exists b', trade_book p b = Ret b' /\ fits s b' /\ lying a0 c0 (Rmax M p) b'.
Proof.
  intros Hp HM F Hb V0 B0 (y & Ey & Hy & HA & HB & HC).
  assert (Cp : capped (b_rsk b) = with_y a0 y) by (rewrite Ey; apply capped_pos; destruct V0 as (_ & _ & V0 & _); exact V0).
  destruct (sell_step s p b y a0 c0 (fun _ => True) (fun _ => True) Hp F Hb V0 B0 Cp Hy HC) as (d & b' & E & F' & Hd & D2 & D3 & D4 & E1 & E2).
  exists b'. split; [exact E|]. split; [exact F'|]. exists (y - d). split; [exact E1|]. split; [lra|]. rewrite inv_max by assumption. pose proof EPS_pos as HE. pose proof (Rmin_l (/ M) (/ p)). pose proof (Rmin_r (/ M) (/ p)).
  split; [|split].
  - destruct D2 as [->|D2]; [destruct HA as [HA|HA]; [left; lra|right; rewrite Rminus_0_r; lra]|]. right. specialize (D3 ltac:(lra)). lra.
  - intros e He. assert (L2 := D4 e He). assert (L1 : raw_price a0 (y - d - e) < / M) by (replace (y - d - e) with (y - (d + e)) by ring; apply HB; lra). unfold Rmin. destruct (Rle_dec (/ M) (/ p)); assumption.
  - exact E2.
Qed.
Lemma lying_path s a0 c0 : forall path b M, Forall (fun p => 0 < p /\ buy_hi s <= p) path -> 0 < M -> fits s b -> valid a0 -> c_base a0 = true -> lying a0 c0 M b -> exists b', after b path = Ret b' /\ fits s b' /\ lying a0 c0 (peak M path) b'.
Proof.
  induction path as [|p path IH]; intros b M P HM F V0 B0 L; [exists b; auto|]. inversion P as [|? ? [Hp Hb] Hps]; subst. destruct (lying_step s b p a0 c0 M Hp HM F Hb V0 B0 L) as (b1 & E & F1 & L1).
  cbn [after]. rewrite E. cbn [rbind]. change (peak M (p :: path)) with (peak (Rmax M p) path). apply IH; try assumption. pose proof (Rmax_l M p). lra.
Qed.
Lemma lying_close a0 c0 M b b' : valid a0 -> lying a0 c0 M b -> lying a0 c0 M b' -> 0 < M -> c_y (b_rsk b) - c_y (b_rsk b') < EPS /\ c_y (b_csh b') - c_y (b_csh b) <= M * EPS.
Proof.
  intros V (y & E & Hy & A & B & C) (y' & E' & Hy' & A' & B' & C') HM. rewrite E, E', C, C'. cbn [c_y with_y]. pose proof EPS_pos as HE.
  assert (L : y - y' < EPS). { apply Rnot_le_lt. intros L. specialize (B (y - y') ltac:(lra)). replace (y - (y - y')) with y' in B by ring. destruct A' as [A'|A']; lra. }
  split; [exact L|]. destruct (Rle_dec y y') as [H|H].
  - assert (cost a0 (c_y a0) (c_y a0 - y') <= cost a0 (c_y a0) (c_y a0 - y)). { replace (c_y a0 - y) with (c_y a0 - y' + (y' - y)) by ring. rewrite cost_split; [|exact V|lra|lra|lra]. replace (c_y a0 - (c_y a0 - y')) with y' by ring. pose proof (cost_nonneg a0 y' (y' - y) V ltac:(lra)). lra. }
    assert (0 <= M * EPS) by (apply Rmult_le_pos; lra). lra.
  - replace (c_y a0 - y') with (c_y a0 - y + (y - y')) by ring. rewrite cost_split; [|exact V|lra|lra|lra]. replace (c_y a0 - (c_y a0 - y)) with y by ring.
    assert (K : cost a0 y (y - y') <= M * EPS); [|lra]. destruct A' as [A'|A']; [lra|]. pose proof (rate_pos a0 y V ltac:(lra)) as R1. pose proof (rate_pos a0 y' V ltac:(lra)) as R2. rewrite raw_rate in A'.
    assert (M1 : rate a0 y' <= rate a0 y). { pose proof (rate_sub a0 y (y - y')) as RS. replace (y - (y - y')) with y' in RS by ring. rewrite RS by (destruct V as (_ & _ & V & _); lra). assert (0 <= c_S a0 / c_yint a0 * (y - y')); [|lra]. destruct V as (_ & V2 & V & _). apply Rmult_le_pos; [|lra]. apply Rmult_le_pos; [lra|]. left. apply Rinv_0_lt_compat. exact V. }
    unfold cost. replace (y - (y - y')) with y' by ring. apply (Rmult_le_reg_r (rate a0 y * rate a0 y')); [apply Rmult_lt_0_compat; assumption|]. unfold Rdiv. rewrite Rmult_assoc, Rinv_l, Rmult_1_r by (apply Rgt_not_eq; apply Rmult_lt_0_compat; assumption).
    assert (P : / M <= rate a0 y * rate a0 y') by (eapply Rle_trans; [exact A'|]; replace (rate a0 y' ^ 2) with (rate a0 y' * rate a0 y') by ring; apply Rmult_le_compat_r; lra).
    assert (Q : M * EPS * / M <= M * EPS * (rate a0 y * rate a0 y')) by (apply Rmult_le_compat_l; [apply Rmult_le_pos; lra|exact P]). replace (M * EPS * / M) with EPS in Q by (field; lra). lra.
Qed.
Lemma rising s b p path : fits s b -> Forall (fun q => 0 < q /\ buy_hi s <= q) (p :: path) -> exists b1 b2, after b (p :: path) = Ret b1 /\ after b [peak p path] = Ret b2 /\
  Rabs (c_y (b_rsk b1) - c_y (b_rsk b2)) < / 10 ^ 10 /\ Rabs (c_y (b_csh b1) - c_y (b_csh b2)) <= peak p path * / 10 ^ 10 /\
  (0 < c_yint (b_rsk b) -> 0 <= c_y (b_rsk b1) <= c_y (b_rsk b) /\ dxfromdy_f (b_rsk b) (c_y (b_rsk b) - c_y (b_rsk b1)) true true = Ret (Some (c_y (b_csh b1) - c_y (b_csh b)))).
Proof.
  intros F P. inversion P as [|? ? [Hp Hb] Hps]; subst. pose proof F as (G & _). destruct G as (Sa & Sb & HSa & HSb & Ba & Bb). pose proof (capped_valid _ Sa) as Va. destruct (capped_same (b_rsk b)) as (Ca1 & Ca2 & Ca3 & Ca4).
  destruct (lying_first s b p _ Hp F Hb eq_refl) as (b0 & E0 & F0 & L0). destruct (lying_path s (capped (b_rsk b)) (c_y (b_csh b)) path b0 p Hps Hp F0 Va ltac:(congruence) L0) as (b1 & E1 & F1 & L1).
  pose proof (peak_ge path p) as PG. destruct (lying_first s b (peak p path) _ ltac:(lra) F ltac:(lra) eq_refl) as (b2 & E2 & F2 & L2).
  exists b1, b2. cbn [after]. rewrite E0. cbn [rbind]. rewrite E1, E2. split; [reflexivity|]. split; [reflexivity|]. fold EPS.
  destruct (lying_close _ _ _ _ _ Va L1 L2 ltac:(lra)) as [C1 C2]. destruct (lying_close _ _ _ _ _ Va L2 L1 ltac:(lra)) as [C3 C4].
  split; [apply Rabs_def1; lra|]. split; [apply Rabs_le; lra|]. intros W. rewrite (capped_pos _ W) in *. destruct L1 as (y & Ey & Hy & _ & _ & HC). rewrite Ey, HC. cbn [c_y with_y]. split; [exact Hy|].
  rewrite dx_value; [|exact Va|lra|lra]. do 2 f_equal. ring.
Qed.
