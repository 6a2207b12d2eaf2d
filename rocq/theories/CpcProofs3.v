From Coq Require Import Reals Lra Bool String ZArith.
From Verif Require Import CurveModel CurveSpec CurveProofs CurveProofs2 CurveProofs4 CpcModel CpcSpec CpcProofs CpcProofs2.
From Verif Require Univ3Model Univ3Spec Univ3Proofs.
Local Open Scope R_scope.

(** the pool built from an order *)
Definition built (c : curve) (other tkn : string) : cpc :=
  mkCpc (c_yint c ^ 2 / c_S c ^ 2) (c_yint c / c_S c / rate c (c_y c)) 0 (c_y c) other tkn.

Lemma carbon_value c (tknb tknq tkn : string) : valid c -> 0 < c_S c -> tkn = tknb \/ tkn = tknq ->
  from_carbon (c_yint c) (c_y c) None None (Some (c_S c)) (Some (c_B c)) tknb tknq tkn true =
  Ret (built c (if String.eqb tkn tknq then tknb else tknq) tkn).
Proof.
  intros V HS Ht. pose proof V as (HB & _ & HZ & HY). pose proof (rate_pos c (c_y c) V ltac:(lra)) as HR.
  unfold from_carbon. rewrite !rlt_false by lra.
  assert (E : String.eqb tkn tknb || String.eqb tkn tknq = true).
  { destruct Ht as [->| ->]; rewrite String.eqb_refl; [reflexivity|apply orb_true_r]. }
  rewrite E. cbn [negb]. cbn [carbon_AB negb]. rewrite rlt_false by lra. cbn [rbind].
  assert (HS2 : 0 < c_S c ^ 2) by (apply pow_lt; exact HS).
  rewrite !rdiv_ok by lra. cbn [rbind]. 
  assert (EY : c_y c + c_yint c * c_B c / c_S c = c_yint c / c_S c * rate c (c_y c)) by (unfold rate; field; lra).
  assert (P : 0 < c_yint c / c_S c) by (apply Rdiv_lt_0_compat; assumption).
  rewrite EY, rdiv_ok by (apply Rgt_not_eq; apply Rmult_lt_0_compat; assumption). cbn [rbind].
  rewrite make_ok. 2:{ apply div_nz; [apply div_nz; [|lra]|apply Rgt_not_eq; apply Rmult_lt_0_compat; assumption]. apply Rgt_not_eq, pow_lt, HZ. }
  cbn [dflt]. f_equal. unfold built. f_equal. field. lra.
Qed.
Lemma built_y c o t : valid c -> 0 < c_S c -> y (built c o t) = c_yint c / c_S c * rate c (c_y c).
Proof. intros V HS. pose proof V as (HB & _ & HZ & HY). pose proof (rate_pos c (c_y c) V ltac:(lra)) as HR. unfold y, built. cbn [k x]. field. lra. Qed.
Lemma built_ok c o t : valid c -> 0 < c_S c -> pool_ok (built c o t) /\ x_min (built c o t) = x (built c o t) /\ y_min (built c o t) = c_yint c * c_B c / c_S c.
Proof.
  intros V HS. pose proof V as (HB & _ & HZ & HY). pose proof (rate_pos c (c_y c) V ltac:(lra)) as HR.
  pose proof (built_y c o t V HS) as EY.
  assert (EM : y_min (built c o t) = c_yint c * c_B c / c_S c).
  { unfold y_min. rewrite EY. unfold built, rate. cbn [y_act]. field. lra. }
  split; [|split; [unfold x_min, built; cbn [x x_act]; ring|exact EM]].
  assert (0 < c_yint c * c_B c / c_S c) by (apply Rdiv_lt_0_compat; [apply Rmult_lt_0_compat; lra|lra]).
  unfold pool_ok. change (k (built c o t) / x (built c o t)) with (y (built c o t)).
  assert (X : 0 < x (built c o t)) by (unfold built; cbn [x]; repeat apply Rdiv_lt_0_compat; assumption).
  assert (K : 0 < k (built c o t)) by (unfold built; cbn [k]; apply Rdiv_lt_0_compat; apply pow_lt; assumption).
  unfold y_min in EM. cbn [built x_act y_act] in *. lra.
Qed.
Lemma built_prices c o t : valid c -> 0 < c_S c ->
  CpcModel.p (built c o t) = raw_price c (c_y c) /\ p_max (built c o t) = Some (raw_price c (c_y c)) /\ p_min (built c o t) = Some (raw_price c 0).
Proof.
  intros V HS. pose proof V as (HB & _ & HZ & HY). pose proof (rate_pos c (c_y c) V ltac:(lra)) as HR.
  destruct (built_ok c o t V HS) as (OK & EX & EY). destruct (pool_pos _ OK) as (_ & _ & HX & _).
  assert (HM : 0 < y_min (built c o t)) by (rewrite EY; apply Rdiv_lt_0_compat; [apply Rmult_lt_0_compat; lra|lra]).
  assert (EP : CpcModel.p (built c o t) = raw_price c (c_y c)).
  { unfold CpcModel.p. rewrite built_y by assumption. rewrite raw_rate. unfold built. cbn [x]. field. lra. }
  split; [exact EP|]. split.
  - rewrite p_max_value, EX, (proj2 (rlt_iff _ _) HX). f_equal. exact EP.
  - rewrite p_min_value, (proj2 (rlt_iff _ _) HM), EY by exact OK. f_equal. rewrite raw_rate. unfold rate, built. cbn [k].
    field. lra.
Qed.
Lemma built_gain c o t dx : valid c -> 0 < c_S c -> 0 <= dx ->
  k (built c o t) / (x (built c o t) + dx) = y (built c o t) - gain c (c_y c) dx /\ 0 < x (built c o t) + dx.
Proof.
  intros V HS Hd. pose proof V as (HB & _ & HZ & HY). pose proof (rate_pos c (c_y c) V ltac:(lra)) as HR.
  pose proof (gain_den c (c_y c) dx V ltac:(lra) Hd) as HD.
  destruct (built_ok c o t V HS) as (OK & _ & _). destruct (pool_pos _ OK) as (_ & _ & HX & _). split; [|lra].
  rewrite built_y by assumption. unfold gain, built in *. cbn [k x] in *. set (r := rate c (c_y c)) in *. clearbody r.
  assert (0 <= r * c_S c * dx) by (repeat apply Rmult_le_pos; lra).
  assert (HD' : 0 < c_S c * dx * r + c_yint c) by lra.
  assert (HX' : c_yint c / c_S c / r + dx = (c_S c * dx * r + c_yint c) / (c_S c * r)) by (field; lra).
  assert (HE : c_S c / c_yint c * dx * r + 1 = (c_S c * dx * r + c_yint c) / c_yint c) by (field; lra).
  rewrite HX', HE. 
  assert (E : c_yint c / c_S c * r - dx * r ^ 2 / ((c_S c * dx * r + c_yint c) / c_yint c) =
              c_yint c * r / c_S c * (c_yint c / (c_S c * dx * r + c_yint c))) by (field; lra).
  rewrite E. field. lra.
Qed.
Lemma quote_equal c o t dx dy re : valid c -> 0 < c_S c -> 0 <= dx -> CurveModel.dyfromdx_f c dx true re = Ret (Some dy) ->
  (dy <= c_y c -> CpcModel.dyfromdx_f (built c o t) dx false = Ret (Some (- dy))) /\
  (c_y c < dy -> CpcModel.dyfromdx_f (built c o t) dx false = Ret None).
Proof.
  intros V HS Hd E. rewrite dy_value in E by assumption. assert (E' : dy = gain c (c_y c) dx) by congruence.
  destruct (built_ok c o t V HS) as (OK & _ & _). destruct (built_gain c o t dx V HS Hd) as [G1 G2]. rewrite <- E' in G1. clear E E'.
  assert (X : execute (built c o t) (Some dx) None true = Ret (moved (built c o t) (x (built c o t) + dx) (k (built c o t) / (x (built c o t) + dx)))).
  { apply exec_dx. split; [left; reflexivity|]. split; [lra|reflexivity]. }
  pose proof (quote_dx _ _ _ OK X) as [Q1 Q2]. rewrite y_moved in Q1. rewrite G1 in Q1. cbn [moved x_act y_act] in Q1, Q2. rewrite G1 in Q2. cbn [built x_act y_act] in Q1, Q2.
  split; intros H.
  - rewrite Q1 by (cbn [built x]; lra). do 2 f_equal. ring.
  - apply Q2. right. lra.
Qed.
Lemma quote_equal_dy c o t dy dx re : valid c -> 0 < c_S c -> 0 <= dy <= c_y c -> CurveModel.dxfromdy_f c dy true re = Ret (Some dx) ->
  CpcModel.dxfromdy_f (built c o t) (- dy) false = Ret (Some dx).
Proof.
  intros V HS Hd E. pose proof V as (HB & _ & HZ & HY). rewrite dx_value in E by (try assumption; lra). assert (E' : dx = cost c (c_y c) dy) by congruence.
  pose proof (cost_nonneg c (c_y c) dy V Hd) as Hc. pose proof (gain_cost c (c_y c) dy V Hd) as Hg. rewrite <- E' in Hc, Hg. clear E E'.
  destruct (built_ok c o t V HS) as (OK & _ & EM). destruct (built_gain c o t dx V HS Hc) as [G1 G2]. rewrite Hg in G1.
  destruct (pool_pos _ OK) as (PY & PK & PX & PXY & _).
  assert (HM : 0 < y_min (built c o t)) by (rewrite EM; apply Rdiv_lt_0_compat; [apply Rmult_lt_0_compat; lra|lra]).
  assert (HN : 0 < y (built c o t) + - dy) by (unfold y_min in HM; cbn [built y_act] in HM; lra).
  assert (GX : k (built c o t) / (y (built c o t) + - dy) = x (built c o t) + dx).
  { replace (y (built c o t) + - dy) with (k (built c o t) / (x (built c o t) + dx)) by lra. apply div_div; lra. }
  assert (X : execute (built c o t) None (Some (- dy)) true = Ret (moved (built c o t) (k (built c o t) / (y (built c o t) + - dy)) (y (built c o t) + - dy))).
  { apply exec_dy. split; [left; reflexivity|]. split; [lra|]. split; [lra|reflexivity]. }
  pose proof (quote_dy _ _ _ OK X) as [Q _]. cbn [moved x x_act y_act] in Q. rewrite GX in Q. 
  replace (x (built c o t) + dx - x (built c o t)) with dx in Q by ring. apply Q. cbn [built x_act y_act]. lra.
Qed.
Lemma carbon_execute c o t dy : valid c -> 0 < c_S c -> 0 <= dy <= c_y c -> exists c', execute (built c o t) None (Some (- dy)) false = Ret c' /\
  y_act c' = c_y c - dy /\ k c' = k (built (with_y c (c_y c - dy)) o t) /\ x c' = x (built (with_y c (c_y c - dy)) o t) /\
  CurveModel.dxfromdy_f c dy true true = Ret (Some (x_act c')) /\ CpcModel.p c' = raw_price c (c_y c - dy).
Proof.
  intros V HS Hd. pose proof V as (HB & _ & HZ & HY).
  pose proof (cost_nonneg c (c_y c) dy V Hd) as Hc. pose proof (gain_cost c (c_y c) dy V Hd) as Hg.
  destruct (built_ok c o t V HS) as (OK & _ & EM). destruct (pool_pos _ OK) as (PY & PK & PX & PXY & _).
  assert (HM : 0 < y_min (built c o t)) by (rewrite EM; apply Rdiv_lt_0_compat; [apply Rmult_lt_0_compat; lra|lra]).
  assert (HN : 0 < y (built c o t) + - dy) by (unfold y_min in HM; cbn [built y_act] in HM; lra).
  destruct (built_gain c o t _ V HS Hc) as [G1 G2]. rewrite Hg in G1.
  assert (GX : k (built c o t) / (y (built c o t) + - dy) = x (built c o t) + cost c (c_y c) dy).
  { replace (y (built c o t) + - dy) with (k (built c o t) / (x (built c o t) + cost c (c_y c) dy)) by lra. apply div_div; lra. }
  pose proof (rate_pos c (c_y c) V ltac:(lra)) as R1. pose proof (rate_pos c (c_y c - dy) V ltac:(lra)) as R2.
  assert (RX : x (built c o t) + cost c (c_y c) dy = c_yint c / c_S c / rate c (c_y c - dy)).
  { unfold built, cost. cbn [x]. pose proof (rate_sub c (c_y c) dy ltac:(lra)) as RS. 
    assert (RS' : dy = (rate c (c_y c) - rate c (c_y c - dy)) * c_yint c / c_S c) by (rewrite RS; field; lra). rewrite RS' at 1.
    set (r1 := rate c (c_y c)) in *. set (r2 := rate c (c_y c - dy)) in *. clearbody r1 r2. field. lra. }
  eexists. split; [apply exec_dy; split; [right; cbn [built y_act]; lra|split; [lra|split; [lra|reflexivity]]]|].
  cbn [moved x x_act y_act k]. rewrite GX. split; [cbn [built y_act]; lra|]. split; [reflexivity|]. split; [exact RX|]. split.
  - rewrite dx_value by (try assumption; lra). do 2 f_equal. cbn [built x_act]. ring.
  - unfold CpcModel.p. rewrite y_moved. rewrite RX, raw_rate. cbn [moved built k x]. field. lra.
Qed.

(** prices *)
Lemma carbon_prices yint y0 pa pb tknb tknq tkn : 0 < pb < pa -> 
  from_carbon yint y0 (Some pa) (Some pb) None None tknb tknq tkn true =
  from_carbon yint y0 None None (Some (sqrt pa - sqrt pb)) (Some (sqrt pb)) tknb tknq tkn true.
Proof.
  intros H. unfold from_carbon. cbn [carbon_AB negb andb]. assert (L : sqrt pb < sqrt pa) by (apply sqrt_lt_1; lra). 
  rewrite (rlt_false (sqrt pa - sqrt pb) 0) by lra. cbn [rbind]. rewrite req_false by lra. rewrite (rlt_true pb pa) by lra. cbn [negb].
  rewrite !rsqrt_ok by lra. cbn [rbind]. reflexivity.
Qed.
Lemma carbon_from_prices (base : bool) lo hi yint y0 c tb tq : 0 < lo < hi -> tb <> tq ->
  CurveModel.from_prices base lo hi yint y0 = Ret c ->
  from_carbon yint y0 (Some (if base then lo else hi)) (Some (if base then hi else lo)) None None tb tq (if base then tb else tq) false =
  from_carbon yint y0 None None (Some (c_S c)) (Some (c_B c)) tb tq (if base then tb else tq) true.
Proof.
  intros H Ht E. unfold from_prices in E.
  destruct (rlt yint 0) eqn:E1; [discriminate|]. destruct (rlt yint y0) eqn:E2; [discriminate|]. destruct (rlt y0 0) eqn:E3; [discriminate|].
  assert (C : c_S c = sqrt (if base then 1 / lo else hi) - sqrt (if base then 1 / hi else lo) /\ c_B c = sqrt (if base then 1 / hi else lo)).
  { assert (D : forall a b, 0 < a -> a < b -> 0 < 1 / b < 1 / a).
    { intros a b Ha Hab. unfold Rdiv. rewrite !Rmult_1_l. split; [apply Rinv_0_lt_compat; lra|]. apply Rinv_lt_contravar; [apply Rmult_lt_0_compat; lra|lra]. }
    destruct base.
    - pose proof (D lo hi ltac:(lra) ltac:(lra)) as D'. rewrite !rdiv_ok in E by lra. cbn [rbind] in E. rewrite (rlt_false (1 / lo)) in E by lra.
      rewrite !rsqrt_ok in E by lra. cbn [rbind] in E. unfold construct in E. destruct (pminmax _) in E; [|discriminate]. cbn [rbind] in E.
      split; replace c with (mkCurve true (sqrt (1 / hi)) (sqrt (1 / lo) - sqrt (1 / hi)) yint y0) by congruence; reflexivity.
    - cbn [rbind] in E. rewrite (rlt_true lo hi) in E by lra. rewrite !rsqrt_ok in E by lra. cbn [rbind] in E. unfold construct in E. destruct (pminmax _) in E; [|discriminate]. cbn [rbind] in E.
      split; replace c with (mkCurve false (sqrt lo) (sqrt hi - sqrt lo) yint y0) by congruence; reflexivity. }
  destruct C as [-> ->].
  assert (P : 0 < (if base then 1 / hi else lo) < (if base then 1 / lo else hi)).
  { destruct base; [|lra]. unfold Rdiv. rewrite !Rmult_1_l. split; [apply Rinv_0_lt_compat; lra|]. apply Rinv_lt_contravar; [apply Rmult_lt_0_compat; lra|lra]. }
  rewrite <- carbon_prices by exact P. unfold from_carbon. rewrite E2, E3.
  destruct base.
  - rewrite String.eqb_refl. cbn [orb negb]. assert (N : String.eqb tb tq = false) by (apply String.eqb_neq; exact Ht). rewrite N.
    cbn [carbon_AB negb andb]. rewrite !rdiv_ok by lra. cbn [rbind]. reflexivity.
  - rewrite String.eqb_refl. rewrite orb_true_r. cbn [negb carbon_AB andb]. cbn [rbind]. reflexivity.
Qed.
Lemma widen_gt1 : 1 < WIDEN. Proof. unfold WIDEN. assert (0 < / 10 ^ 7) by (apply Rinv_0_lt_compat, pow_lt; lra). lra. Qed.
Lemma carbon_zero_width yint y0 pp tknb tknq tkn : 0 < pp ->
  from_carbon yint y0 (Some pp) (Some pp) None None tknb tknq tkn true =
  from_carbon yint y0 (Some (pp * WIDEN)) (Some (pp / WIDEN)) None None tknb tknq tkn true.
Proof.
  intros H. pose proof widen_gt1 as W. 
  assert (A : pp < pp * WIDEN) by (rewrite <- (Rmult_1_r pp) at 1; apply Rmult_lt_compat_l; lra).
  assert (B : pp / WIDEN < pp) by (apply div_lt; lra).
  unfold from_carbon. cbn [carbon_AB negb andb rbind]. rewrite (req_true pp pp) by reflexivity. rewrite (req_false (pp * WIDEN)) by lra. reflexivity.
Qed.
Lemma carbon_order yint y0 pa pb tknb tknq tkn : pa < pb -> from_carbon yint y0 (Some pa) (Some pb) None None tknb tknq tkn true = Raise AssertionError.
Proof.
  intros H. unfold from_carbon. destruct (rlt yint y0); [reflexivity|]. destruct (rlt y0 0); [reflexivity|]. destruct (negb (_ || _)); [reflexivity|].
  cbn [carbon_AB negb andb rbind]. rewrite req_false by lra. rewrite rlt_false by lra. reflexivity.
Qed.

(** as_cpc *)
Lemma kappa_value c : valid c -> 0 < c_S c -> CurveModel.kappa c = Ret (c_yint c ^ 2 / c_S c ^ 2).
Proof.
  intros V HS. destruct (virtual_values c V HS) as (s & T & Hs & HT & EB & ES & _ & _ & _ & _ & _ & ->). f_equal. rewrite ES.
  assert (0 < 1 - s ^ 2) by (assert (s ^ 2 < 1); [|lra]; replace (s ^ 2) with (s * s) by ring; assert (s * s < 1 * 1) by (apply Rmult_le_0_lt_compat; lra); lra).
  field. lra.
Qed.
Lemma sqrt_is a b : 0 <= b -> b * b = a -> sqrt a = b. Proof. intros H <-. apply sqrt_square. exact H. Qed.
Lemma as_cpc_value c tb tq : valid c -> 0 < c_S c -> tb <> tq ->
  as_cpc c tb tq = Ret (if c_base c then mirror (built c tq tb) else built c tb tq).
Proof.
  intros V HS Ht. pose proof V as (HB & _ & HZ & HY). pose proof (rate_pos c (c_y c) V ltac:(lra)) as R1. pose proof (rate_pos c 0 V ltac:(lra)) as R0.
  unfold as_cpc. unfold p_marg. rewrite p_marg_value by (try assumption; lra). rewrite price_empty by exact V. rewrite kappa_value by assumption. cbn [rbind].
  rewrite Rminus_0_r. unfold price_at, in_quote. rewrite !raw_rate.
  assert (E0 : rate c 0 = c_B c) by (unfold rate; field; lra).
  assert (LE : rate c 0 <= rate c (c_y c)).
  { rewrite E0. unfold rate. assert (0 <= c_S c * (c_y c / c_yint c)); [|lra]. apply Rmult_le_pos; [lra|]. apply Rmult_le_pos; [lra|]. left. apply Rinv_0_lt_compat, HZ. }
  assert (EYb : c_y c = (rate c (c_y c) - rate c 0) * c_yint c / c_S c) by (rewrite E0; unfold rate; field; lra).
  set (r := rate c (c_y c)) in *. set (b := rate c 0) in *.
  assert (K : 0 < c_yint c ^ 2 / c_S c ^ 2) by (apply Rdiv_lt_0_compat; apply pow_lt; assumption).
  assert (PR : 0 < r ^ 2) by (apply pow_lt; exact R1). assert (PB : 0 < b ^ 2) by (apply pow_lt; exact R0).
  assert (SQ : b ^ 2 <= r ^ 2) by (apply pow_incr; lra).
  assert (G : 0 < c_yint c / c_S c) by (apply Rdiv_lt_0_compat; assumption).
  assert (Q1 : forall v, 0 < v -> sqrt (c_yint c ^ 2 / c_S c ^ 2 * v ^ 2) = c_yint c / c_S c * v).
  { intros v Hv. apply sqrt_is; [apply Rmult_le_pos; lra|]. field. lra. }
  assert (Q2 : forall v, 0 < v -> sqrt (c_yint c ^ 2 / c_S c ^ 2 / v ^ 2) = c_yint c / c_S c / v).
  { intros v Hv. apply sqrt_is; [apply Rmult_le_pos; [lra|left; apply Rinv_0_lt_compat; exact Hv]|]. field. lra. }
  destruct (c_base c) eqn:EB.
  - assert (IR : 0 < / r ^ 2) by (apply Rinv_0_lt_compat; exact PR). assert (IB : / r ^ 2 <= / b ^ 2) by (apply Rinv_le_contravar; lra).
    destruct (pkpp_value (/ r ^ 2) (c_yint c ^ 2 / c_S c ^ 2) (Some (/ r ^ 2)) (Some (/ b ^ 2)) tb tq K IR ltac:(cbn [dflt]; lra) ltac:(cbn [dflt]; lra))
      as (cc & -> & OK & Ek & Ep & Ex & Ey & Exa & Eya & _ & _ & E1 & E2). f_equal.
    cbn [dflt] in Exa, Eya.
    replace (c_yint c ^ 2 / c_S c ^ 2 / / r ^ 2) with (c_yint c ^ 2 / c_S c ^ 2 * r ^ 2) in Ex, Exa by (field; lra).
    replace (c_yint c ^ 2 / c_S c ^ 2 / / b ^ 2) with (c_yint c ^ 2 / c_S c ^ 2 * b ^ 2) in Exa by (field; lra).
    rewrite Q1 in Ex, Exa by assumption. rewrite (Q1 b) in Exa by assumption.
    apply cpc_eq; cbn [mirror built k x x_act y_act tknx tkny]; fold r; try assumption.
    + rewrite Ex. field. lra.
    + rewrite Exa, EYb. field. lra.
    + rewrite Eya. ring.
  - destruct (pkpp_value (r ^ 2) (c_yint c ^ 2 / c_S c ^ 2) (Some (b ^ 2)) (Some (r ^ 2)) tb tq K PR ltac:(cbn [dflt]; lra) ltac:(cbn [dflt]; lra))
      as (cc & -> & OK & Ek & Ep & Ex & Ey & Exa & Eya & _ & _ & E1 & E2). f_equal.
    cbn [dflt] in Exa, Eya. rewrite Q2 in Ex by assumption. rewrite !Q1 in Eya by assumption.
    apply cpc_eq; cbn [built k x x_act y_act tknx tkny]; fold r; try assumption.
    + rewrite Exa. ring.
    + rewrite Eya, EYb. field. lra.
Qed.

(** Uniswap v3 *)
Lemma univ3_value P L Pa Pb tx ty : 0 <= Pa < P -> P < Pb -> 0 < L -> exists c, from_univ3 P L Pa Pb tx ty = Ret c /\ pool_ok c /\
  k c = L * L /\ CpcModel.p c = P /\ x c = L / sqrt P /\ y c = L * sqrt P /\ x_act c = L / sqrt P - L / sqrt Pb /\ y_act c = L * sqrt P - L * sqrt Pa /\
  p_max c = Some Pb /\ p_min c = (if rlt 0 Pa then Some Pa else None).
Proof.
  intros H1 H2 HL. unfold from_univ3. rewrite !rlt_true by lra. cbn [negb andb].
  destruct (pkpp_value P (L * L) (Some Pa) (Some Pb) tx ty ltac:(apply Rmult_lt_0_compat; assumption) ltac:(lra) ltac:(cbn [dflt]; lra) ltac:(cbn [dflt]; lra))
    as (c & -> & OK & Ek & Ep & Ex & Ey & Exa & Eya & EM & Em & _). cbn [dflt] in *.
  assert (Q1 : forall v, 0 < v -> sqrt (L * L / v) = L / sqrt v).
  { intros v Hv. assert (0 < sqrt v) by (apply sqrt_lt_R0; exact Hv). apply sqrt_is; [apply Rmult_le_pos; [lra|left; apply Rinv_0_lt_compat; assumption]|].
    transitivity (L * L / (sqrt v * sqrt v)); [field; lra|]. rewrite sqrt_sqrt by lra. reflexivity. }
  assert (Q2 : forall v, 0 <= v -> sqrt (L * L * v) = L * sqrt v).
  { intros v Hv. apply sqrt_is; [apply Rmult_le_pos; [lra|apply sqrt_pos]|]. transitivity (L * L * (sqrt v * sqrt v)); [ring|]. rewrite sqrt_sqrt by lra. reflexivity. }
  rewrite Q1 in Ex, Exa by lra. rewrite (Q1 Pb) in Exa by lra. rewrite !Q2 in * by lra.
  exists c. repeat (split; [first [assumption|reflexivity]|]). exact Em.
Qed.
Lemma univ3_reserves u t0 t1 ra rb : (0 < Univ3Model.sp96 u)%Z -> (0 < Univ3Model.liquidity u)%Z -> Univ3Model.papb_raw u = Some (ra, rb) ->
  let s := IZR (Univ3Model.sp96 u) / 2 ^ 96 in sqrt ra < s < sqrt rb ->
  exists c, univ3_as_cpc u t0 t1 = Ret c /\ pool_ok c /\
    x_act c = Univ3Spec.in_tokens (Univ3Spec.real_wei0 (IZR (Univ3Model.liquidity u)) s (sqrt rb)) (Univ3Model.tkn0dec u) /\
    y_act c = Univ3Spec.in_tokens (Univ3Spec.real_wei1 (IZR (Univ3Model.liquidity u)) s (sqrt ra)) (Univ3Model.tkn1dec u).
Proof.
  intros Hs Hl H s Hr. assert (Hp : Univ3Model.papb u = Some (ra * Univ3Model.decf u, rb * Univ3Model.decf u)) by (unfold Univ3Model.papb; rewrite H; reflexivity).
  pose proof Hp as Hp'. apply Univ3Proofs.papb_some in Hp' as (ta & tb & Ht & EA & EB).
  assert (E : Univ3Model.papb_raw u = Some (Univ3Model.tick_price ta, Univ3Model.tick_price tb)) by (unfold Univ3Model.papb_raw; rewrite Ht; reflexivity).
  rewrite E in H. assert (ra = Univ3Model.tick_price ta /\ rb = Univ3Model.tick_price tb) as [-> ->] by (split; congruence). clear EA EB.
  assert (S0 : 0 < s) by exact (Univ3Proofs.raw_sqrt_pos u Hs). unfold univ3_as_cpc. rewrite Hp.
  pose proof (Univ3Proofs.decf_pos u) as HD. pose proof (Univ3Proofs.tick_price_pos ta) as HTa. pose proof (Univ3Proofs.tick_price_pos tb) as HTb.
  assert (EP : Univ3Model.p u = s * s * Univ3Model.decf u) by (unfold Univ3Model.p; rewrite Univ3Proofs.price_raw; reflexivity).
  assert (LA : Univ3Model.tick_price ta < s * s).
  { rewrite <- (sqrt_sqrt (Univ3Model.tick_price ta)) by lra. apply sq_lt; [apply sqrt_pos|lra|lra]. }
  assert (LB : s * s < Univ3Model.tick_price tb).
  { rewrite <- (sqrt_sqrt (Univ3Model.tick_price tb)) by lra. apply sq_lt; [lra|apply sqrt_pos|lra]. }
  assert (HL : Univ3Model.L u = IZR (Univ3Model.liquidity u) / (Univ3Proofs.sdec (Univ3Model.tkn0dec u) * Univ3Proofs.sdec (Univ3Model.tkn1dec u))).
  { unfold Univ3Model.L. rewrite Univ3Proofs.Rpower_half, Univ3Proofs.sdec_add. reflexivity. }
  assert (P0 := Univ3Proofs.sdec_pos (Univ3Model.tkn0dec u)). assert (P1 := Univ3Proofs.sdec_pos (Univ3Model.tkn1dec u)).
  assert (P2 := Univ3Proofs.sdec_pos (Univ3Model.tkn0dec u - Univ3Model.tkn1dec u)). apply IZR_lt in Hl.
  assert (HLp : 0 < Univ3Model.L u) by (rewrite HL; apply Rdiv_lt_0_compat; [lra|apply Rmult_lt_0_compat; assumption]).
  destruct (univ3_value (Univ3Model.p u) (Univ3Model.L u) (Univ3Model.tick_price ta * Univ3Model.decf u) (Univ3Model.tick_price tb * Univ3Model.decf u) t0 t1)
    as (c & EC & OK & _ & _ & _ & _ & EX & EY & _).
  - rewrite EP. split; [apply Rmult_le_pos; lra|]. apply Rmult_lt_compat_r; assumption.
  - rewrite EP. apply Rmult_lt_compat_r; assumption.
  - exact HLp.
  - exists c. split; [exact EC|]. split; [exact OK|]. rewrite EX, EY. rewrite Univ3Proofs.sqrt_p, !Univ3Proofs.sqrt_tick by exact Hs.
    change (Univ3Proofs.raw_sqrt u) with s. rewrite HL.
    assert (DD : Univ3Proofs.sdec (Univ3Model.tkn0dec u) = Univ3Proofs.sdec (Univ3Model.tkn0dec u - Univ3Model.tkn1dec u) * Univ3Proofs.sdec (Univ3Model.tkn1dec u)).
    { rewrite <- Univ3Proofs.sdec_add. f_equal. ring. }
    assert (SB : 0 < sqrt (Univ3Model.tick_price tb)) by (apply sqrt_lt_R0; exact HTb).
    unfold Univ3Spec.in_tokens, Univ3Spec.real_wei0, Univ3Spec.real_wei1. rewrite <- !Univ3Proofs.sdec_sq. rewrite DD.
    set (q := Univ3Proofs.sdec (Univ3Model.tkn0dec u - Univ3Model.tkn1dec u)) in *. set (w := Univ3Proofs.sdec (Univ3Model.tkn1dec u)) in *.
    set (sb := sqrt (Univ3Model.tick_price tb)) in *. set (sa := sqrt (Univ3Model.tick_price ta)) in *. clearbody q w s sb sa. split; field; lra.
Qed.

(** the inverter *)
Lemma mirror_ok c : pool_ok c -> pool_ok (mirror c) /\ mirror (mirror c) = c /\ y (mirror c) = x c /\ x (mirror c) = y c.
Proof.
  intros H. destruct (pool_pos c H) as (Hy & Hk & Hx & Hxy & Hm & Hn). pose proof H as (_ & _ & Ha & Hb).
  assert (E : k c / (k c / x c) = x c) by (apply div_div; lra).
  split; [|split; [|split; [exact E|reflexivity]]].
  - unfold pool_ok, mirror. cbn [k x x_act y_act]. rewrite E. fold (y c). unfold y in *. lra.
  - apply cpc_eq; try reflexivity. exact E.
Qed.
Lemma mirror_bounds c : pool_ok c -> x_min (mirror c) = y_min c /\ y_min (mirror c) = x_min c /\ x_max (mirror c) = y_max c /\ y_max (mirror c) = x_max c.
Proof.
  intros H. destruct (mirror_ok c H) as (OK & _ & EY & EX).
  assert (A : x_min (mirror c) = y_min c) by (unfold x_min; rewrite EX; reflexivity).
  assert (B : y_min (mirror c) = x_min c) by (unfold y_min; rewrite EY; reflexivity).
  split; [exact A|]. split; [exact B|]. unfold x_max, y_max. rewrite A, B. split; reflexivity.
Qed.
Lemma mirror_p c : pool_ok c -> CpcModel.p (mirror c) = / CpcModel.p c.
Proof.
  intros H. destruct (mirror_ok c H) as (OK & _ & EY & EX). destruct (pool_pos c H) as (Hy & _ & Hx & _).
  unfold CpcModel.p. rewrite EX, EY. field. lra.
Qed.
Lemma mirror_pbounds c : pool_ok c ->
  p_max (mirror c) = match p_min c with Some m => Some (/ m) | None => None end /\ p_min (mirror c) = match p_max c with Some m => Some (/ m) | None => None end /\
  (forall m, p_min c = Some m -> 0 < m) /\ (forall m, p_max c = Some m -> 0 < m).
Proof.
  intros H. destruct (mirror_ok c H) as (OK & _). destruct (mirror_bounds c H) as (A & B & _). destruct (pool_pos c H) as (Hy & Hk & Hx & _).
  rewrite !p_max_value, !p_min_value by assumption. rewrite A, B. change (k (mirror c)) with (k c).
  destruct (rlt 0 (x_min c)) eqn:E1; destruct (rlt 0 (y_min c)) eqn:E2; try apply rlt_iff in E1; try apply rlt_iff in E2;
    repeat split; try discriminate; try (f_equal; field; lra); intros m [= <-]; repeat apply Rdiv_lt_0_compat; assumption.
Qed.
Lemma mirror_yfromx c X ib : pool_ok c -> inv_yfromx_f c X ib = CpcModel.yfromx_f (mirror c) X ib /\ inv_xfromy_f c X ib = CpcModel.xfromy_f (mirror c) X ib /\
  inv_dyfromdx_f c X ib = CpcModel.dyfromdx_f (mirror c) X ib /\ inv_dxfromdy_f c X ib = CpcModel.dxfromdy_f (mirror c) X ib.
Proof.
  intros H. destruct (mirror_bounds c H) as (A & B & C & D). destruct (mirror_ok c H) as (_ & _ & EY & EX).
  assert (E1 : forall v, CpcModel.yfromx_f (mirror c) v ib = CpcModel.xfromy_f c v ib) by (intros v; unfold CpcModel.yfromx_f, CpcModel.xfromy_f; rewrite B, D; reflexivity).
  assert (E2 : forall v, CpcModel.xfromy_f (mirror c) v ib = CpcModel.yfromx_f c v ib) by (intros v; unfold CpcModel.yfromx_f, CpcModel.xfromy_f; rewrite A, C; reflexivity).
  unfold inv_yfromx_f, inv_xfromy_f, inv_dyfromdx_f, inv_dxfromdy_f.
  split; [symmetry; apply E1|]. split; [symmetry; apply E2|].
  unfold CpcModel.dyfromdx_f, CpcModel.dxfromdy_f. rewrite EX, EY, E1, E2. split; reflexivity.
Qed.
Lemma mirror_execute c dx dy ib : pool_ok c ->
  execute (mirror c) dx dy ib = match inv_execute c dx dy ib with Ret c' => Ret (mirror c') | Raise e => Raise e end.
Proof.
  intros H. destruct (mirror_ok c H) as (OK & _ & EY & EX). destruct (pool_pos c H) as (Hy & Hk & Hx & _). unfold inv_execute.
  assert (N : x c <> 0) by lra.
  destruct dx as [dx|]; destruct dy as [dy|]; [reflexivity| | |].
  - (* dx on the mirror is dy on the curve *)
    unfold execute. cbn [dflt]. rewrite EX. change (x_act (mirror c)) with (y_act c). destruct (negb _ && negb ib); [reflexivity|].
    change (k (mirror c)) with (k c). destruct (Req_EM_T (y c + dx) 0) as [Z|Z].
    + unfold rdiv. rewrite !(req_true _ _ Z). reflexivity.
    + rewrite !rdiv_ok by exact Z. cbn [rbind]. rewrite !make_ok by (try apply div_nz; lra). f_equal.
      cbn [dflt]. apply cpc_eq; cbn [mirror k x x_act y_act tknx tkny]; try reflexivity; first [rewrite div_div by lra; reflexivity|rewrite EY; reflexivity|idtac].
  - unfold execute. cbn [dflt]. rewrite EY. change (y_act (mirror c)) with (x_act c). destruct (negb _ && negb ib); [reflexivity|].
    change (k (mirror c)) with (k c). destruct (Req_EM_T (x c + dy) 0) as [Z|Z].
    + unfold rdiv. rewrite !(req_true _ _ Z). reflexivity.
    + rewrite !rdiv_ok by exact Z. cbn [rbind]. rewrite !make_ok by (try apply div_nz; lra). f_equal.
  - unfold execute. cbn [dflt]. pose proof H as (_ & _ & (Ha & _) & (Hb & _)). 
    change (x_act (mirror c)) with (y_act c). rewrite !rle_true by lra. cbn [negb andb]. rewrite EX, EY, !Rplus_0_r.
    rewrite !rdiv_ok by (cbn [mirror k]; lra). cbn [rbind]. rewrite !make_ok by lra. f_equal. cbn [dflt]. 
    assert (EE : k (mirror c) / y c = x c) by (change (k (mirror c)) with (k c); unfold y; apply div_div; lra). rewrite EE.
    apply cpc_eq; cbn [mirror k x x_act y_act tknx tkny]; unfold y; try reflexivity; ring.
Qed.
Lemma mirror_xyfromp c p0 ib : pool_ok c -> 0 < p0 ->
  inv_xyfromp_f c (Some p0) ib = CpcModel.xyfromp_f (mirror c) (Some p0) ib /\ inv_dxdyfromp_f c (Some p0) ib = CpcModel.dxdyfromp_f (mirror c) (Some p0) ib.
Proof.
  intros H Hp. destruct (mirror_ok c H) as (OK & _ & EY & EX). destruct (mirror_bounds c H) as (A & B & C & D). pose proof (proj1 H) as Hk.
  assert (Hi : 0 < / p0) by (apply Rinv_0_lt_compat; exact Hp).
  destruct (root_exists c (/ p0) Hk Hi) as (X & HX & E & F). destruct (root_exists (mirror c) p0 Hk Hp) as (X' & HX' & E' & F').
  assert (EE : X' = X * / p0).
  { apply (root_unique p0); try assumption; [apply Rmult_lt_0_compat; assumption|]. rewrite E'. change (k (mirror c)) with (k c). rewrite <- E. field. lra. }
  assert (EE' : X' * p0 = X) by (rewrite EE; field; lra).
  assert (G : inv_xyfromp_f c (Some p0) ib = CpcModel.xyfromp_f (mirror c) (Some p0) ib).
  { unfold inv_xyfromp_f, inv_arg. rewrite rdiv_ok by lra. cbn [rbind]. replace (1 / p0) with (/ p0) by (unfold Rdiv; ring).
    rewrite F, F', A, B, C, D, EE', EE. cbn [rbind]. destruct ib; unfold inv_swap; rewrite rdiv_ok by lra; cbn [rbind];
      replace (1 / / p0) with p0 by (field; lra); reflexivity. }
  split; [exact G|]. unfold inv_dxdyfromp_f, CpcModel.dxdyfromp_f. rewrite <- G. unfold inv_xyfromp_f, inv_arg. rewrite rdiv_ok by lra. cbn [rbind].
  replace (1 / p0) with (/ p0) by (unfold Rdiv; ring). rewrite F. cbn [rbind]. rewrite EX, EY.
  destruct ib; unfold inv_swap; repeat (cbn [rbind]; rewrite rdiv_ok by lra); cbn [rbind]; reflexivity.
Qed.
