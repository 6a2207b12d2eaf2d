From Coq Require Import Reals Bool Lra Lia.
From Verif Require Import CurveModel CurveSpec CurveProofs CurveProofs2 CurveProofs3.
Local Open Scope R_scope.

(** ** C40, C41 *)
Lemma sale s dy dx (an ec re : bool) : valid (l_me s) -> sound_opt (l_other s) -> EPS <= dy <= c_y (l_me s) -> dxfromdy_f (l_me s) dy true true = Ret (Some dx) ->
  0 < dx /\ fst (selly s dy true an ec re) = mkLinked (with_y (l_me s) (c_y (l_me s) - dy)) (option_map (received dx) (l_other s)) /\
  exists r, snd (selly s dy true an ec re) = Ret (Some r) /\ s_executed r = true /\ s_dy r = dy /\ s_dx r = dx /\ s_y r = c_y (l_me s) - dy.
Proof.
  intros V VO H E. pose proof EPS_pos as HE. rewrite dx_value in E by (try assumption; lra). injection E as <-. split.
  - unfold cost. apply Rmult_lt_0_compat; [lra|]. apply Rinv_0_lt_compat. pose proof V as (_ & _ & _ & HY). apply Rmult_lt_0_compat; apply rate_pos; try assumption; lra.
  - rewrite selly_value by (try assumption; lra). unfold settled. rewrite rlt_false by lra. split; [reflexivity|]. cbn [snd]. eexists. split; [reflexivity|]. cbn. auto.
Qed.
Lemma preview s dy dx (an ec re : bool) : valid (l_me s) -> sound_opt (l_other s) -> EPS <= dy <= c_y (l_me s) -> dxfromdy_f (l_me s) dy true true = Ret (Some dx) ->
  0 < dx /\ fst (selly s dy false an ec re) = mkLinked (l_me s) (option_map (received dx) (l_other s)) /\
  exists r, snd (selly s dy false an ec re) = Ret (Some r) /\ s_executed r = false /\ s_dy r = dy /\ s_dx r = dx /\ s_y r = c_y (l_me s) - dy.
Proof.
  intros V VO H E. pose proof EPS_pos as HE. rewrite dx_value in E by (try assumption; lra). injection E as <-. split.
  - unfold cost. apply Rmult_lt_0_compat; [lra|]. apply Rinv_0_lt_compat. pose proof V as (_ & _ & _ & HY). apply Rmult_lt_0_compat; apply rate_pos; try assumption; lra.
  - rewrite selly_value by (try assumption; lra). unfold settled. rewrite rlt_false by lra. split; [reflexivity|]. cbn [snd]. eexists. split; [reflexivity|]. cbn. auto.
Qed.
Lemma purchase s dx dy (an ec re : bool) : valid (l_me s) -> sound_opt (l_other s) -> 0 <= dx -> dyfromdx_f (l_me s) dx true true = Ret (Some dy) -> EPS <= dy <= c_y (l_me s) ->
  fst (buyx s dx true an ec re) = mkLinked (with_y (l_me s) (c_y (l_me s) - dy)) (option_map (received dx) (l_other s)) /\
  exists r, snd (buyx s dx true an ec re) = Ret (Some r) /\ s_executed r = true /\ s_dy r = dy /\ s_dx r = dx.
Proof.
  intros V VO Hx E H. destruct (inverse_dx _ _ _ _ true V Hx E (proj2 H)) as [_ E2].
  destruct (sale s dy dx an ec re V VO H E2) as (_ & F & r & G & H1 & H2 & H3 & _).
  rewrite dy_value in E by assumption. unfold buyx. rewrite dy_value by assumption. injection E as ->.
  destruct (selly s dy true an ec re) as [s' q]. cbn [fst snd] in *. subst q. split; [assumption|]. exists r. cbn [snd]. auto.
Qed.
Lemma sale_range s dy (ex an ec re : bool) : valid (l_me s) -> sound_opt (l_other s) -> 0 <= dy <= c_y (l_me s) ->
  let s' := fst (selly s dy ex an ec re) in valid (l_me s') /\ sound_opt (l_other s') /\ c_yint (l_me s') = c_yint (l_me s) /\
  match l_other s, l_other s' with Some o, Some o' => c_yint o <= c_yint o' /\ c_y o <= c_y o' | None, None => True | _, _ => False end.
Proof.
  intros V VO H. cbv zeta. destruct (selly_keeps s dy ex an ec re V VO H) as [V' VO']. split; [assumption|]. split; [assumption|].
  rewrite selly_value by assumption. cbn [fst l_me l_other]. split; [destruct (if rlt dy EPS then false else ex); reflexivity|].
  assert (HD : 0 <= settled dy <= c_y (l_me s)) by (unfold settled; destruct (rlt dy EPS); lra). pose proof (cost_nonneg (l_me s) _ _ V HD).
  destruct (l_other s) as [o|]; cbn; [|exact I]. split; [apply Rmax_l|lra].
Qed.
(** selling marginally more than the balance from a curve that ends near price zero *)
Lemma overshoot_refuted : exists c o dy, valid c /\ sound o /\ 0 <= dy /\ forall ec re,
  selly (mkLinked c (Some o)) dy true false ec re = (mkLinked (with_y c 0) (Some o), Raise ValueError) /\ with_y c 0 <> c.
Proof.
  pose proof EPS_pos as HE. exists (mkCurve false (EPS / 2) 1 1 1), (mkCurve true 1 1 1 0), (1 + EPS).
  split; [repeat split; cbn; lra|]. split; [repeat split; cbn; lra|]. split; [lra|]. intros ec re. split; [|unfold with_y; cbn; intros E; injection E; lra].
  set (c := mkCurve false (EPS / 2) 1 1 1). assert (V : valid c) by (repeat split; cbn; lra).
  unfold selly. cbn [l_me l_other]. rewrite (rlt_false (1 + EPS) 0) by lra. cbn [andb]. rewrite Rabs_right by lra. rewrite (rlt_false (1 + EPS)).
  2:{ assert (EPS <= 1); [|lra]. unfold EPS. rewrite <- Rinv_1. apply Rinv_le_contravar; [lra|]. apply pow_R1_Rle. lra. }
  unfold p_marg. rewrite p_marg_value by (try assumption; cbn; lra).
  assert (E : p_marg_f c (1 + EPS) false false false = Ret (Some ((EPS / 2 + 1 * (1 - (1 + EPS)) / 1) ^ 2))).
  { unfold p_marg_f. rewrite (enabled c V). cbn [andb]. rewrite req_false by (cbn; lra). cbn [rbind]. reflexivity. }
  rewrite E. cbn [c_y c_yint c]. rewrite (rlt_false (1 - (1 + EPS))) by lra. rewrite (rlt_false 1) by lra. cbn [andb]. rewrite (rlt_true (1 - (1 + EPS)) 0) by lra.
  assert (D : dxfromdy_f c (1 + EPS) false true = Ret (Some ((1 + EPS) * (1 / ((1 + EPS / 2) * - (EPS / 2)))))).
  { unfold dxfromdy_f. rewrite (nonempty c V). cbn [andb c_y c_yint c_S c_B c].
    replace ((1 * 1 + EPS / 2 * 1) * (1 * 1 + EPS / 2 * 1 - 1 * (1 + EPS))) with ((1 + EPS / 2) * - (EPS / 2)) by lra.
    replace (1 ^ 2) with 1 by ring. rewrite rdiv_ok; [reflexivity|]. assert (0 < (1 + EPS / 2) * (EPS / 2)) by (apply Rmult_lt_0_compat; lra). lra. }
  cbn [l_me]. fold c. rewrite D. cbn [l_me set_me l_other]. rewrite addliqy_neg; [reflexivity|].
  assert (P : 0 < (1 + EPS / 2) * (EPS / 2)) by (apply Rmult_lt_0_compat; lra).
  replace ((1 + EPS) * (1 / ((1 + EPS / 2) * - (EPS / 2)))) with (- ((1 + EPS) * / ((1 + EPS / 2) * (EPS / 2)))) by (field; lra).
  assert (0 < (1 + EPS) * / ((1 + EPS / 2) * (EPS / 2))); [|lra]. apply Rmult_lt_0_compat; [lra|]. apply Rinv_0_lt_compat. assumption.
Qed.
(** topping up beyond the capacity: the preview and the execution quote different amounts *)
Lemma expand_refuted : exists c dy r r', valid c /\ 
  snd (selly (mkLinked c None) dy false true true true) = Ret (Some r) /\ snd (selly (mkLinked c None) dy true true true true) = Ret (Some r') /\ s_dy r = s_dy r' /\ s_dx r <> s_dx r'.
Proof.
  set (c := mkCurve false 1 1 1 1). assert (V : valid c) by (repeat split; cbn; lra).
  assert (HE : EPS <= 1). { unfold EPS. rewrite <- Rinv_1. apply Rinv_le_contravar; [lra|]. apply pow_R1_Rle. lra. } pose proof EPS_pos as HE0.
  assert (E : p_marg_f c (-1) false false false = Ret (Some ((1 + 1 * (1 - -1) / 1) ^ 2))).
  { unfold p_marg_f. rewrite (enabled c V). cbn [andb]. rewrite req_false by (cbn; lra). reflexivity. }
  assert (D1 : dxfromdy_f c (-1) false true = Ret (Some (-1 * (1 ^ 2 / ((1 * 1 + 1 * 1) * (1 * 1 + 1 * 1 - 1 * -1)))))).
  { unfold dxfromdy_f. rewrite (nonempty c V). cbn [andb c_y c_yint c_S c_B c]. rewrite rdiv_ok; [reflexivity|lra]. }
  assert (D2 : dxfromdy_f (with_yint c (1 - -1)) (-1) false true = Ret (Some (-1 * ((1 - -1) ^ 2 / ((1 * 1 + 1 * (1 - -1)) * (1 * 1 + 1 * (1 - -1) - 1 * -1)))))).
  { unfold dxfromdy_f. cbn [c_B c_S with_yint c]. rewrite (req_false 1 0) by lra. cbn [andb c_y c_yint with_yint c]. rewrite rdiv_ok; [reflexivity|lra]. }
  assert (V2 : valid (with_yint c (1 - -1))) by (repeat split; cbn; lra). assert (V3 : valid (with_y (with_yint c (1 - -1)) (1 - -1))) by (repeat split; cbn; lra).
  exists c, (-1). eexists. eexists. split; [assumption|]. split; [|split].
  - unfold selly. cbn [l_me l_other negb]. rewrite andb_false_r. cbn [andb]. rewrite (Rabs_left (-1)) by lra. rewrite (rlt_false (- -1)) by lra.
    unfold p_marg. rewrite p_marg_value by (try assumption; cbn; lra). rewrite E. cbn [c_y c_yint c]. rewrite (rlt_false (1 - -1)) by lra. rewrite (rlt_true 1) by lra. cbn [andb l_me].
    fold c. rewrite D1. cbn [l_other l_me]. unfold xfromy_f. cbn [c_yint c andb]. rewrite (rlt_true 1) by lra. cbn [fail snd]. reflexivity.
  - unfold selly. cbn [l_me l_other negb]. rewrite andb_false_r. cbn [andb]. rewrite (Rabs_left (-1)) by lra. rewrite (rlt_false (- -1)) by lra.
    unfold p_marg. rewrite p_marg_value by (try assumption; cbn; lra). rewrite E. cbn [c_y c_yint c]. rewrite (rlt_false (1 - -1)) by lra. rewrite (rlt_true 1) by lra. cbn [andb l_me set_me].
    fold c. rewrite D2. cbn [l_other l_me set_me]. rewrite x_value by (try assumption; cbn; lra). cbn [snd]. reflexivity.
  - cbn [s_dy s_dx]. split; [reflexivity|]. lra.
Qed.

(** ** C39 *)
Lemma gamma_value c : valid c -> 0 < c_S c -> exists s, 0 < s < 1 /\ s ^ 2 * (c_B c + c_S c) = c_B c /\ Gamma c = Ret (1 - s) /\ Qpar c = Ret (s ^ 2).
Proof.
  intros V HS. pose proof V as (HB & _ & HZ & HY). set (T := c_B c + c_S c). assert (HT : 0 < T) by (unfold T; lra).
  assert (Q0 : 0 < c_B c / T) by (apply Rmult_lt_0_compat; [lra|apply Rinv_0_lt_compat; lra]).
  assert (Q1 : c_B c / T < 1) by (apply (Rmult_lt_reg_r T); [lra|]; unfold Rdiv; rewrite Rmult_assoc, Rinv_l by lra; unfold T; lra).
  assert (QE : Qpar c = Ret (c_B c / T)).
  { unfold Qpar. rewrite (enabled c V). unfold pb_raw, pa_raw. rewrite rdiv_ok by (apply Rgt_not_eq; apply pow_lt; lra). cbn [rbind].
    replace (c_B c * c_B c / (c_S c + c_B c) ^ 2) with ((c_B c / T) ^ 2) by (unfold T; field; lra). rewrite rsqrt_ok by (apply pow2_ge_0). rewrite sqrt_pow2 by lra. reflexivity. }
  exists (sqrt (c_B c / T)). assert (SQ : sqrt (c_B c / T) ^ 2 = c_B c / T) by (apply pow2_sqrt; lra). split; [split|split; [|split]].
  - apply sqrt_lt_R0. assumption.
  - rewrite <- sqrt_1. apply sqrt_lt_1_alt. lra.
  - rewrite SQ. field. lra.
  - unfold Gamma. rewrite QE. cbn [rbind]. rewrite rsqrt_ok by lra. reflexivity.
  - rewrite SQ. assumption.
Qed.
Lemma virtual_values c : valid c -> 0 < c_S c -> exists s T, 0 < s < 1 /\ 0 < T /\ c_B c = s ^ 2 * T /\ c_S c = (1 - s ^ 2) * T /\
  Gamma c = Ret (1 - s) /\ x0 c = Ret (c_yint c / (T ^ 2 * s * (1 + s))) /\ y0 c = Ret (c_yint c * s / (1 + s)) /\
  xasym c = Ret (- (c_yint c / (T ^ 2 * (1 - s ^ 2)))) /\ yasym c = Ret (- (c_yint c * s ^ 2 / (1 - s ^ 2))) /\ kappa c = Ret ((c_yint c / (T * (1 - s ^ 2))) ^ 2).
Proof.
  intros V HS. pose proof V as (HB & _ & HZ & HY). destruct (gamma_value c V HS) as (s & Hs & E & G & _). exists s, (c_B c + c_S c). set (T := c_B c + c_S c) in *.
  assert (HT : 0 < T) by (unfold T; lra). assert (S2 : 0 < 1 - s ^ 2) by (replace (1 - s ^ 2) with ((1 - s) * (1 + s)) by ring; apply Rmult_lt_0_compat; lra).
  assert (HSx : c_S c = (1 - s ^ 2) * T) by (unfold T in *; lra).
  assert (XI : xint c = Ret (c_yint c / (s ^ 2 * T ^ 2))).
  { unfold xint. replace (c_B c ^ 2 + c_B c * c_S c) with (s ^ 2 * T ^ 2). 2:{ replace (c_B c ^ 2 + c_B c * c_S c) with (c_B c * T) by (unfold T; ring). rewrite <- E. ring. }
    rewrite rdiv_ok; [reflexivity|]. apply Rgt_not_eq. apply Rmult_lt_0_compat; apply pow_lt; lra. }
  assert (X0 : x0 c = Ret (c_yint c / (T ^ 2 * s * (1 + s)))).
  { unfold x0. rewrite XI, G. cbn [rbind]. rewrite rdiv_ok by lra. f_equal. field. repeat split; lra. }
  assert (Y0 : y0 c = Ret (c_yint c * s / (1 + s))).
  { unfold y0. rewrite G. cbn [rbind]. rewrite rdiv_ok by lra. f_equal. field. lra. }
  assert (AS : asym_over_0 (1 - s) = Ret (- (s / (1 - s)))).
  { unfold asym_over_0. rewrite rdiv_ok by lra. cbn [rbind]. f_equal. field. lra. }
  split; [assumption|]. split; [assumption|]. split; [symmetry; exact E|]. split; [assumption|]. split; [assumption|]. split; [assumption|]. split; [assumption|].
  replace (1 - s ^ 2) with ((1 - s) * (1 + s)) by ring. split; [|split].
  - unfold xasym. rewrite X0, G. cbn [rbind]. rewrite AS. cbn [rbind]. f_equal. field. lra.
  - unfold yasym. rewrite Y0, G. cbn [rbind]. rewrite AS. cbn [rbind]. f_equal. field. lra.
  - unfold kappa. rewrite X0, Y0, G. cbn [rbind]. rewrite rdiv_ok by (apply Rgt_not_eq; apply pow_lt; lra). f_equal. field. lra.
Qed.
Lemma invariant c y (re : bool) : valid c -> 0 < c_S c -> 0 <= y <= c_yint c ->
  exists x xa ya k, xfromy_f c y true re = Ret (Some x) /\ xasym c = Ret xa /\ yasym c = Ret ya /\ kappa c = Ret k /\ (x - xa) * (y - ya) = k /\ xa < 0 /\ ya < 0.
Proof.
  intros V HS H. pose proof V as (HB & _ & HZ & HY). destruct (virtual_values c V HS) as (s & T & Hs & HT & EB & ES & _ & _ & _ & XA & YA & K).
  assert (S2 : 0 < 1 - s ^ 2) by (replace (1 - s ^ 2) with ((1 - s) * (1 + s)) by ring; apply Rmult_lt_0_compat; lra).
  exists (cost c (c_yint c) (c_yint c - y)). do 3 eexists. split; [apply x_value; assumption|]. split; [exact XA|]. split; [exact YA|]. split; [exact K|]. 
  assert (SP : 0 < s ^ 2) by (apply pow_lt; lra). split; [|split].
  - unfold cost. rewrite rate_full by assumption. replace (c_yint c - (c_yint c - y)) with y by ring. unfold rate. rewrite EB, ES.
    replace (s ^ 2 * T + (1 - s ^ 2) * T) with T by ring.
    assert (W : 0 < s ^ 2 * c_yint c + (1 - s ^ 2) * y). { assert (0 < s ^ 2 * c_yint c) by (apply Rmult_lt_0_compat; assumption). assert (0 <= (1 - s ^ 2) * y) by (apply Rmult_le_pos; lra). lra. }
    replace (s ^ 2 * T + (1 - s ^ 2) * T * (y / c_yint c)) with (T * (s ^ 2 * c_yint c + (1 - s ^ 2) * y) / c_yint c) by (field; lra).
    set (q := s ^ 2) in *. clearbody q. clear XA YA K. field. repeat split; lra.
  - assert (0 < c_yint c / (T ^ 2 * (1 - s ^ 2))); [|lra]. apply Rmult_lt_0_compat; [assumption|]. apply Rinv_0_lt_compat. apply Rmult_lt_0_compat; [apply pow_lt|]; assumption.
  - assert (0 < c_yint c * s ^ 2 / (1 - s ^ 2)); [|lra]. apply Rmult_lt_0_compat; [apply Rmult_lt_0_compat; assumption|]. apply Rinv_0_lt_compat. assumption.
Qed.
Lemma centre c (re : bool) : valid c -> 0 < c_S c -> exists x y p a b, x0 c = Ret x /\ y0 c = Ret y /\ p0_raw c = Ret p /\ pa c = Ret a /\ pb c = Ret b /\
  0 < x /\ 0 < y < c_yint c /\ p = y / x /\ p = sqrt (pa_raw c * pb_raw c) /\ p0 c = Ret (in_quote c p) /\ in_quote c p = sqrt (a * b) /\ xfromy_f c y true re = Ret (Some x) /\ raw_price c y = p.
Proof.
  intros V HS. pose proof V as (HB & _ & HZ & HY). destruct (virtual_values c V HS) as (s & T & Hs & HT & EB & ES & _ & X0 & Y0 & _ & _ & _).
  assert (PT : pa_raw c = T ^ 2) by (unfold pa_raw; rewrite EB, ES; ring). assert (PB : pb_raw c = (s ^ 2 * T) ^ 2) by (unfold pb_raw; rewrite EB; ring).
  assert (SP : 0 < s ^ 2) by (apply pow_lt; lra). assert (TP : 0 < T ^ 2) by (apply pow_lt; lra).
  assert (SQ : sqrt (pa_raw c * pb_raw c) = s ^ 2 * T ^ 2).
  { rewrite PT, PB. replace (T ^ 2 * (s ^ 2 * T) ^ 2) with ((s ^ 2 * T ^ 2) ^ 2) by ring. apply sqrt_pow2. left. apply Rmult_lt_0_compat; assumption. }
  assert (XP : 0 < c_yint c / (T ^ 2 * s * (1 + s))) by (apply Rmult_lt_0_compat; [assumption|]; apply Rinv_0_lt_compat; repeat apply Rmult_lt_0_compat; lra).
  assert (YP : 0 < c_yint c * s / (1 + s)) by (apply Rmult_lt_0_compat; [apply Rmult_lt_0_compat; lra|apply Rinv_0_lt_compat; lra]).
  assert (YL : c_yint c * s / (1 + s) < c_yint c).
  { apply (Rmult_lt_reg_r (1 + s)); [lra|]. unfold Rdiv. rewrite Rmult_assoc, Rinv_l by lra. pose proof (Rmult_lt_0_compat _ _ HZ (proj1 Hs)). lra. }
  exists (c_yint c / (T ^ 2 * s * (1 + s))), (c_yint c * s / (1 + s)), (s ^ 2 * T ^ 2), (in_quote c (pa_raw c)), (in_quote c (pb_raw c)).
  assert (PA : pa c = Ret (in_quote c (pa_raw c))) by (rewrite price_full by assumption; unfold price_at; rewrite raw_full by assumption; reflexivity).
  assert (PBx : pb c = Ret (in_quote c (pb_raw c))) by (rewrite price_empty by assumption; unfold price_at; rewrite raw_empty by assumption; reflexivity).
  assert (IQ : sqrt (in_quote c (pa_raw c) * in_quote c (pb_raw c)) = in_quote c (s ^ 2 * T ^ 2)).
  { rewrite <- SQ. unfold in_quote. destruct (c_base c); [|reflexivity]. rewrite <- Rinv_mult. apply eq_sym. rewrite <- sqrt_inv. reflexivity. }
  repeat (split; [first [assumption|reflexivity|lra]|]).
  split. { unfold p0_raw. rewrite X0, Y0. cbn [rbind]. rewrite rdiv_ok by lra. f_equal. field. lra. }
  split; [assumption|]. split; [assumption|]. split; [assumption|]. split; [lra|]. split; [field; lra|]. split; [symmetry; assumption|].
  split. { unfold p0. rewrite PA, PBx. cbn [rbind]. rewrite rsqrt_ok; [rewrite IQ; reflexivity|]. left. apply Rmult_lt_0_compat; apply in_quote_pos; [rewrite PT; assumption|rewrite PB; apply pow_lt; apply Rmult_lt_0_compat; assumption]. }
  split; [symmetry; assumption|]. split.
  - rewrite x_value by (try assumption; lra). f_equal. f_equal. unfold cost. rewrite rate_full by assumption. replace (c_yint c - (c_yint c - c_yint c * s / (1 + s))) with (c_yint c * s / (1 + s)) by ring.
    unfold rate. rewrite EB, ES. replace (c_yint c - c_yint c * s / (1 + s)) with (c_yint c / (1 + s)) by (field; lra).
    replace (s ^ 2 * T + (1 - s ^ 2) * T * (c_yint c * s / (1 + s) / c_yint c)) with (s * T) by (field; lra). replace (s ^ 2 * T + (1 - s ^ 2) * T) with T by ring. field. lra.
  - unfold raw_price. rewrite EB, ES. replace (s ^ 2 * T + (1 - s ^ 2) * T * (c_yint c * s / (1 + s) / c_yint c)) with (s * T) by (field; lra). ring.
Qed.
Lemma xint_zero c (re re' : bool) : valid c -> exists x, xint c = Ret x /\ 0 < x /\ xfromy_f c 0 true re = Ret (Some x) /\ yfromx_f c x true re' = Ret (Some 0).
Proof.
  intros V. pose proof V as (HB & HS & HZ & HY). exists (cost c (c_yint c) (c_yint c)). split; [apply xint_value; assumption|]. split.
  - unfold cost. apply Rmult_lt_0_compat; [assumption|]. apply Rinv_0_lt_compat. apply Rmult_lt_0_compat; apply rate_pos; try assumption; lra.
  - split; [rewrite x_value by (try assumption; lra); rewrite Rminus_0_r; reflexivity|]. rewrite y_value; [|assumption|apply cost_nonneg; [assumption|lra]|intros _; lra].
    rewrite gain_cost by (try assumption; lra). f_equal. f_equal. ring.
Qed.
Lemma kappa_bar_sq c : valid c -> 0 < c_S c -> exists k b, kappa c = Ret k /\ kappa_bar c = Ret b /\ 0 < b /\ b ^ 2 = k.
Proof.
  intros V HS. pose proof V as (HB & _ & HZ & HY). destruct (virtual_values c V HS) as (s & T & Hs & HT & EB & ES & G & X0 & Y0 & _ & _ & K).
  assert (S2 : 0 < 1 - s ^ 2) by (replace (1 - s ^ 2) with ((1 - s) * (1 + s)) by ring; apply Rmult_lt_0_compat; lra).
  exists ((c_yint c / (T * (1 - s ^ 2))) ^ 2), (c_yint c / (T * (1 - s ^ 2))). split; [assumption|].
  assert (P : 0 < c_yint c / (T * (1 - s ^ 2))) by (apply Rmult_lt_0_compat; [assumption|]; apply Rinv_0_lt_compat; apply Rmult_lt_0_compat; assumption).
  split; [|split; [assumption|reflexivity]]. unfold kappa_bar. rewrite X0, Y0. cbn [rbind].
  replace (c_yint c / (T ^ 2 * s * (1 + s)) * (c_yint c * s / (1 + s))) with ((c_yint c / (T * (1 + s))) ^ 2) by (field; lra).
  rewrite rsqrt_ok by (apply pow2_ge_0). cbn [rbind]. rewrite sqrt_pow2. 2:{ apply Rmult_le_pos; [lra|]. left. apply Rinv_0_lt_compat. apply Rmult_lt_0_compat; lra. }
  rewrite G. cbn [rbind]. rewrite rdiv_ok by lra. f_equal. replace (1 - s ^ 2) with ((1 - s) * (1 + s)) by ring. field. lra.
Qed.

(** ** constructors *)
Lemma sqrt_sq_le a : 0 <= a -> sqrt a * sqrt a = a. Proof. apply sqrt_sqrt. Qed.
Lemma from_prices_ok (base : bool) p1 p2 yint y : 0 < p1 -> 0 < p2 -> 0 <= y <= yint ->
  exists c, from_prices base p1 p2 yint y = Ret c /\ c_base c = base /\ c_yint c = yint /\ c_y c = y /\ 0 < c_B c /\ 0 <= c_S c /\ (0 < c_S c <-> p1 <> p2) /\
    pminmax c = Ret (Some (Rmin p1 p2, Rmax p1 p2)) /\ pa c = Ret (if base then Rmin p1 p2 else Rmax p1 p2) /\ pb c = Ret (if base then Rmax p1 p2 else Rmin p1 p2).
Proof.
  intros H1 H2 HY.
  assert (core : forall a b, 0 < b -> b <= a -> exists c, construct base (sqrt b) (sqrt a - sqrt b) yint y = Ret c /\ c_base c = base /\ c_yint c = yint /\ c_y c = y /\ 0 < c_B c /\ 0 <= c_S c /\ (0 < c_S c <-> a <> b) /\
    pminmax c = Ret (Some (if base then (/ a, / b) else (b, a))) /\ pa c = Ret (if base then / a else a) /\ pb c = Ret (if base then / b else b)).
  { intros a b Hb Hab. set (c := mkCurve base (sqrt b) (sqrt a - sqrt b) yint y).
    assert (SB : 0 < sqrt b) by (apply sqrt_lt_R0; assumption). assert (SA : sqrt b <= sqrt a) by (apply sqrt_le_1_alt; assumption).
    assert (PA : pa_raw c = a). { unfold pa_raw. cbn. replace (sqrt a - sqrt b + sqrt b) with (sqrt a) by ring. rewrite Rmult_1_r. apply sqrt_sqrt. lra. }
    assert (PB : pb_raw c = b). { unfold pb_raw. cbn. apply sqrt_sqrt. lra. }
    assert (D : disabled c = false). { unfold disabled. rewrite PB. rewrite (req_false b) by lra. apply andb_false_r. }
    assert (A : pa c = Ret (if base then / a else a)). { unfold pa. rewrite D, PA. cbn [c_base c]. destruct base; [|reflexivity]. rewrite rdiv_ok by lra. unfold Rdiv. rewrite Rmult_1_l. reflexivity. }
    assert (B : pb c = Ret (if base then / b else b)). { unfold pb. rewrite D, PB. cbn [c_base c]. destruct base; [|reflexivity]. rewrite rdiv_ok by lra. unfold Rdiv. rewrite Rmult_1_l. reflexivity. }
    assert (M : pminmax c = Ret (Some (if base then (/ a, / b) else (b, a)))).
    { unfold pminmax. rewrite D, A, B. cbn [rbind]. destruct base.
      - destruct Hab as [L|E].
        + rewrite rlt_true; [reflexivity|]. apply Rinv_lt_contravar; [apply Rmult_lt_0_compat; lra|assumption].
        + subst b. rewrite rlt_false by lra. reflexivity.
      - rewrite rlt_false by assumption. reflexivity. }
    exists c. unfold construct. fold c. rewrite M. cbn [rbind]. repeat (split; [first [reflexivity|assumption|cbn; lra]|]). split; [|auto].
    cbn. split; intros L.
    - intros ->. lra.
    - assert (b < a) by lra. pose proof (sqrt_lt_1_alt b a ltac:(lra)). lra. }
  unfold from_prices. rewrite !rlt_false by lra.
  destruct base.
  - rewrite !rdiv_ok by lra. cbn [rbind]. replace (1 / p1) with (/ p1) by (unfold Rdiv; ring). replace (1 / p2) with (/ p2) by (unfold Rdiv; ring).
    pose proof (Rinv_0_lt_compat _ H1) as I1. pose proof (Rinv_0_lt_compat _ H2) as I2.
    destruct (Rlt_dec (/ p1) (/ p2)) as [L|L].
    + assert (p2 < p1) by (rewrite <- (Rinv_inv p1), <- (Rinv_inv p2); apply Rinv_lt_contravar; [apply Rmult_lt_0_compat; assumption|assumption]).
      rewrite rlt_true by assumption. rewrite !rsqrt_ok by lra. cbn [rbind]. rewrite Rmin_right, Rmax_left by lra.
      destruct (core (/ p2) (/ p1) I1 ltac:(lra)) as (c & E & K1 & K2 & K3 & K4 & K5 & K6 & K7 & K8 & K9). rewrite !Rinv_inv in *. exists c. repeat (split; [first [assumption|split; intros; [lra|apply K6; lra]]|]). auto.
    + assert (p1 <= p2) by (rewrite <- (Rinv_inv p1), <- (Rinv_inv p2); apply Rinv_le_contravar; lra).
      rewrite rlt_false by lra. rewrite !rsqrt_ok by lra. cbn [rbind]. rewrite Rmin_left, Rmax_right by lra.
      destruct (core (/ p1) (/ p2) I2 ltac:(lra)) as (c & E & K1 & K2 & K3 & K4 & K5 & K6 & K7 & K8 & K9). rewrite !Rinv_inv in *. exists c. repeat (split; [first [assumption|split; intros K; [intros ->; apply K6 in K; lra|apply K6; intros F; apply K; rewrite <- (Rinv_inv p1), <- (Rinv_inv p2), F; reflexivity]]|]). auto.
  - cbn [rbind]. destruct (Rlt_dec p1 p2) as [L|L].
    + rewrite rlt_true by assumption. rewrite !rsqrt_ok by lra. cbn [rbind]. rewrite Rmin_left, Rmax_right by lra.
      destruct (core p2 p1 H1 ltac:(lra)) as (c & E & K1 & K2 & K3 & K4 & K5 & K6 & K7 & K8 & K9). exists c. repeat (split; [first [assumption|split; intros; [lra|apply K6; lra]]|]). auto.
    + rewrite rlt_false by lra. rewrite !rsqrt_ok by lra. cbn [rbind]. rewrite Rmin_right, Rmax_left by lra.
      destruct (core p1 p2 H2 ltac:(lra)) as (c & E & K1 & K2 & K3 & K4 & K5 & K6 & K7 & K8 & K9). exists c. repeat (split; [first [assumption|split; intros; [lra|apply K6; lra]]|]). auto.
Qed.
Lemma from_prices_range (base : bool) p1 p2 yint y c : from_prices base p1 p2 yint y = Ret c -> 0 <= y <= yint /\ c_y c = y /\ c_yint c = yint /\ c_base c = base /\ 0 <= c_B c /\ 0 <= c_S c.
Proof.
  unfold from_prices. unfold rlt at 1. destruct (Rlt_dec yint 0); [discriminate|]. unfold rlt at 1. destruct (Rlt_dec yint y); [discriminate|]. unfold rlt at 1. destruct (Rlt_dec y 0); [discriminate|].
  destruct (if base then rdiv 1 p1 else Ret p1) as [q1|]; [|discriminate]. cbn [rbind]. destruct (if base then rdiv 1 p2 else Ret p2) as [q2|]; [|discriminate]. cbn [rbind].
  assert (L : let '(a, b) := if rlt q1 q2 then (q2, q1) else (q1, q2) in b <= a) by (unfold rlt; destruct (Rlt_dec q1 q2); lra).
  destruct (if rlt q1 q2 then (q2, q1) else (q1, q2)) as [a b]. unfold rsqrt, rlt. destruct (Rlt_dec b 0); [discriminate|]. cbn [rbind]. destruct (Rlt_dec a 0); [discriminate|]. cbn [rbind].
  unfold construct. destruct (pminmax _); [|discriminate]. cbn [rbind]. intros E. injection E as <-. cbn. pose proof (sqrt_pos b). pose proof (sqrt_le_1_alt _ _ L). split; [lra|]. split; [reflexivity|]. split; [reflexivity|]. split; [reflexivity|]. lra.
Qed.
Lemma from_Qxy_ok (base : bool) Q xi yint y : 0 < Q <= 1 -> 0 < xi -> 0 < yint -> 0 <= y <= yint ->
  exists c, from_Qxy base Q xi yint y = Ret c /\ valid c /\ c_base c = base /\ c_yint c = yint /\ c_y c = y /\ Qpar c = Ret Q /\ xint c = Ret xi /\ (0 < c_S c <-> Q < 1).
Proof.
  intros HQ HX HZ HY. unfold from_Qxy. rewrite !rle_false by lra. rewrite !rlt_false by lra. set (p := yint / xi). assert (HP : 0 < p) by (apply Rmult_lt_0_compat; [assumption|apply Rinv_0_lt_compat; assumption]).
  assert (P1 : 0 < p * Q) by (apply Rmult_lt_0_compat; lra). rewrite rsqrt_ok by lra. cbn [rbind]. rewrite rdiv_ok by lra. cbn [rbind].
  assert (P2 : 0 < p / Q) by (apply Rmult_lt_0_compat; [assumption|apply Rinv_0_lt_compat; lra]). rewrite rsqrt_ok by lra. cbn [rbind].
  assert (PQ : p * Q = p / Q * (Q * Q)) by (field; lra).
  assert (R : sqrt (p * Q) = sqrt (p / Q) * Q) by (rewrite PQ, sqrt_mult_alt by lra; rewrite sqrt_square by lra; reflexivity).
  set (r := sqrt (p / Q)) in *. assert (HR : 0 < r) by (apply sqrt_lt_R0; assumption). rewrite R. assert (RR : r * r = p / Q) by (apply sqrt_sqrt; lra).
  set (c := mkCurve base (r * Q) (r - r * Q) yint y). assert (HRQ : 0 < r * Q) by (apply Rmult_lt_0_compat; lra).
  assert (RQ1 : r * Q <= r) by (rewrite <- (Rmult_1_r r) at 2; apply Rmult_le_compat_l; lra).
  assert (V : valid c) by (repeat split; cbn; lra).
  assert (M : exists m, pminmax c = Ret m). { unfold pminmax. rewrite (enabled c V), price_full, price_empty by assumption. cbn [rbind]. eauto. }
  destruct M as [m M]. exists c. split; [unfold construct; fold c; rewrite M; reflexivity|]. split; [assumption|]. repeat (split; [reflexivity|]). split; [|split].
  - unfold Qpar. rewrite (enabled c V). unfold pb_raw, pa_raw. cbn [c_B c_S c]. replace (r - r * Q + r * Q) with r by ring. rewrite rdiv_ok by (apply Rgt_not_eq; apply pow_lt; assumption).
    cbn [rbind]. replace (r * Q * (r * Q) / r ^ 2) with (Q * Q) by (field; lra). rewrite rsqrt_ok by (apply Rmult_le_pos; lra). rewrite sqrt_square by lra. reflexivity.
  - unfold xint. cbn [c_B c_S c c_yint]. replace ((r * Q) ^ 2 + r * Q * (r - r * Q)) with (r * r * Q) by ring. rewrite RR. replace (p / Q * Q) with p by (field; lra). rewrite rdiv_ok by lra. f_equal. unfold p. field. lra.
  - cbn. split; intros L.
    + apply (Rmult_lt_reg_l r); [assumption|]. lra.
    + pose proof (Rmult_lt_compat_l r _ _ HR L). lra.
Qed.
(** a "convexity" above one is accepted and turns the curve around *)
Lemma from_Qxy_concave (base : bool) Q xi yint y : 1 < Q -> 0 < xi -> 0 < yint -> 0 <= y <= yint -> exists c, from_Qxy base Q xi yint y = Ret c /\ c_S c < 0 /\ pa_raw c < pb_raw c.
Proof.
  intros HQ HX HZ HY. unfold from_Qxy. rewrite !rle_false by lra. rewrite !rlt_false by lra. set (p := yint / xi). assert (HP : 0 < p) by (apply Rmult_lt_0_compat; [assumption|apply Rinv_0_lt_compat; assumption]).
  assert (P1 : 0 < p * Q) by (apply Rmult_lt_0_compat; lra). rewrite rsqrt_ok by lra. cbn [rbind]. rewrite rdiv_ok by lra. cbn [rbind].
  assert (P2 : 0 < p / Q) by (apply Rmult_lt_0_compat; [assumption|apply Rinv_0_lt_compat; lra]). rewrite rsqrt_ok by lra. cbn [rbind].
  assert (PQ : p * Q = p / Q * (Q * Q)) by (field; lra).
  assert (R : sqrt (p * Q) = sqrt (p / Q) * Q) by (rewrite PQ, sqrt_mult_alt by lra; rewrite sqrt_square by lra; reflexivity).
  set (r := sqrt (p / Q)) in *. assert (HR : 0 < r) by (apply sqrt_lt_R0; assumption). rewrite R.
  set (c := mkCurve base (r * Q) (r - r * Q) yint y). pose proof (Rmult_lt_compat_l r _ _ HR HQ) as L.
  assert (D : disabled c = false). { unfold disabled, pb_raw. cbn. rewrite (req_false (r * Q * (r * Q))); [apply andb_false_r|]. apply Rgt_not_eq. apply Rmult_lt_0_compat; lra. }
  assert (PA : pa_raw c = r * r) by (unfold pa_raw; cbn; ring). assert (PB : pb_raw c = r * Q * (r * Q)) by reflexivity.
  assert (N1 : 0 < r * r) by (apply Rmult_lt_0_compat; assumption). assert (N2 : 0 < r * Q * (r * Q)) by (apply Rmult_lt_0_compat; lra).
  assert (M : exists m, pminmax c = Ret m). { unfold pminmax, pa, pb. rewrite D, PA, PB. cbn [c_base c]. destruct base; rewrite ?rdiv_ok by lra; cbn [rbind]; eauto. }
  destruct M as [m M]. exists c. split; [unfold construct; fold c; rewrite M; reflexivity|]. split; [cbn; lra|]. rewrite PA, PB. apply Rmult_gt_0_lt_compat; lra.
Qed.
