From Coq Require Import Reals Bool Lra Lia.
From Verif Require Import CurveModel CurveSpec CurveProofs CurveProofs2.
Local Open Scope R_scope.

Lemma EPS_pos : 0 < EPS. Proof. unfold EPS. apply Rinv_0_lt_compat. apply pow_lt. lra. Qed.
Lemma TINY_pos : 0 < TINY. Proof. unfold TINY. apply Rinv_0_lt_compat. apply pow_lt. lra. Qed.
Lemma curve_eta c : mkCurve (c_base c) (c_B c) (c_S c) (c_yint c) (c_y c) = c. Proof. destruct c; reflexivity. Qed.
Lemma with_y_same c y : y = c_y c -> with_y c y = c. Proof. intros ->. apply curve_eta. Qed.
Lemma received_0 c : c_y c <= c_yint c -> received 0 c = c.
Proof. intros H. unfold received. rewrite Rplus_0_r, Rmax_left by assumption. apply curve_eta. Qed.
Lemma valid_sound c : valid c -> sound c. Proof. intros (H1 & H2 & H3 & H4). repeat split; lra. Qed.
Lemma received_sound c dx : sound c -> 0 <= dx -> sound (received dx c).
Proof. intros (H1 & H2 & H3) H. repeat split; cbn; try lra. apply Rmax_r. Qed.

Lemma p_marg_sound c : sound c -> exists p, p_marg c = Ret (Some p).
Proof.
  intros (HB & HS & HY). destruct (Req_EM_T (c_yint c) 0) as [E|N].
  - unfold p_marg, p_marg_f. assert (D : disabled c = false).
    { unfold disabled, pb_raw. rewrite (req_false (c_B c * c_B c)); [apply andb_false_r|]. pose proof (Rmult_lt_0_compat _ _ HB HB). lra. }
    rewrite D. rewrite (rlt_false 0 0) by lra. rewrite andb_false_r. rewrite (rlt_false (c_y c - 0)) by lra. rewrite andb_false_r.
    rewrite (req_true (c_yint c)) by assumption. rewrite (req_true (c_y c)) by lra. cbn [negb andb rbind].
    rewrite quoted_ok by (apply pow_lt; lra). cbn [rbind]. eauto.
  - unfold p_marg. rewrite p_marg_value; [eauto| |lra]. repeat split; lra.
Qed.
Lemma addliqy_sound c dx : sound c -> 0 <= dx -> addliqy c dx = (received dx c, Ret tt).
Proof.
  intros V H. unfold addliqy. rewrite rlt_false by assumption. destruct (p_marg_sound c V) as [p ->].
  assert (E : with_y (if rlt (c_yint c) (c_y c + dx) then with_yint c (c_y c + dx) else c) (c_y c + dx) = received dx c).
  { unfold received. destruct (Rlt_dec (c_yint c) (c_y c + dx)) as [L|L].
    - rewrite rlt_true by assumption. rewrite Rmax_right by lra. reflexivity.
    - rewrite rlt_false by lra. rewrite Rmax_left by lra. reflexivity. }
  cbv zeta. rewrite E. destruct (p_marg_sound (received dx c) (received_sound c dx V H)) as [q ->]. reflexivity.
Qed.
Lemma addliqy_neg c dx : dx < 0 -> addliqy c dx = (c, Raise ValueError).
Proof. intros. unfold addliqy. rewrite rlt_true by assumption. reflexivity. Qed.

(** ** selly within the balance *)
Definition settled (dy : R) : R := if rlt dy EPS then 0 else dy.
Lemma selly_value s dy (ex an ec re : bool) : valid (l_me s) -> sound_opt (l_other s) -> 0 <= dy <= c_y (l_me s) ->
  let c := l_me s in let d := settled dy in let e := if rlt dy EPS then false else ex in
  selly s dy ex an ec re = (mkLinked (if e then with_y c (c_y c - d) else c) (option_map (received (cost c (c_y c) d)) (l_other s)),
    Ret (Some (mkSold e (c_y c) (c_y c - d) d (c_yint c) false (cost c (c_y c) d) (Some (price_at c (c_y c))) (Some (price_at c (c_y c - d)))))).
Proof.
  intros V VO H. cbv zeta. pose proof EPS_pos as HE. set (c := l_me s) in *. pose proof V as (HB & HS & HZ & HY).
  unfold selly. fold c. rewrite (rlt_false dy 0) by lra. cbn [andb]. rewrite (Rabs_right dy) by lra. fold (settled dy).
  assert (HD : 0 <= settled dy <= c_y c) by (unfold settled; destruct (rlt dy EPS); lra).
  set (d := settled dy) in *. set (e := if rlt dy EPS then false else ex). clearbody d e. clear dy H.
  unfold p_marg. rewrite p_marg_value by (try assumption; lra). rewrite Rminus_0_r. rewrite p_marg_value by assumption.
  rewrite (rlt_false (c_y c - d) (- EPS)) by lra. rewrite (rlt_false (c_yint c)) by lra. cbn [andb]. rewrite (rlt_false (c_y c - d) 0) by lra.
  fold c. rewrite (dx_value c d false true V I) by lra.
  assert (HX : 0 <= cost c (c_y c) d) by (apply cost_nonneg; assumption).
  assert (X : forall cb re', xfromy_f (if e then with_y c (c_y c - d) else c) (c_y c - d) cb re' = Ret (Some (cost c (c_yint c) (c_yint c - (c_y c - d))))).
  { intros. destruct e.
    - rewrite x_value; [reflexivity|apply valid_with_y; [assumption|lra]|cbn; lra].
    - rewrite x_value; [reflexivity|assumption|lra]. }
  assert (S2 : (if e then set_me s (with_y c (c_y c - d)) else s) = mkLinked (if e then with_y c (c_y c - d) else c) (l_other s)).
  { destruct e; [reflexivity|]. unfold c. destruct s; reflexivity. }
  rewrite S2. cbn [l_other l_me]. destruct (l_other s) as [o|]; cbn [option_map].
  - rewrite addliqy_sound by assumption. cbn [l_me]. rewrite X. reflexivity.
  - rewrite X. reflexivity.
Qed.

(** ** Prices and balances *)
Lemma in_quote_invol c p : in_quote c (in_quote c p) = p.
Proof. unfold in_quote. destruct (c_base c); [apply Rinv_inv|reflexivity]. Qed.
Lemma in_quote_pos c p : 0 < p -> 0 < in_quote c p.
Proof. intros. unfold in_quote. destruct (c_base c); [apply Rinv_0_lt_compat; assumption|assumption]. Qed.
Lemma raw_full c : valid c -> raw_price c (c_yint c) = pa_raw c.
Proof. intros (HB & HS & HZ & _). unfold raw_price, pa_raw. f_equal. field. lra. Qed.
Lemma raw_empty c : valid c -> raw_price c 0 = pb_raw c.
Proof. intros (HB & HS & HZ & _). unfold raw_price, pb_raw. field. lra. Qed.
Lemma raw_mono_le c a b : valid c -> 0 <= a -> a <= b -> raw_price c a <= raw_price c b.
Proof.
  intros V Ha Hab. rewrite !raw_rate. pose proof (rate_pos c a V Ha). apply pow_incr. split; [lra|]. unfold rate. apply Rplus_le_compat_l.
  pose proof V as (HB & HS & HZ & _). apply Rmult_le_compat_l; [assumption|]. apply Rmult_le_compat_r; [left; apply Rinv_0_lt_compat; assumption|assumption].
Qed.
(** the balance at which the raw price is [r] *)
Definition ybal (c : curve) (r : R) : R := c_yint c * (sqrt r - c_B c) / c_S c.
Lemma ybal_raw c y : valid c -> 0 < c_S c -> 0 <= y -> ybal c (raw_price c y) = y.
Proof.
  intros V HS Hy. pose proof V as (HB & _ & HZ & _). unfold ybal. rewrite raw_rate, sqrt_pow2 by (left; apply rate_pos; assumption). unfold rate. field. lra.
Qed.
Lemma raw_ybal c r : valid c -> 0 < c_S c -> 0 <= r -> raw_price c (ybal c r) = r.
Proof.
  intros V HS Hr. pose proof V as (HB & _ & HZ & _). unfold raw_price, ybal.
  replace (c_B c + c_S c * (c_yint c * (sqrt r - c_B c) / c_S c / c_yint c)) with (sqrt r) by (field; lra).
  apply pow2_sqrt. assumption.
Qed.
Lemma ybal_nonneg c r : valid c -> 0 < c_S c -> pb_raw c <= r -> 0 <= ybal c r.
Proof.
  intros V HS H. pose proof V as (HB & _ & HZ & _). unfold ybal. apply Rmult_le_pos; [|left; apply Rinv_0_lt_compat; assumption].
  apply Rmult_le_pos; [lra|]. assert (c_B c <= sqrt r); [|lra]. rewrite <- (sqrt_square (c_B c)) by lra. apply sqrt_le_1_alt. assumption.
Qed.
Lemma ybal_lt c r y : valid c -> 0 < c_S c -> 0 <= r -> 0 <= y -> raw_price c y < r -> y < ybal c r.
Proof.
  intros V HS Hr Hy H. destruct (Rlt_dec y (ybal c r)) as [L|L]; [assumption|exfalso].
  pose proof V as (HB & _ & HZ & _). rewrite raw_rate in H. pose proof (rate_pos c y V Hy) as RP.
  assert (L2 : sqrt r <= rate c y).
  { unfold ybal in L. unfold rate. apply Rnot_lt_le in L.
    apply (Rmult_le_compat_l (c_S c / c_yint c)) in L; [|apply Rmult_le_pos; [lra|left; apply Rinv_0_lt_compat; assumption]].
    replace (c_S c / c_yint c * (c_yint c * (sqrt r - c_B c) / c_S c)) with (sqrt r - c_B c) in L by (field; lra).
    replace (c_S c / c_yint c * y) with (c_S c * (y / c_yint c)) in L by (field; lra). lra. }
  pose proof (pow_incr _ _ 2 (conj (sqrt_pos r) L2)). rewrite pow2_sqrt in H0 by assumption. lra.
Qed.
Lemma yfromp_raw c p (cb re : bool) : valid c -> 0 < c_S c -> 0 < p ->
  yfromp_f c p cb re =
    (if cb && rlt (pa_raw c) (in_quote c p) then fail re BeyondStart else
     if cb && rlt (in_quote c p) (pb_raw c) then (if re then Raise BeyondEnd else Ret (Some 0)) else
     if cb && rlt (c_y c) (ybal c (in_quote c p)) then fail re BeyondMarg else Ret (Some (ybal c (in_quote c p)))).
Proof.
  intros V HS Hp. unfold yfromp_f. rewrite quoted_ok by assumption. cbn [rbind]. rewrite (enabled c V). rewrite andb_false_r.
  pose proof (in_quote_pos c p Hp). rewrite rsqrt_ok by lra. cbn [rbind]. rewrite rdiv_ok by lra. reflexivity.
Qed.
Lemma yfromp_inverts c y (cb re : bool) : valid c -> 0 < c_S c -> 0 <= y <= c_y c -> yfromp_f c (price_at c y) cb re = Ret (Some y).
Proof.
  intros V HS H. pose proof V as (HB & _ & HZ & HY). unfold price_at. rewrite yfromp_raw; [|assumption|assumption|apply in_quote_pos; apply raw_pos; [assumption|lra]].
  rewrite in_quote_invol. rewrite <- raw_full, <- raw_empty by assumption. rewrite ybal_raw by (try assumption; lra).
  rewrite !rlt_false; rewrite ?andb_false_r; [reflexivity|lra|apply raw_mono_le; [assumption|lra|lra]|apply raw_mono_le; [assumption|lra|lra]].
Qed.
Lemma between_raw c p : valid c -> 0 < p -> between (price_at c (c_y c)) (price_at c 0) p -> raw_price c 0 <= in_quote c p <= raw_price c (c_y c).
Proof.
  intros V Hp H. pose proof V as (HB & _ & HZ & HY). pose proof (raw_mono_le c 0 (c_y c) V ltac:(lra) ltac:(lra)) as M.
  pose proof (raw_pos c 0 V ltac:(lra)) as P0. pose proof (raw_pos c (c_y c) V ltac:(lra)) as P1.
  unfold between, price_at, in_quote in *. destruct (c_base c); [|lra].
  assert (I : / raw_price c (c_y c) <= / raw_price c 0) by (apply Rinv_le_contravar; assumption).
  assert (B : / raw_price c (c_y c) <= p <= / raw_price c 0) by lra. clear H.
  split.
  - rewrite <- (Rinv_inv (raw_price c 0)). apply Rinv_le_contravar; [assumption|lra].
  - rewrite <- (Rinv_inv (raw_price c (c_y c))). apply Rinv_le_contravar; [apply Rinv_0_lt_compat; assumption|lra].
Qed.
Lemma between_price c p : valid c -> 0 < c_S c -> 0 < p -> between (price_at c (c_y c)) (price_at c 0) p -> exists y, 0 <= y <= c_y c /\ p = price_at c y.
Proof.
  intros V HS Hp H. pose proof (between_raw c p V Hp H) as [L1 L2]. pose proof (in_quote_pos c p Hp) as IP. pose proof V as (HB & _ & HZ & HY).
  exists (ybal c (in_quote c p)). split; [split|].
  - apply ybal_nonneg; [assumption|assumption|]. rewrite <- raw_empty by assumption. assumption.
  - destruct (Rle_dec (ybal c (in_quote c p)) (c_y c)) as [L|L]; [assumption|exfalso].
    assert (K : raw_price c (c_y c) < raw_price c (ybal c (in_quote c p))) by (apply raw_mono; [assumption|assumption|lra|lra]).
    rewrite raw_ybal in K by (try assumption; lra). lra.
  - unfold price_at. rewrite raw_ybal by (try assumption; lra). symmetry. apply in_quote_invol.
Qed.

(** ** tradeto *)
Lemma tradeto_dy s p dy (ex : bool) : valid (l_me s) ->
  (match dyfromp_f (l_me s) p true true with
   | Raise BeyondStart | Raise BeyondMarg => Ret 0
   | Raise BeyondEnd => let* e := pb (l_me s) in dyfromp_f (l_me s) e false false
   | r => r end) = Ret dy ->
  tradeto s p ex = (let '(s', r) := selly s dy ex false false true in
    (s', match r with Raise e => Raise e | Ret None => Raise RuntimeError | Ret (Some x) => Ret (Some x) end)).
Proof. intros V E. pose proof V as (_ & _ & HZ & _). unfold tradeto. rewrite req_false by lra. rewrite E. reflexivity. Qed.
Lemma tradeto_sells s p dy (ex : bool) : valid (l_me s) -> sound_opt (l_other s) -> 0 <= dy <= c_y (l_me s) ->
  (match dyfromp_f (l_me s) p true true with
   | Raise BeyondStart | Raise BeyondMarg => Ret 0
   | Raise BeyondEnd => let* e := pb (l_me s) in dyfromp_f (l_me s) e false false
   | r => r end) = Ret dy ->
  tradeto s p ex = selly s dy ex false false true.
Proof. intros V VO H E. rewrite (tradeto_dy s p dy ex V E). rewrite selly_value by assumption. reflexivity. Qed.
Lemma dyfromp_ok c p (cb re : bool) y : valid c -> yfromp_f c p cb re = Ret (Some y) -> dyfromp_f c p cb re = Ret (c_y c - y).
Proof. intros V E. unfold dyfromp_f. rewrite (nonempty c V), E. reflexivity. Qed.
Lemma tradeto_between s y (ex : bool) : valid (l_me s) -> 0 < c_S (l_me s) -> sound_opt (l_other s) -> 0 <= y <= c_y (l_me s) ->
  tradeto s (price_at (l_me s) y) ex = selly s (c_y (l_me s) - y) ex false false true.
Proof.
  intros V HS VO H. apply tradeto_sells; [assumption|assumption|lra|]. erewrite dyfromp_ok; [reflexivity|assumption|apply yfromp_inverts; assumption].
Qed.
Lemma moves_end c p : valid c -> 0 < p -> moves c (price_at c 0) p -> in_quote c p < pb_raw c.
Proof.
  intros V Hp H. rewrite <- raw_empty by assumption. rewrite <- (in_quote_invol c p) in H. unfold price_at in H.
  apply in_quote_moves in H; [assumption|apply in_quote_pos; assumption|apply raw_pos; [assumption|lra]].
Qed.
Lemma moves_start c p : valid c -> 0 < p -> moves c p (price_at c (c_y c)) -> raw_price c (c_y c) < in_quote c p.
Proof.
  intros V Hp H. rewrite <- (in_quote_invol c p) in H. unfold price_at in H. pose proof V as (_ & _ & _ & HY).
  apply in_quote_moves in H; [assumption|apply raw_pos; [assumption|lra]|apply in_quote_pos; assumption].
Qed.
Lemma tradeto_beyond s p (ex : bool) : valid (l_me s) -> 0 < c_S (l_me s) -> sound_opt (l_other s) -> 0 < p -> moves (l_me s) (price_at (l_me s) 0) p ->
  tradeto s p ex = selly s (c_y (l_me s)) ex false false true.
Proof.
  intros V HS VO Hp H. pose proof V as (HB & _ & HZ & HY). apply tradeto_sells; [assumption|assumption|lra|].
  pose proof (moves_end _ _ V Hp H) as L. assert (M : pb_raw (l_me s) <= pa_raw (l_me s)).
  { rewrite <- raw_full, <- raw_empty by assumption. apply raw_mono_le; [assumption|lra|lra]. }
  assert (E : dyfromp_f (l_me s) p true true = Raise BeyondEnd).
  { unfold dyfromp_f. rewrite (nonempty _ V). rewrite yfromp_raw by assumption. cbn [andb]. rewrite rlt_false by lra. rewrite rlt_true by assumption. reflexivity. }
  rewrite E. rewrite price_empty by assumption. cbn [rbind]. erewrite dyfromp_ok; [|assumption|apply yfromp_inverts; [assumption|assumption|lra]]. f_equal. ring.
Qed.
Lemma tradeto_before s p (ex : bool) : valid (l_me s) -> 0 < c_S (l_me s) -> sound_opt (l_other s) -> 0 < p -> moves (l_me s) p (price_at (l_me s) (c_y (l_me s))) ->
  tradeto s p ex = selly s 0 ex false false true.
Proof.
  intros V HS VO Hp H. pose proof V as (HB & _ & HZ & HY). apply tradeto_sells; [assumption|assumption|lra|].
  pose proof (moves_start _ _ V Hp H) as L. pose proof (in_quote_pos (l_me s) p Hp).
  unfold dyfromp_f. rewrite (nonempty _ V). rewrite yfromp_raw by assumption. cbn [andb].
  destruct (rlt (pa_raw (l_me s)) (in_quote (l_me s) p)); [reflexivity|].
  rewrite (rlt_false _ (pb_raw _)). 2:{ rewrite <- raw_empty by assumption. pose proof (raw_mono_le (l_me s) 0 (c_y (l_me s)) V ltac:(lra) ltac:(lra)). lra. }
  rewrite rlt_true; [reflexivity|]. apply ybal_lt; [assumption|assumption|lra|lra|assumption].
Qed.
(** every positive price is in one of the three regions *)
Lemma price_cases c p : valid c -> 0 < p -> moves c p (price_at c (c_y c)) \/ between (price_at c (c_y c)) (price_at c 0) p \/ moves c (price_at c 0) p.
Proof.
  intros V Hp. pose proof V as (HB & _ & HZ & HY). pose proof (raw_mono_le c 0 (c_y c) V ltac:(lra) ltac:(lra)) as M. pose proof (raw_pos c 0 V ltac:(lra)) as P0.
  unfold moves, between, price_at, in_quote. destruct (c_base c).
  - assert (I : / raw_price c (c_y c) <= / raw_price c 0) by (apply Rinv_le_contravar; assumption). lra.
  - lra.
Qed.
Lemma cost_0 c y : cost c y 0 = 0. Proof. unfold cost, Rdiv. apply Rmult_0_l. Qed.
Lemma settled_0 : settled 0 = 0. Proof. unfold settled. rewrite rlt_true by apply EPS_pos. reflexivity. Qed.
Lemma small_sale s dy (ex an ec re : bool) : valid (l_me s) -> sound_opt (l_other s) -> 0 <= dy <= c_y (l_me s) -> dy < EPS -> fst (selly s dy ex an ec re) = s.
Proof.
  intros V VO H L. rewrite selly_value by assumption. cbn [fst]. unfold settled. rewrite rlt_true by assumption. rewrite cost_0. destruct s as [c [o|]]; cbn in *; [|reflexivity].
  rewrite received_0; [reflexivity|]. destruct VO as (_ & _ & VO). lra.
Qed.
Lemma tradeto_lands s p : valid (l_me s) -> 0 < c_S (l_me s) -> sound_opt (l_other s) -> 0 < p -> between (price_at (l_me s) (c_y (l_me s))) (price_at (l_me s) 0) p ->
  exists y, 0 <= y <= c_y (l_me s) /\ p = price_at (l_me s) y /\
    (EPS <= c_y (l_me s) - y -> l_me (fst (tradeto s p true)) = with_y (l_me s) y /\ p_marg (l_me (fst (tradeto s p true))) = Ret (Some p)) /\
    (c_y (l_me s) - y < EPS -> fst (tradeto s p true) = s).
Proof.
  intros V HS VO Hp H. destruct (between_price _ _ V HS Hp H) as (y & Hy & ->). exists y. split; [assumption|]. split; [reflexivity|].
  pose proof V as (_ & _ & _ & HY). rewrite tradeto_between by assumption. split; intros L.
  - assert (E : l_me (fst (selly s (c_y (l_me s) - y) true false false true)) = with_y (l_me s) y).
    { rewrite selly_value by (try assumption; lra). cbn [fst l_me]. unfold settled. rewrite rlt_false by assumption. f_equal. ring. }
    rewrite E. split; [reflexivity|]. unfold p_marg. rewrite p_marg_value; [|apply valid_with_y; [assumption|lra]|cbn; lra]. cbn [c_y with_y]. rewrite Rminus_0_r. reflexivity.
  - apply small_sale; try assumption. lra.
Qed.
Lemma tradeto_empties s p : valid (l_me s) -> 0 < c_S (l_me s) -> sound_opt (l_other s) -> 0 < p -> moves (l_me s) (price_at (l_me s) 0) p ->
  (EPS <= c_y (l_me s) -> l_me (fst (tradeto s p true)) = with_y (l_me s) 0) /\ (c_y (l_me s) < EPS -> fst (tradeto s p true) = s).
Proof.
  intros V HS VO Hp H. pose proof V as (_ & _ & _ & HY). rewrite tradeto_beyond by assumption. split; intros L.
  - rewrite selly_value by (try assumption; lra). cbn [fst l_me]. unfold settled. rewrite rlt_false by assumption. f_equal. ring.
  - apply small_sale; try assumption. lra.
Qed.
Lemma tradeto_other_side s p : valid (l_me s) -> 0 < c_S (l_me s) -> sound_opt (l_other s) -> 0 < p -> moves (l_me s) p (price_at (l_me s) (c_y (l_me s))) -> fst (tradeto s p true) = s.
Proof.
  intros V HS VO Hp H. pose proof V as (_ & _ & _ & HY). rewrite tradeto_before by assumption. apply small_sale; try assumption; [lra|apply EPS_pos].
Qed.
Lemma selly_keeps s dy (ex an ec re : bool) : valid (l_me s) -> sound_opt (l_other s) -> 0 <= dy <= c_y (l_me s) ->
  valid (l_me (fst (selly s dy ex an ec re))) /\ sound_opt (l_other (fst (selly s dy ex an ec re))).
Proof.
  intros V VO H. rewrite selly_value by assumption. cbn [fst l_me l_other]. pose proof V as (_ & _ & _ & HY).
  assert (HD : 0 <= settled dy <= c_y (l_me s)) by (unfold settled; destruct (rlt dy EPS); lra). split.
  - destruct (if rlt dy EPS then false else ex); [apply valid_with_y; [assumption|lra]|assumption].
  - destruct (l_other s) as [o|]; cbn in *; [|exact I]. apply received_sound; [assumption|]. apply cost_nonneg; assumption.
Qed.
Lemma tradeto_idem s p : valid (l_me s) -> 0 < c_S (l_me s) -> sound_opt (l_other s) -> 0 < p -> fst (tradeto (fst (tradeto s p true)) p true) = fst (tradeto s p true).
Proof.
  intros V HS VO Hp. pose proof V as (_ & _ & HZ & HY). destruct (price_cases (l_me s) p V Hp) as [H|[H|H]].
  - rewrite (tradeto_other_side s p) by assumption. apply tradeto_other_side; assumption.
  - destruct (between_price _ _ V HS Hp H) as (y & Hy & E). destruct (Rlt_dec (c_y (l_me s) - y) EPS) as [L|L].
    + assert (F : fst (tradeto s p true) = s) by (rewrite E, tradeto_between by assumption; apply small_sale; try assumption; lra). rewrite !F. reflexivity.
    + assert (E2 : fst (tradeto s p true) = fst (selly s (c_y (l_me s) - y) true false false true)) by (rewrite E, tradeto_between by assumption; reflexivity).
      destruct (selly_keeps s (c_y (l_me s) - y) true false false true V VO ltac:(lra)) as [V' VO']. rewrite <- E2 in V', VO'.
      assert (E3 : l_me (fst (tradeto s p true)) = with_y (l_me s) y).
      { rewrite E2, selly_value by (try assumption; lra). cbn [fst l_me]. unfold settled. rewrite rlt_false by lra. f_equal. ring. }
      set (t := fst (tradeto s p true)) in *. clearbody t. clear E2.
      assert (E4 : p = price_at (l_me t) y) by (rewrite E3, E; reflexivity). rewrite E4.
      assert (Y : c_y (l_me t) = y) by (rewrite E3; reflexivity). assert (St : 0 < c_S (l_me t)) by (rewrite E3; assumption).
      rewrite tradeto_between by (try assumption; lra). apply small_sale; try assumption; rewrite Y; [lra|]. pose proof EPS_pos. lra.
  - destruct (Rlt_dec (c_y (l_me s)) EPS) as [L|L].
    + rewrite !(proj2 (tradeto_empties s p V HS VO Hp H) L). reflexivity.
    + assert (E2 : fst (tradeto s p true) = fst (selly s (c_y (l_me s)) true false false true)) by (rewrite tradeto_beyond by assumption; reflexivity).
      destruct (selly_keeps s (c_y (l_me s)) true false false true V VO ltac:(lra)) as [V' VO']. rewrite <- E2 in V', VO'.
      pose proof (proj1 (tradeto_empties s p V HS VO Hp H) ltac:(lra)) as E3.
      set (t := fst (tradeto s p true)) in *. clearbody t. clear E2.
      assert (Y : c_y (l_me t) = 0) by (rewrite E3; reflexivity). assert (St : 0 < c_S (l_me t)) by (rewrite E3; assumption).
      apply (tradeto_empties t p V' St VO' Hp).
      * rewrite E3. exact H.
      * rewrite Y. apply EPS_pos.
Qed.
(** a flat curve *)
Lemma tradeto_flat s p (ex : bool) : valid (l_me s) -> c_S (l_me s) = 0 -> 0 < p -> in_quote (l_me s) p <= raw_price (l_me s) (c_y (l_me s)) -> tradeto s p ex = (s, Raise ZeroDivision).
Proof.
  intros V HS Hp H. pose proof V as (HB & _ & HZ & HY). unfold tradeto. rewrite req_false by lra.
  assert (R : forall y, raw_price (l_me s) y = pb_raw (l_me s)) by (intros; unfold raw_price, pb_raw; rewrite HS; ring). rewrite R in H.
  assert (A : pa_raw (l_me s) = pb_raw (l_me s)) by (unfold pa_raw, pb_raw; rewrite HS; ring).
  assert (Z : forall q cb re, 0 < q -> in_quote (l_me s) q = pb_raw (l_me s) -> dyfromp_f (l_me s) q cb re = Raise ZeroDivision).
  { intros q cb re Hq E. unfold dyfromp_f. rewrite (nonempty _ V). unfold yfromp_f. rewrite quoted_ok by assumption. cbn [rbind]. rewrite (enabled _ V), andb_false_r.
    rewrite E, A. rewrite !(rlt_false (pb_raw _)) by lra. rewrite andb_false_r.
    assert (0 < pb_raw (l_me s)) by (unfold pb_raw; apply Rmult_lt_0_compat; lra). rewrite rsqrt_ok by lra. cbn [rbind].
    unfold rdiv. rewrite HS, (req_true 0 0) by reflexivity. reflexivity. }
  destruct (Rlt_dec (in_quote (l_me s) p) (pb_raw (l_me s))) as [L|L].
  - assert (E : dyfromp_f (l_me s) p true true = Raise BeyondEnd).
    { unfold dyfromp_f. rewrite (nonempty _ V). unfold yfromp_f. rewrite quoted_ok by assumption. cbn [rbind]. rewrite (enabled _ V). cbn [andb].
      rewrite A, rlt_false by lra. rewrite rlt_true by assumption. reflexivity. }
    rewrite E, price_empty by assumption. cbn [rbind]. rewrite Z; [reflexivity|unfold price_at; apply in_quote_pos; apply raw_pos; [assumption|lra]|].
    unfold price_at. rewrite in_quote_invol. apply R.
  - rewrite Z; [reflexivity|assumption|lra].
Qed.
(** ** previews and rejected sales *)
Lemma preview_alone c dy (an ec re : bool) : fst (selly (mkLinked c None) dy false an ec re) = mkLinked c None.
Proof.
  unfold selly. cbn [l_me l_other]. destruct (rlt dy 0 && negb an && rlt dy (- EPS)); [reflexivity|].
  set (d := if rlt dy 0 && negb an then 0 else dy). clearbody d. set (sm := rlt (Rabs d) EPS). set (d2 := if sm then 0 else d). clearbody d2.
  assert (E : (if sm then false else false) = false) by (destruct sm; reflexivity). rewrite E.
  destruct (p_marg c); [|reflexivity]. destruct (p_marg_f c d2 false false false); [|reflexivity].
  destruct (rlt (c_y c - d2) (- EPS)); [reflexivity|]. destruct (rlt (c_yint c) (c_y c - d2) && negb ec); [reflexivity|].
  rewrite andb_false_r. cbn [l_me]. destruct (dxfromdy_f c d2 false true) as [[dx|]|]; [|reflexivity|reflexivity]. cbn [l_other l_me].
  destruct (xfromy_f c _ true false); reflexivity.
Qed.
Lemma preview_me s dy (an ec re : bool) : l_me (fst (selly s dy false an ec re)) = l_me s.
Proof.
  unfold selly. destruct (rlt dy 0 && negb an && rlt dy (- EPS)); [reflexivity|].
  set (d := if rlt dy 0 && negb an then 0 else dy). clearbody d. set (sm := rlt (Rabs d) EPS). set (d2 := if sm then 0 else d). clearbody d2.
  assert (E : (if sm then false else false) = false) by (destruct sm; reflexivity). rewrite E.
  destruct (p_marg (l_me s)); [|reflexivity]. destruct (p_marg_f (l_me s) d2 false false false); [|reflexivity].
  destruct (rlt (c_y (l_me s) - d2) (- EPS)); [reflexivity|]. destruct (rlt (c_yint (l_me s)) (c_y (l_me s) - d2) && negb ec); [reflexivity|].
  rewrite andb_false_r. destruct (dxfromdy_f (l_me s) d2 false true) as [[dx|]|]; [|reflexivity|reflexivity].
  destruct (l_other s) as [o|].
  - destruct (addliqy o dx) as [o' r]. destruct r; cbn [l_me]; [|reflexivity]. destruct (xfromy_f _ _ true false); reflexivity.
  - destruct (xfromy_f _ _ true false); reflexivity.
Qed.
Lemma rejected_noop s dy (ex an ec re : bool) : 0 <= c_y (l_me s) -> c_y (l_me s) + EPS < dy -> fst (selly s dy ex an ec re) = s /\
  (forall r, snd (selly s dy ex an ec re) <> Ret (Some r)).
Proof.
  intros N H. pose proof EPS_pos as HE.
  unfold selly. rewrite (rlt_false dy 0) by lra. cbn [andb].
  rewrite (Rabs_right dy) by lra. rewrite (rlt_false dy EPS) by lra.
  destruct (p_marg (l_me s)); [|split; [reflexivity|intros r; discriminate]]. destruct (p_marg_f (l_me s) dy false false false); [|split; [reflexivity|intros r; discriminate]].
  rewrite rlt_true by lra. split; [reflexivity|]. intros r. destruct re; discriminate.
Qed.
Lemma tradeto_preview_yint s p : c_yint (l_me (fst (tradeto s p false))) = if req (c_yint (l_me s)) 0 then TINY else c_yint (l_me s).
Proof.
  unfold tradeto. set (t := if req (c_yint (l_me s)) 0 then set_me s (with_yint (l_me s) TINY) else s).
  assert (E : c_yint (l_me t) = if req (c_yint (l_me s)) 0 then TINY else c_yint (l_me s)) by (unfold t; destruct (req _ 0); reflexivity).
  rewrite <- E. clearbody t. destruct (match dyfromp_f (l_me t) p true true with Ret _ => _ | Raise _ => _ end) as [dy|e]; [|reflexivity].
  pose proof (preview_me t dy false false true) as P. destruct (selly t dy false false false true) as [s' r]. cbn [fst] in *. rewrite P. reflexivity.
Qed.
Lemma negative_sale c o dy (ec re : bool) : valid c -> dy <= - EPS -> c_y c - dy <= c_yint c ->
  selly (mkLinked c (Some o)) dy true true ec re = (mkLinked (with_y c (c_y c - dy)) (Some o), Raise ValueError).
Proof.
  intros V H L. pose proof EPS_pos as HE. pose proof V as (HB & HS & HZ & HY). unfold selly. cbn [l_me l_other negb]. rewrite andb_false_r. cbn [andb].
  rewrite Rabs_left by lra. rewrite (rlt_false (- dy)) by lra.
  unfold p_marg. rewrite p_marg_value by (try assumption; lra).
  assert (E : p_marg_f c dy false false false = Ret (Some (price_at c (c_y c - dy)))).
  { unfold p_marg_f. rewrite (enabled c V). cbn [andb]. rewrite req_false by lra. cbn [rbind].
    replace (c_B c + c_S c * (c_y c - dy) / c_yint c) with (rate c (c_y c - dy)) by (unfold rate; field; lra).
    rewrite <- raw_rate. rewrite quoted_ok by (apply raw_pos; [assumption|lra]). reflexivity. }
  rewrite E. rewrite (rlt_false (c_y c - dy)) by lra. rewrite (rlt_false (c_yint c)) by lra. cbn [andb]. rewrite (rlt_false (c_y c - dy) 0) by lra.
  cbn [l_me]. rewrite (dx_value c dy false true V I) by lra. unfold set_me. cbn [l_other l_me].
  rewrite addliqy_neg; [reflexivity|]. unfold cost. pose proof (rate_pos c (c_y c) V ltac:(lra)) as R1. pose proof (rate_pos c (c_y c - dy) V ltac:(lra)) as R2.
  assert (0 < / (rate c (c_y c) * rate c (c_y c - dy))) by (apply Rinv_0_lt_compat; apply Rmult_lt_0_compat; assumption).
  assert (N : dy < 0) by lra. unfold Rdiv. pose proof (Rmult_lt_compat_r _ _ 0 H0 N). lra.
Qed.
