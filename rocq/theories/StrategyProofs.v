(** Lemmas about strategies. *)
From Coq Require Import Reals Lra Bool String List.
From Verif Require Import CurveModel CurveSpec CurveProofs CurveProofs4 StrategyModel.
Import ListNotations.
Local Open Scope R_scope.

Lemma validate_zero : validate (Some 0) = Ret None.
Proof. unfold validate. rewrite req_true by reflexivity. reflexivity. Qed.
Lemma validate_ok x : 0 < x <= 1 -> validate (Some x) = Ret (Some (Rmin x (999 / 1000))).
Proof.
  intros H. unfold validate, MAX_UTIL. rewrite req_false by lra. rewrite !rlt_false by lra. unfold rlt. destruct (Rlt_dec (999 / 1000) x).
  - rewrite Rmin_right by lra. reflexivity.
  - rewrite Rmin_left by lra. reflexivity.
Qed.
Lemma validate_bad x : x < 0 \/ 1 < x -> validate (Some x) = Raise ValueError.
Proof. intros H. unfold validate. rewrite req_false by lra. unfold rlt. destruct (Rlt_dec x 0); [reflexivity|]. destruct (Rlt_dec 1 x); [reflexivity|lra]. Qed.
Lemma validate_cases x : x = 0 /\ validate (Some x) = Ret None \/ 0 < x <= 1 /\ validate (Some x) = Ret (Some (Rmin x (999 / 1000))) \/ (x < 0 \/ 1 < x) /\ validate (Some x) = Raise ValueError.
Proof.
  destruct (Req_dec x 0) as [->|N]; [left; split; [reflexivity|apply validate_zero]|]. destruct (Rlt_dec x 0); [right; right; split; [lra|apply validate_bad; lra]|].
  destruct (Rle_dec x 1); [right; left; split; [lra|apply validate_ok; lra]|right; right; split; [lra|apply validate_bad; lra]].
Qed.
Lemma validate_inv o v : validate o = Ret v -> (match o with Some x => 0 <= x <= 1 | None => True end) /\ (match v with Some y => exists x, o = Some x /\ 0 < x <= 1 /\ y = Rmin x (999 / 1000) | None => o = None \/ o = Some 0 end).
Proof.
  destruct o as [x|]; [|cbn; intros [= <-]; auto]. destruct (validate_cases x) as [[-> E]|[[H E]|[H E]]]; rewrite E; intros V; [injection V as <-|injection V as <-|discriminate].
  - split; [lra|auto].
  - split; [lra|]. exists x. auto.
Qed.

(** from_mgw on widths and utilisations that are in range *)
Lemma mgw_value m g ws wb us ub ar ac r c : 0 < g -> 0 < ws <= 1 -> 0 < wb <= 1 -> 0 <= us <= 1 -> 0 <= ub <= 1 ->
  from_mgw m g (Tuple [Some ws; Some wb]) (Tuple [Some us; Some ub]) ar ac r c =
  let psa := m * (1 + / 2 * g) in let psb := m * (1 + / 2 * g) * (1 + Rmin ws (999 / 1000)) in let pba := m / (1 + / 2 * g) in let pbb := m / (1 + / 2 * g) / (1 + Rmin wb (999 / 1000)) in
  let mg u a b := if req u 0 then None else Some ((1 - Rmin u (999 / 1000)) * a + Rmin u (999 / 1000) * b) in
  Ret (construct psa psb pba pbb ar ac (mg us psa psb) (mg ub pba pbb) None None r c true None).
Proof.
  intros Hg Hs Hb Hus Hub. cbn zeta. unfold from_mgw. cbn [p_or_default both]. unfold or_default. rewrite (req_false g 0) by lra. rewrite (validate_ok ws Hs), (validate_ok wb Hb).
  assert (M : 0 < Rmin wb (999 / 1000)) by (apply Rmin_glb_lt; lra).
  assert (X : forall u, 0 <= u <= 1 -> validate (Some u) = Ret (if req u 0 then None else Some (Rmin u (999 / 1000)))).
  { intros u Hu. unfold req. destruct (Req_EM_T u 0) as [->|N]; [apply validate_zero|apply validate_ok; lra]. }
  rewrite (X us Hus), (X ub Hub). cbn [rbind fst snd]. rewrite rdiv_ok by lra. cbn [rbind]. rewrite rdiv_ok by lra. cbn [rbind].
  unfold req. destruct (Req_EM_T us 0), (Req_EM_T ub 0); reflexivity.
Qed.
Lemma mgw_scalar m g w u ar ac r c : 0 <= g -> 0 <= w <= 1 -> 0 <= u <= 1 ->
  from_mgw m g (Scalar (Some w)) (Scalar (Some u)) ar ac r c =
  let w' := if req w 0 then 1 / 10000 else w in let g' := if req g 0 then 1 / 10000 else g in
  from_mgw m g' (Tuple [Some w'; Some w']) (Tuple [Some u; Some u]) ar ac r c.
Proof.
  intros Hg Hw Hu. cbn zeta. unfold from_mgw. cbn [p_or_default both]. unfold or_default, DEFAULT_WIDTH.
  assert (G : (if req (if req g 0 then 1 / 10000 else g) 0 then 1 / 10000 else (if req g 0 then 1 / 10000 else g)) = (if req g 0 then 1 / 10000 else g)).
  { unfold req. destruct (Req_EM_T g 0); [|destruct (Req_EM_T g 0); [contradiction|reflexivity]]. destruct (Req_EM_T (1 / 10000) 0); [lra|reflexivity]. }
  rewrite G. clear G. set (w' := if req w 0 then 1 / 10000 else w). assert (Hw' : 0 < w' <= 1). { unfold w', req. destruct (Req_EM_T w 0); lra. }
  rewrite (validate_ok w' Hw'). cbn [rbind].
  destruct (validate_cases u) as [[-> E]|[[H E]|[H E]]]; [rewrite E; reflexivity|rewrite E; reflexivity|lra].
Qed.
Lemma both_inv u a b : both u = Ret (a, b) -> 
  (exists x, u = Scalar x /\ validate x = Ret a /\ b = a) \/ (exists x y, u = Tuple [x; y] /\ validate x = Ret a /\ validate y = Ret b) \/ (u = Tuple [] /\ a = None /\ b = None).
Proof.
  destruct u as [x|[|x [|y [|z l]]]]; cbn [both].
  - destruct (validate x) as [v|e] eqn:E; cbn [rbind]; [|discriminate]. intros [= <- <-]. left. exists x. auto.
  - intros [= <- <-]. auto.
  - discriminate.
  - destruct (validate x) as [v|e] eqn:E; [|discriminate]. destruct (validate y) as [v'|e] eqn:E'; [|discriminate]. intros [= <- <-]. right. left. exists x, y. auto.
  - discriminate.
Qed.
(** what an accepted call must look like *)
Lemma mgw_domain m g w u ar ac r c s : from_mgw m g w u ar ac r c = Ret s ->
  g <> -2 /\
  ((exists x, w = Scalar (Some x) /\ 0 <= x <= 1) \/ (exists x y, w = Tuple [Some x; Some y] /\ 0 < x <= 1 /\ 0 < y <= 1)) /\
  (u = Scalar None \/ u = Tuple [] \/ (exists x, u = Scalar (Some x) /\ 0 <= x <= 1) \/ (exists x y, u = Tuple [x; y] /\ (forall v, x = Some v \/ y = Some v -> 0 <= v <= 1))).
Proof.
  unfold from_mgw. destruct (both u) as [[ua ub]|] eqn:U; [|discriminate]. cbn [rbind]. destruct (both (p_or_default w)) as [[wa wb]|] eqn:W; [|discriminate]. cbn [rbind fst snd].
  unfold rdiv at 1. destruct (req (1 + / 2 * or_default g) 0) eqn:G; [discriminate|]. cbn [rbind]. destruct wb as [wb|]; [|discriminate]. cbn [rbind].
  unfold rdiv. destruct (req (1 + wb) 0); [discriminate|]. cbn [rbind]. destruct wa as [wa|]; [|discriminate]. intros _. split; [|split].
  - intros ->. unfold or_default in G. rewrite (req_false (-2) 0) in G by lra. rewrite req_true in G by lra. discriminate.
  - apply both_inv in W as [(x & E & V & _)|[(x & y & E & V & V')|(E & F & _)]].
    + left. apply validate_inv in V as [V1 (z & V2 & V3 & _)]. destruct w as [[w|]|l]; cbn in E; try discriminate; injection E as E; [|congruence]. exists w. split; [reflexivity|].
      rewrite V2 in E. injection E as E. unfold or_default in E. unfold req in E. destruct (Req_EM_T w 0); lra.
    + right. apply validate_inv in V as [_ (a & -> & A & _)], V' as [_ (b & -> & B & _)]. destruct w as [[w|]|l]; cbn in E; try discriminate. injection E as ->. exists a, b. auto.
    + discriminate.
  - apply both_inv in U as [(x & -> & V & _)|[(x & y & -> & V & V')|(-> & _ & _)]].
    + apply validate_inv in V as [V _]. destruct x as [x|]; [right; right; left; exists x; auto|auto].
    + apply validate_inv in V as [V _], V' as [V' _]. right. right. right. exists x, y. split; [reflexivity|]. intros v [->| ->]; assumption.
    + auto.
Qed.
Lemma mgw_refused m g ar ac r c :
  (forall w, w < 0 \/ 1 < w -> from_mgw m g (Scalar (Some w)) (Scalar (Some 0)) ar ac r c = Raise ValueError) /\
  (forall w u, u < 0 \/ 1 < u -> from_mgw m g w (Scalar (Some u)) ar ac r c = Raise ValueError) /\
  (forall w u1 u2, (u1 < 0 \/ 1 < u1) \/ (u2 < 0 \/ 1 < u2) -> from_mgw m g w (Tuple [Some u1; Some u2]) ar ac r c = Raise TypeError) /\
  (g <> -2 -> forall w1 w2, ~ (0 < w1 <= 1 /\ 0 < w2 <= 1) -> from_mgw m g (Tuple [Some w1; Some w2]) (Scalar (Some 0)) ar ac r c = Raise TypeError).
Proof.
  split; [|split; [|split]].
  - intros w H. unfold from_mgw. cbn [p_or_default both]. rewrite validate_zero. cbn [rbind]. unfold or_default. rewrite (req_false w 0) by lra. rewrite (validate_bad w H). reflexivity.
  - intros w u H. unfold from_mgw. cbn [both]. rewrite (validate_bad u H). reflexivity.
  - intros w u1 u2 H. unfold from_mgw. cbn [both]. destruct (validate_cases u1) as [[-> E]|[[H1 E]|[H1 E]]]; rewrite E; try reflexivity; rewrite (validate_bad u2) by lra; reflexivity.
  - intros Hg w1 w2 H. unfold from_mgw. cbn [p_or_default both]. rewrite validate_zero. cbn [rbind].
    assert (G : forall x : R, exists y, rdiv x (1 + / 2 * or_default g) = Ret y). { intros x. eexists. apply rdiv_ok. unfold or_default, DEFAULT_WIDTH, req. destruct (Req_EM_T g 0); lra. }
    destruct (G m) as [y Ey]. assert (M : forall w, 0 < w <= 1 -> 1 + Rmin w (999 / 1000) <> 0) by (intros w Hw; assert (0 < Rmin w (999 / 1000)) by (apply Rmin_glb_lt; lra); lra).
    destruct (validate_cases w1) as [[-> E]|[[H1 E]|[H1 E]]]; rewrite E; [| |reflexivity]; destruct (validate_cases w2) as [[-> E']|[[H2 E']|[H2 E']]]; rewrite E'; try reflexivity;
      cbn [rbind fst snd]; rewrite Ey; cbn [rbind]; try reflexivity.
    + rewrite rdiv_ok by (apply M; exact H2). reflexivity.
    + exfalso. apply H. auto.
Qed.
Lemma mgw_order m g ws wb us ub ar ac r c : 0 < m -> 0 < g -> 0 < ws <= 1 -> 0 < wb <= 1 -> 0 <= us <= 1 -> 0 <= ub <= 1 ->
  exists s, from_mgw m g (Tuple [Some ws; Some wb]) (Tuple [Some us; Some ub]) ar ac r c = Ret s /\
    p_buy_b s < p_buy_a s < m /\ m < p_sell_a s < p_sell_b s /\ p_buy_a s * p_sell_a s = m * m /\ p_sell_a s = p_buy_a s * (1 + g / 2) ^ 2 /\
    p_sell_b s = p_sell_a s * (1 + Rmin ws (999 / 1000)) /\ p_buy_a s = p_buy_b s * (1 + Rmin wb (999 / 1000)) /\
    (us = 0 -> psell_marginal s = None) /\ (ub = 0 -> pbuy_marginal s = None) /\
    (0 < us -> exists p, psell_marginal s = Some p /\ p - p_sell_a s = Rmin us (999 / 1000) * (p_sell_b s - p_sell_a s) /\ p_sell_a s < p < p_sell_b s) /\
    (0 < ub -> exists p, pbuy_marginal s = Some p /\ p_buy_a s - p = Rmin ub (999 / 1000) * (p_buy_a s - p_buy_b s) /\ p_buy_b s < p < p_buy_a s) /\
    y_int_sell s = None /\ y_int_buy s = None /\ rescale s = true /\ rescaled_fctr s = None.
Proof.
  intros Hm Hg Hs Hb Hus Hub. eexists. split; [apply mgw_value; assumption|]. cbn [p_buy_b p_buy_a p_sell_a p_sell_b construct psell_marginal pbuy_marginal y_int_sell y_int_buy rescale rescaled_fctr].
  assert (B : forall x, 0 < x -> 0 < Rmin x (999 / 1000) < 1). { intros x Hx. split; [apply Rmin_glb_lt; lra|]. apply Rle_lt_trans with (999 / 1000); [apply Rmin_r|lra]. }
  pose proof (B ws ltac:(lra)) as Bs. pose proof (B wb ltac:(lra)) as Bb. set (a := Rmin ws (999 / 1000)) in *. set (b := Rmin wb (999 / 1000)) in *. clearbody a b.
  set (k := 1 + / 2 * g). assert (K : 1 < k) by (unfold k; lra). replace (1 + g / 2) with k by (unfold k; field). clearbody k.
  set (q := m / k). assert (Q : 0 < q < m). { unfold q. split; [apply Rdiv_lt_0_compat; lra|]. apply Rmult_lt_reg_r with k; [lra|]. replace (m / k * k) with m by (field; lra). nra. }
  assert (QK : q * k = m) by (unfold q; field; lra). clearbody q.
  set (t := q / (1 + b)). assert (T : t * (1 + b) = q) by (unfold t; field; lra). assert (T0 : 0 < t) by (unfold t; apply Rdiv_lt_0_compat; lra). clearbody t.
  assert (S1 : m < m * k) by nra. assert (S2 : m * k < m * k * (1 + a)). { set (n := m * k) in *. clearbody n. nra. } split; [split; [nra|lra]|]. split; [split; assumption|]. split; [rewrite <- QK; ring|]. split; [rewrite <- QK; ring|].
  split; [ring|]. split; [symmetry; exact T|]. split; [intros ->; rewrite req_true by reflexivity; reflexivity|]. split; [intros ->; rewrite req_true by reflexivity; reflexivity|].
  split; [|split; [|auto]].
  - intros H. rewrite req_false by lra. pose proof (B us H). eexists. split; [reflexivity|]. split; [ring|]. set (u := Rmin us (999 / 1000)) in *. clearbody u. set (n := m * k) in *. set (n' := n * (1 + a)) in *. clearbody n n'. clear - S2 H0. split; nra.
  - intros H. rewrite req_false by lra. pose proof (B ub H). eexists. split; [reflexivity|]. split; [ring|]. set (u := Rmin ub (999 / 1000)) in *. clearbody u. assert (TQ : t < q) by nra. clear - TQ H0. split; nra.
Qed.

(** rescaling *)
Lemma rescale_value s n o force : rescale s = true \/ force = true -> o <> 0 -> exists s', rescale_strat s n o force = Ret s' /\
  p_sell_a s' = p_sell_a s * (n / o) /\ p_sell_b s' = p_sell_b s * (n / o) /\ p_buy_a s' = p_buy_a s * (n / o) /\ p_buy_b s' = p_buy_b s * (n / o) /\
  psell_marginal s' = option_map (fun x => x * (n / o)) (psell_marginal s) /\ pbuy_marginal s' = option_map (fun x => x * (n / o)) (pbuy_marginal s) /\
  y_int_sell s' = y_int_sell s /\ y_int_buy s' = option_map (fun x => x * (n / o)) (y_int_buy s) /\
  amt_rsk s' = amt_rsk s /\ (amt_csh s <> Some 0 -> amt_csh s' = amt_csh s) /\ rsk s' = rsk s /\ csh s' = csh s /\ rescale s' = false /\ rescaled_fctr s' = Some (n / o).
Proof.
  intros H Ho. unfold rescale_strat. assert (E : negb (rescale s) && negb force = false) by (destruct H as [-> | ->]; [reflexivity|apply andb_false_r]). rewrite E, rdiv_ok by exact Ho. cbn [rbind].
  eexists. split; [reflexivity|]. cbn [construct p_sell_a p_sell_b p_buy_a p_buy_b psell_marginal pbuy_marginal y_int_sell y_int_buy amt_rsk amt_csh rsk csh rescale rescaled_fctr].
  do 4 (split; [reflexivity|]). split; [destruct (psell_marginal s); reflexivity|]. split; [destruct (pbuy_marginal s); reflexivity|]. split; [reflexivity|]. split; [destruct (y_int_buy s); reflexivity|].
  split; [reflexivity|]. split; [|auto]. intros N. destruct (amt_csh s) as [x|]; [|reflexivity]. cbn [is_zero]. rewrite req_false; [reflexivity|]. intros ->. apply N. reflexivity.
Qed.
Lemma rescale_once s n o force s' : rescale_strat s n o force = Ret s' -> forall n' o', rescale_strat s' n' o' false = Ret s'.
Proof.
  unfold rescale_strat. destruct (rescale s) eqn:E; cbn [negb andb].
  - unfold rdiv. destruct (req o 0); [discriminate|]. cbn [rbind]. intros [= <-] n' o'. reflexivity.
  - destruct force; cbn [negb].
    + unfold rdiv. destruct (req o 0); [discriminate|]. cbn [rbind]. intros [= <-] n' o'. reflexivity.
    + intros [= <-] n' o'. rewrite E. reflexivity.
Qed.
Lemma rescale_twice s n o n' o' s1 s2 : rescale_strat s n o true = Ret s1 -> rescale_strat s1 n' o' true = Ret s2 ->
  p_sell_a s2 = p_sell_a s * (n / o * (n' / o')) /\ p_sell_b s2 = p_sell_b s * (n / o * (n' / o')) /\ p_buy_a s2 = p_buy_a s * (n / o * (n' / o')) /\ p_buy_b s2 = p_buy_b s * (n / o * (n' / o')) /\
  psell_marginal s2 = option_map (fun x => x * (n / o * (n' / o'))) (psell_marginal s) /\ pbuy_marginal s2 = option_map (fun x => x * (n / o * (n' / o'))) (pbuy_marginal s) /\
  y_int_sell s2 = y_int_sell s /\ y_int_buy s2 = option_map (fun x => x * (n / o * (n' / o'))) (y_int_buy s) /\
  amt_rsk s2 = amt_rsk s /\ rescaled_fctr s2 = Some (n' / o').
Proof.
  unfold rescale_strat. rewrite !andb_false_r. unfold rdiv. destruct (req o 0); [discriminate|]. cbn [rbind]. intros [= <-]. destruct (req o' 0); [discriminate|]. cbn [rbind]. intros [= <-].
  cbn [construct p_sell_a p_sell_b p_buy_a p_buy_b psell_marginal pbuy_marginal y_int_sell y_int_buy amt_rsk rescaled_fctr]. do 4 (split; [ring|]).
  split; [destruct (psell_marginal s); cbn; [f_equal; ring|reflexivity]|]. split; [destruct (pbuy_marginal s); cbn; [f_equal; ring|reflexivity]|]. split; [reflexivity|].
  split; [destruct (y_int_buy s); cbn; [f_equal; ring|reflexivity]|]. auto.
Qed.

(** the payment for a whole full order *)
Lemma whole_order base lo hi y : 0 < lo -> lo <= hi -> 0 < y -> exists c, from_prices base lo hi y y = Ret c /\
  dxfromdy_f c y true true = Ret (Some (if base then y * sqrt (lo * hi) else y / sqrt (lo * hi))).
Proof.
  intros Hl Hh Hy. destruct (from_prices_ok base lo hi y y Hl ltac:(lra) ltac:(lra)) as (c & E & B0 & YI & Y & HB & HS & _ & _ & PA & PB). exists c. split; [exact E|].
  assert (V : valid c) by (unfold valid; lra). rewrite dx_value by (try exact V; lra). f_equal. f_equal. rewrite Y. unfold cost, rate.
  rewrite Rmin_left, Rmax_right in PA by lra. rewrite Rmin_left, Rmax_right in PB by lra. 
  assert (D : disabled c = false). { unfold disabled, pb_raw. rewrite (req_false (c_B c * c_B c) 0) by nra. apply andb_false_r. }
  unfold pa in PA. unfold pb in PB. rewrite D in PA, PB. rewrite B0 in PA, PB. unfold pa_raw, pb_raw in *. rewrite YI.
  replace (y / y) with 1 by (field; lra). replace ((y - y) / y) with 0 by (field; lra). rewrite Rmult_1_r, Rmult_0_r, Rplus_0_r.
  set (b := c_B c) in *. set (d := c_S c) in *. clearbody b d. destruct base.
  - rewrite rdiv_ok in PA by nra. rewrite rdiv_ok in PB by nra. injection PA as PA. injection PB as PB.
    replace (lo * hi) with (Rsqr (/ ((b + d) * b))). { rewrite sqrt_Rsqr. { field. split; lra. } left. apply Rinv_0_lt_compat. nra. }
    rewrite <- PA, <- PB. unfold Rsqr. field. split; lra.
  - injection PA as PA. injection PB as PB. replace (lo * hi) with (Rsqr ((b + d) * b)). { rewrite sqrt_Rsqr by nra. reflexivity. } rewrite <- PA, <- PB. unfold Rsqr. ring.
Qed.
(** a position of the Uniswap kind *)
Lemma u3_value lo hi below tvl fee r c : 0 < lo -> lo <= hi -> exists s, from_u3 lo hi below (Some tvl) fee r c = Ret s /\
  (let f := match fee with Some x => sqrt (lo * hi) * x / 2 | None => 0 end in p_sell_a s = lo + f /\ p_sell_b s = hi + f /\ p_buy_a s = hi - f /\ p_buy_b s = lo - f) /\
  y_int_sell s = Some (tvl / sqrt (lo * hi)) /\ y_int_buy s = Some tvl /\ psell_marginal s = None /\ pbuy_marginal s = None /\ rescale s = false /\
  (if below then amt_rsk s = Some (tvl / sqrt (lo * hi)) /\ amt_csh s = Some (/ 10 ^ 10) else amt_rsk s = Some 0 /\ (tvl <> 0 -> amt_csh s = Some tvl)).
Proof.
  intros Hl Hh. unfold from_u3. rewrite rle_true by exact Hh. cbn [negb]. assert (P : 0 < lo * hi) by nra. assert (S0 : 0 < sqrt (lo * hi)) by (apply sqrt_lt_R0; exact P).
  rewrite rsqrt_ok by lra. cbn [rbind]. rewrite rdiv_ok by lra.
  assert (F : match fee with None => Ret 0 | Some x => Ret (sqrt (lo * hi) * x * / 2) end = Ret (match fee with Some x => sqrt (lo * hi) * x / 2 | None => 0 end)) by (destruct fee; reflexivity).
  rewrite F. cbn [rbind]. set (f := match fee with Some x => sqrt (lo * hi) * x / 2 | None => 0 end). clearbody f. destruct below; cbn [rbind]; eexists; (split; [reflexivity|]);
  cbn [construct p_sell_a p_sell_b p_buy_a p_buy_b psell_marginal pbuy_marginal y_int_sell y_int_buy amt_rsk amt_csh rescale]; (split; [repeat split|]); (do 5 (split; [reflexivity|])); (split; [reflexivity|]).
  - cbn [is_zero]. rewrite req_true by reflexivity. reflexivity.
  - intros H. cbn [is_zero]. rewrite req_false by exact H. reflexivity.
Qed.

(** differences of records *)
Lemma dr_all_spec r : forall r0 d, NoDup (map fst r0) -> dr_all r r0 = Ret d -> map fst d = map fst r0 /\
  forall k, In k (map fst r0) -> exists v v0, lookup r k = Ret v /\ In (k, v0) r0 /\ In (k, if same_val v v0 then VNone else v) d.
Proof.
  induction r0 as [|[k v0] r0 IH]; cbn [dr_all map fst]; intros d ND.
  - intros [= <-]. split; [reflexivity|]. intros k [].
  - destruct (lookup r k) as [v|] eqn:L; [|discriminate]. cbn [rbind]. destruct (dr_all r r0) as [rest|] eqn:E; [|discriminate]. cbn [rbind]. intros [= <-]. inversion ND as [|? ? N1 N2]. subst.
    destruct (IH rest N2 eq_refl) as [I1 I2]. split; [cbn; rewrite I1; reflexivity|]. intros k' [<-|H].
    + exists v, v0. split; [exact L|]. split; left; reflexivity.
    + destruct (I2 k' H) as (w & w0 & A & B & C). exists w, w0. split; [exact A|]. split; right; assumption.
Qed.
Lemma dr_all_total r : forall r0, (forall k, In k (map fst r0) -> exists v, lookup r k = Ret v) <-> exists d, dr_all r r0 = Ret d.
Proof.
  induction r0 as [|[k v0] r0 IH]; cbn [dr_all map fst].
  - split; [intros _; exists []; reflexivity|intros _ k []].
  - split.
    + intros H. destruct (H k (or_introl eq_refl)) as [v L]. rewrite L. cbn [rbind]. destruct (proj1 IH (fun k' H' => H k' (or_intror H'))) as [d E]. rewrite E. cbn [rbind]. eauto.
    + intros [d E]. destruct (lookup r k) as [v|] eqn:L; [|discriminate]. cbn [rbind] in E. destruct (dr_all r r0) as [rest|] eqn:E'; [|discriminate]. intros k' [<-|H']; [eauto|]. apply IH; [eauto|exact H'].
Qed.
Lemma dr_all_error r : forall r0 e, dr_all r r0 = Raise e -> e = KeyError.
Proof.
  assert (L : forall r k e, lookup r k = Raise e -> e = KeyError). { clear. induction r as [|[k' v] r IH]; cbn; intros k e; [congruence|]. destruct (String.eqb k k'); [discriminate|apply IH]. }
  induction r0 as [|[k v0] r0 IH]; cbn [dr_all]; intros e; [discriminate|]. destruct (lookup r k) as [v|e'] eqn:E; cbn [rbind]; [|intros [= <-]; eapply L; exact E].
  destruct (dr_all r r0) as [rest|e']; cbn [rbind]; [discriminate|]. intros [= <-]. apply IH. reflexivity.
Qed.
Lemma same_val_eq a b : same_val a b = true -> a = b.
Proof.
  destruct a, b; cbn; try discriminate; try reflexivity.
  - unfold req. destruct (Req_EM_T x x0); [congruence|discriminate].
  - intros H. apply String.eqb_eq in H. congruence.
Qed.
Lemma in_unique {A B} (l : list (A * B)) k v w : NoDup (map fst l) -> In (k, v) l -> In (k, w) l -> v = w.
Proof.
  induction l as [|[k' u] l IH]; intros ND; [intros []|]. cbn in ND. inversion ND as [|? ? N1 N2]. subst. intros [E|H] [F|H'].
  - congruence.
  - injection E as <- <-. exfalso. apply N1. apply (in_map fst) in H'. exact H'.
  - injection F as <- <-. exfalso. apply N1. apply (in_map fst) in H. exact H.
  - apply IH; assumption.
Qed.
(** which fields a difference reports *)
Lemma dr_spec r r0 d : NoDup (map fst r0) -> dr r r0 true = Ret d -> forall k v, In (k, v) d <->
  lookup r k = Ret v /\ v <> VNone /\ k <> "id0"%string /\ k <> "comment"%string /\ exists v0, In (k, v0) r0 /\ same_val v v0 = false.
Proof.
  intros ND. unfold dr. destruct (dr_all r r0) as [d0|] eqn:E; [|discriminate]. cbn [rbind]. intros [= <-] k v. destruct (dr_all_spec r r0 d0 ND E) as [K S0].
  rewrite filter_In. split.
  - intros [H P]. assert (Hk : In k (map fst r0)) by (rewrite <- K; apply (in_map fst) in H; exact H). destruct (S0 k Hk) as (w & w0 & A & B & C).
    assert (EQ : v = if same_val w w0 then VNone else w) by (eapply in_unique; [rewrite K; exact ND|exact H|exact C]). unfold purged in P. cbn [fst snd] in P.
    destruct (same_val w w0) eqn:SV; [rewrite EQ in P; discriminate|]. subst w. split; [exact A|].
    assert (NV : v <> VNone /\ negb (String.eqb k "id0" || String.eqb k "comment") = true) by (destruct v; try discriminate P; (split; [discriminate|exact P])). destruct NV as [NV P'].
    apply negb_true_iff, orb_false_iff in P' as [P1 P2]. apply String.eqb_neq in P1, P2. split; [exact NV|]. split; [exact P1|]. split; [exact P2|]. exists w0. auto.
  - intros (A & NV & P1 & P2 & v0 & B & SV). assert (Hk : In k (map fst r0)) by (apply (in_map fst) in B; exact B). destruct (S0 k Hk) as (w & w0 & A' & B' & C).
    rewrite A in A'. injection A' as <-. assert (w0 = v0) as -> by (eapply in_unique; [exact ND|exact B'|exact B]). rewrite SV in C. split; [exact C|].
    unfold purged. cbn [fst snd]. apply String.eqb_neq in P1, P2. rewrite P1, P2. destruct v; try reflexivity. congruence.
Qed.
