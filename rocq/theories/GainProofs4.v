From Coq Require Import Reals Lra Lia Bool List Arith.
From Verif Require Import CurveModel CurveProofs OrderModel OrderProofs ExactModel ExactSpec ExactProofs ExactProofs2 ExactProofs3 ExactProofs4 ExactProofs6.
Import ListNotations.
Local Open Scope R_scope.

(** ** Prices of the exact router *)
Lemma o_n_width o n : o_n o = Ret n -> 0 < o_plow o -> o_plow o <= o_phigh o ->
  (o_adj o = true /\ n = / 10 ^ 18) \/ (o_adj o = false /\ (1 - n) * (1 - n) = sqrt (o_plow o / o_phigh o) /\ 0 < 1 - n <= 1).
Proof.
  intros E Hl Hh. unfold o_n in E. destruct (o_adj o); [left; injection E as <-; split; [reflexivity|reflexivity]|]. right.
  assert (P : 0 < o_plow o / o_phigh o) by (apply Rdiv_lt_0_compat; lra).
  rewrite rdiv_ok in E by lra. cbn [rbind] in E. rewrite rsqrt_ok in E by lra. cbn [rbind] in E.
  rewrite rsqrt_ok in E by (apply sqrt_pos). cbn [rbind] in E. injection E as <-. split; [reflexivity|].
  set (s := sqrt (o_plow o / o_phigh o)). assert (S0 : 0 < s) by (apply sqrt_lt_R0; exact P).
  assert (S1 : s <= 1). { rewrite <- sqrt_1. apply sqrt_le_1_alt. apply (Rmult_le_reg_r (o_phigh o)); [lra|]. unfold Rdiv. rewrite Rmult_assoc, Rinv_l by lra. lra. }
  replace (1 - (1 - sqrt s)) with (sqrt s) by ring. split; [apply sqrt_sqrt; lra|]. split; [apply sqrt_lt_R0; exact S0|]. rewrite <- sqrt_1. apply sqrt_le_1_alt; exact S1.
Qed.
Lemma view_fields o v : view o = Ret v -> exists n p, o_n o = Ret n /\ o_p o = Ret p /\ p * (2 - n) <> 0 /\ v = mkX n (zmax o * (1 - n) / (p * (2 - n))) (zmax o * (1 - n) / (2 - n)) (o_y o).
Proof.
  intros E. unfold view, o_x0, o_y0 in E. destruct (o_n o) as [n|]; [|discriminate]. cbn [rbind] in E. destruct (o_p o) as [p|]; [|discriminate]. cbn [rbind] in E.
  unfold rdiv in E. destruct (req (p * (2 - n)) 0) eqn:E1; [discriminate|]. cbn [rbind] in E. destruct (req (2 - n) 0) eqn:E2; [discriminate|]. cbn [rbind] in E.
  injection E as <-. exists n, p. repeat split. intros Z. rewrite Z in E1. unfold req in E1. destruct (Req_EM_T 0 0); [discriminate|congruence].
Qed.
Lemma mul_le a b c : 0 <= a -> b <= c -> a * b <= a * c.
Proof. intros. apply Rmult_le_compat_l; assumption. Qed.
(** inputs and outputs at the geometric mean price [p], up to the square of [q = 1 - n] *)
Lemma within_width o v n p out inp : view o = Ret v -> o_n o = Ret n -> o_p o = Ret p -> 0 < n < 1 -> 0 < p -> 0 <= o_y o -> o_y o <= zmax o ->
  - o_y o <= out -> out < 0 -> dxdy v out = Ret inp ->
  0 < inp /\ p * ((1 - n) * (1 - n)) * inp <= - out /\ (1 - n) * (1 - n) * - out <= p * inp.
Proof.
  intros V En Ep Hn Hp Hy Hyz Ho1 Ho2 D. destruct (view_fields _ _ V) as (n' & p' & En' & Ep' & _ & ->). assert (n' = n) by congruence. assert (p' = p) by congruence. subst n' p'.
  assert (Z1 : 1 <= zmax o). { unfold zmax. unfold rlt. destruct (Rlt_dec (o_yint o) 1); lra. }
  set (Z := zmax o) in *. set (q := 1 - n) in *. assert (Q : 0 < q < 1) by (unfold q; lra). replace (2 - n) with (1 + q) in * by (unfold q; ring). 
  unfold dxdy in D. cbn [xo_n xo_x0 xo_y0 xo_y] in D. fold q in D. replace n with (1 - q) in D by (unfold q; ring).
  set (w := / (1 + q)) in *. assert (W : 0 < w) by (apply Rinv_0_lt_compat; lra). assert (Wq : w * (1 + q) = 1) by (apply Rinv_l; lra).
  assert (Bnd : forall u, 0 <= u -> u <= Z -> Z * q * q * w <= (1 - q) * u + Z * q / (1 + q) * q <= Z * w).
  { intros u U0 U1. unfold Rdiv. fold w. pose proof (mul_le (1 - q) 0 u ltac:(lra) U0) as A. pose proof (mul_le (1 - q) u Z ltac:(lra) U1) as B.
    split; [lra|]. assert ((1 - q) * Z = Z * w * (1 - q * q)) by (replace ((1 - q) * Z) with (Z * (1 - q) * (w * (1 + q))) by (rewrite Wq; ring); ring). lra. }
  pose proof (Bnd (o_y o) Hy Hyz) as [L1 U1]. pose proof (Bnd (o_y o + out) ltac:(lra) ltac:(lra)) as [L2 U2].
  set (d1 := (1 - q) * o_y o + Z * q / (1 + q) * q) in *. set (d2 := (1 - q) * (o_y o + out) + Z * q / (1 + q) * q) in *.
  assert (Q2 : 0 < q * q) by (apply Rmult_lt_0_compat; lra). assert (ZW : 0 < Z * w) by (apply Rmult_lt_0_compat; lra).
  assert (LP : 0 < Z * q * q * w) by (replace (Z * q * q * w) with (Z * w * (q * q)) by ring; apply Rmult_lt_0_compat; assumption).
  assert (P1 : 0 < d1) by lra. assert (P2 : 0 < d2) by lra. assert (PD : 0 < d1 * d2) by (apply Rmult_lt_0_compat; assumption).
  rewrite rdiv_ok in D by lra. injection D as <-.
  assert (ML : Z * q * q * w * (Z * q * q * w) <= d1 * d2) by (apply Rmult_le_compat; lra).
  assert (MU : d1 * d2 <= Z * w * (Z * w)) by (apply Rmult_le_compat; lra).
  set (K := Z * w * (Z * w)) in *. set (t := - out). assert (T : 0 < t) by (unfold t; lra).
  assert (Ei : - (Z * q / (p * (1 + q))) * (Z * q / (1 + q)) * out / (d1 * d2) = t * (K * (q * q)) / (p * (d1 * d2))).
  { unfold K, t, w. field. repeat split; lra. }
  rewrite Ei. assert (K0 : 0 < K) by (unfold K; apply Rmult_lt_0_compat; assumption). assert (KQ : 0 < K * (q * q)) by (apply Rmult_lt_0_compat; assumption).
  assert (PDp : 0 < p * (d1 * d2)) by (apply Rmult_lt_0_compat; assumption).
  split; [apply Rdiv_lt_0_compat; [apply Rmult_lt_0_compat; assumption|assumption]|]. split.
  - replace (p * (q * q) * (t * (K * (q * q)) / (p * (d1 * d2)))) with (t * (Z * q * q * w * (Z * q * q * w)) / (d1 * d2)) by (unfold K; field; repeat split; lra).
    apply (Rmult_le_reg_r (d1 * d2)); [assumption|]. unfold Rdiv. rewrite Rmult_assoc, Rinv_l by lra. rewrite Rmult_1_r. apply mul_le; lra.
  - replace (p * (t * (K * (q * q)) / (p * (d1 * d2)))) with (q * q * t * K / (d1 * d2)) by (field; repeat split; lra).
    apply (Rmult_le_reg_r (d1 * d2)); [assumption|]. unfold Rdiv at 1. rewrite (Rmult_assoc _ (/ (d1 * d2))), Rinv_l by lra. rewrite Rmult_1_r. apply mul_le; [|assumption]. apply Rlt_le, Rmult_lt_0_compat; assumption.
Qed.
Lemma geo_mean l h : 0 < l -> l <= h -> sqrt (h * l) = h * sqrt (l / h) /\ sqrt (h * l) * sqrt (l / h) = l.
Proof.
  intros Hl Hh. assert (P : 0 <= l / h) by (apply Rlt_le, Rdiv_lt_0_compat; lra).
  assert (E : sqrt (h * l) = h * sqrt (l / h)). { replace (h * l) with (h * h * (l / h)) by (field; lra). rewrite sqrt_mult by (try assumption; apply Rlt_le, Rmult_lt_0_compat; lra). rewrite sqrt_square by lra. reflexivity. }
  split; [exact E|]. rewrite E, Rmult_assoc, sqrt_sqrt by assumption. field; lra.
Qed.
(** an order with a proper range *)
Lemma ranged_prices o v out inp : view o = Ret v -> o_adj o = false -> 0 < o_plow o < o_phigh o -> 0 <= o_y o -> o_y o <= o_yint o ->
  - o_y o <= out -> out < 0 -> dxdy v out = Ret inp -> 0 < inp /\ o_plow o * inp <= - out <= o_phigh o * inp.
Proof.
  intros V Ha [Hl Hh] Hy Hyz Ho1 Ho2 D. destruct (view_fields _ _ V) as (n & p & En & Ep & _).
  destruct (o_n_width o n En Hl ltac:(lra)) as [[C _]|(_ & Es & Q)]; [congruence|].
  pose proof (geo_mean _ _ Hl (Rlt_le _ _ Hh)) as [G1 G2]. set (s := sqrt (o_plow o / o_phigh o)) in *.
  assert (P : 0 < o_plow o / o_phigh o) by (apply Rdiv_lt_0_compat; lra). assert (S0 : 0 < s) by (apply sqrt_lt_R0; exact P).
  assert (S1 : s < 1). { rewrite <- sqrt_1. apply sqrt_lt_1_alt. split; [lra|]. apply (Rmult_lt_reg_r (o_phigh o)); [lra|]. unfold Rdiv. rewrite Rmult_assoc, Rinv_l by lra. lra. }
  assert (Hn : 0 < n < 1). { split; [|lra]. destruct (Rlt_dec 0 n) as [L|L]; [assumption|]. assert (1 * 1 <= (1 - n) * (1 - n)) by (apply Rmult_le_compat; lra). lra. }
  assert (Ep' : p = sqrt (o_phigh o * o_plow o)). { unfold o_p in Ep. rewrite rsqrt_ok in Ep by (apply Rlt_le, Rmult_lt_0_compat; lra). injection Ep as <-. reflexivity. }
  assert (Hp : 0 < p) by (rewrite Ep'; apply sqrt_lt_R0, Rmult_lt_0_compat; lra).
  assert (Yz : o_y o <= zmax o). { unfold zmax. unfold rlt. destruct (Rlt_dec (o_yint o) 1); lra. }
  destruct (within_width o v n p out inp V En Ep Hn Hp Hy Yz Ho1 Ho2 D) as (I0 & A & B). split; [assumption|]. rewrite Es in A, B. rewrite Ep' in A, B.
  split; [rewrite G2 in A; exact A|]. rewrite G1 in B. apply (Rmult_le_reg_l s); [assumption|]. lra.
Qed.
(** an order treated as having one price *)
Lemma single_prices o v out inp : view o = Ret v -> o_adj o = true -> 0 < o_phigh o -> o_plow o = o_phigh o -> 0 <= o_y o -> o_y o <= o_yint o ->
  - o_y o <= out -> out < 0 -> dxdy v out = Ret inp -> 0 < inp /\ o_phigh o * (1 - / 10 ^ 18) ^ 2 * inp <= - out <= o_phigh o / (1 - / 10 ^ 18) ^ 2 * inp.
Proof.
  intros V Ha Hh El Hy Hyz Ho1 Ho2 D. destruct (view_fields _ _ V) as (n & p & En & Ep & _).
  destruct (o_n_width o n En ltac:(lra) ltac:(lra)) as [[_ Hn]|(C & _)]; [|congruence].
  assert (T : 0 < / 10 ^ 18 < 1). { assert (X : 1 < 10 ^ 18) by (apply Rlt_pow_R1; [lra|lia]). split; [apply Rinv_0_lt_compat; lra|]. rewrite <- Rinv_1. apply Rinv_lt_contravar; lra. }
  rewrite <- Hn in *. 
  assert (Ep' : p = o_phigh o). { unfold o_p in Ep. rewrite El in Ep. rewrite rsqrt_ok in Ep by (apply Rlt_le, Rmult_lt_0_compat; lra). rewrite sqrt_square in Ep by lra. injection Ep as <-. reflexivity. }
  assert (Yz : o_y o <= zmax o). { unfold zmax. unfold rlt. destruct (Rlt_dec (o_yint o) 1); lra. }
  destruct (within_width o v n p out inp V En Ep T ltac:(lra) Hy Yz Ho1 Ho2 D) as (I0 & A & B). split; [assumption|]. rewrite Ep' in A, B.
  replace ((1 - n) ^ 2) with ((1 - n) * (1 - n)) by ring. split; [lra|].
  assert (Q : 0 < (1 - n) * (1 - n)) by (apply Rmult_lt_0_compat; lra).
  apply (Rmult_le_reg_l ((1 - n) * (1 - n))); [assumption|]. replace ((1 - n) * (1 - n) * (o_phigh o / ((1 - n) * (1 - n)) * inp)) with (o_phigh o * inp) by (field; lra). lra.
Qed.
Lemma views_nth os vs i o : rmap view os = Ret vs -> nth_error os i = Some o -> view o = Ret (nth i vs (mkX 0 0 0 0)).
Proof.
  revert vs i; induction os as [|a os IH]; intros vs i E H; [destruct i; discriminate|]. cbn [rmap] in E.
  destruct (view a) as [b|] eqn:Ea; [|discriminate]. cbn [rbind] in E. destruct (rmap view os) as [bs|] eqn:Eb; [|discriminate]. cbn [rbind] in E. injection E as <-.
  destruct i as [|i]; [cbn in H; injection H as <-; exact Ea|]. cbn in H |- *. apply IH; [reflexivity|assumption].
Qed.
Lemma match_prices fuel infuel os vs split x bt check level sp acts a o : rmap view os = Ret vs ->
  match_with fuel infuel vs split x bt check level sp = Some (Ret acts) -> In a acts -> nth_error os (ac_index a) = Some o ->
  0 <= o_y o -> o_y o <= o_yint o -> ac_output a < 0 ->
  0 <= o_y o + ac_output a /\
  (o_adj o = false -> 0 < o_plow o < o_phigh o -> 0 < ac_input a /\ o_plow o * ac_input a <= - ac_output a <= o_phigh o * ac_input a) /\
  (o_adj o = true -> 0 < o_phigh o -> o_plow o = o_phigh o -> 0 < ac_input a /\ o_phigh o * (1 - / 10 ^ 18) ^ 2 * ac_input a <= - ac_output a <= o_phigh o / (1 - / 10 ^ 18) ^ 2 * ac_input a).
Proof.
  intros Hv H Hin Ho Hy Hyz Neg. pose proof (match_bounded _ _ _ _ _ _ _ _ _ _ H) as (_ & B & _). destruct (B a Hin) as (_ & _ & B1 & B2).
  pose proof (views_nth _ _ _ _ Hv Ho) as V. set (v := nth (ac_index a) vs (mkX 0 0 0 0)) in *.
  assert (Ey : xo_y v = o_y o). { destruct (view_fields _ _ V) as (n & p & _ & _ & _ & ->). reflexivity. }
  rewrite Ey in B1. split; [exact B1|]. split; intros; [apply (ranged_prices o v)|apply (single_prices o v)]; try assumption; lra.
Qed.

(** ** The alpha router matches over a selection *)
From Verif Require Import AlphaModel.
Lemma alpha_target_match fuel infuel rank ords x check k sp acts : alpha_by_target fuel infuel rank ords x check k sp = Some (Ret acts) ->
  exists os split x' level, rmap view ords = Ret os /\ match_with fuel infuel os split x' true check level sp = Some (Ret acts).
Proof.
  unfold alpha_by_target. intros H. destruct (rmap view ords) as [os|]; [|discriminate]. cbn [rbind] in H. destruct (rmap (fun o => hyp_target o x) ords) as [hs|]; [|discriminate]. cbn [rbind] in H.
  unfold route in H. match type of H with match ?s with _ => _ end = _ => destruct s as [[ps|]|]; try discriminate end. exists os. unfold exact_match in H. eauto 6.
Qed.
Lemma alpha_source_match fuel infuel rank ords x check k sp acts : alpha_by_source fuel infuel rank ords x check k sp = Some (Ret acts) ->
  exists os split x' level, rmap view ords = Ret os /\ match_with fuel infuel os split x' false check level sp = Some (Ret acts).
Proof.
  unfold alpha_by_source. intros H. destruct (rmap view ords) as [os|]; [|discriminate]. cbn [rbind] in H. destruct (rmap (fun o => hyp_source o x) ords) as [hs|]; [|discriminate]. cbn [rbind] in H.
  match type of H with match rbind ?m _ with _ => _ end = _ => destruct m as [vs|]; [|discriminate] end. cbn [rbind] in H.
  destruct k as [k|]; [|match type of H with match ?l with _ => _ end = _ => destruct l; discriminate end].
  assert (H' : route fuel infuel os (rank (fun i => nth i hs 0) (indexes os)) (map (fun i => nth i vs 0) (rank (fun i => nth i hs 0) (indexes os))) (clamp_request sp (rsum (map (fun i => nth i vs 0) (rank (fun i => nth i hs 0) (indexes os)))) x) false check k sp = Some (Ret acts)) by exact H.
  clear H. unfold route in H'. match type of H' with match ?s with _ => _ end = _ => destruct s as [[ps|]|]; try discriminate end. exists os. unfold exact_match in H'. eauto 6.
Qed.
