From Coq Require Import ZArith QArith Qabs List Bool Lia Lqa Permutation Setoid.
From Verif Require Import TradeModel PairModel PairProofs SimModel MatchModel SimSpec FastModel FastSpec FastProofs FastProofs2 FastProofs3 FastProofs4 GainSpec.
Import ListNotations.
Local Open Scope Q_scope.

(** ** Prices of the fast router *)
Lemma qle_l a b c : 0 <= a -> b <= c -> a * b <= a * c.
Proof. intros Ha H. pose proof (qmul_nonneg a (c - b) Ha ltac:(lra)). lra. Qed.
Lemma qle_sq a b c d : 0 <= a -> 0 <= c -> a <= b -> c <= d -> a * c <= b * d.
Proof. intros Ha Hc Hab Hcd. pose proof (qle_l a c d Ha Hcd). pose proof (qle_l d a b ltac:(lra) Hab). lra. Qed.
Definition below (fo : forder) (ph : Q) : Prop := 0 <= fo_A fo /\ 0 <= fo_B fo /\ 0 < fo_z fo /\ 0 <= fo_y fo /\ fo_y fo <= fo_z fo /\ (fo_A fo + fo_B fo) * (fo_A fo + fo_B fo) <= ph.
Lemma rate_bounds fo ph u : below fo ph -> 0 <= u -> u <= fo_z fo -> fo_B fo * fo_z fo <= rate_at fo u /\ rate_at fo u <= (fo_A fo + fo_B fo) * fo_z fo.
Proof.
  intros (HA & HB & Hz & Hy & Hyz & Hp) H0 Hu. unfold rate_at. pose proof (qmul_nonneg _ _ HA H0). pose proof (qle_l _ _ _ HA Hu). split; lra.
Qed.
Lemma rates_nonneg fo ph u : below fo ph -> 0 <= u -> u <= fo_z fo -> 0 <= rate_at fo u.
Proof. intros H H0 Hu. pose proof (proj1 (rate_bounds fo ph u H H0 Hu)). destruct H as (HA & HB & Hz & _). pose proof (qmul_nonneg (fo_B fo) (fo_z fo) HB ltac:(lra)). lra. Qed.
(** what is charged for [d] *)
Lemma src_price fo ph d v : below fo ph -> 0 <= d -> d <= fo_y fo -> amt_by_src false fo d = Some v -> d <= ph * v.
Proof.
  intros H Hd Hdy E. apply src_inv in E as [Nz E]. pose proof H as (HA & HB & Hz & Hy & Hyz & Hp).
  pose proof (rate_bounds fo ph (fo_y fo) H Hy Hyz) as [L1 U1]. pose proof (rate_bounds fo ph (fo_y fo - d) H ltac:(lra) ltac:(lra)) as [L2 U2].
  pose proof (rates_nonneg fo ph (fo_y fo) H Hy Hyz) as R1. pose proof (rates_nonneg fo ph (fo_y fo - d) H ltac:(lra) ltac:(lra)) as R2.
  set (P := rate_at fo (fo_y fo) * rate_at fo (fo_y fo - d)) in *.
  assert (P0 : 0 < P). { destruct (Qlt_le_dec 0 P) as [L|L]; [assumption|]. exfalso. apply Nz. pose proof (qmul_nonneg _ _ R1 R2). unfold P in *. lra. }
  assert (PU : P <= ph * (fo_z fo * fo_z fo)).
  { pose proof (qle_sq _ _ _ _ R1 R2 U1 U2) as X. fold P in X. pose proof (qle_l (fo_z fo * fo_z fo) _ _ (qmul_nonneg _ _ (Qlt_le_weak _ _ Hz) (Qlt_le_weak _ _ Hz)) Hp). lra. }
  rewrite E. setoid_replace (ph * (d * (fo_z fo * fo_z fo) / P)) with (d * (ph * (fo_z fo * fo_z fo)) / P) by (field; lra).
  apply Qle_shift_div_l; [assumption|]. apply qle_l; assumption.
Qed.
Lemma src_price_low fo ph d v : below fo ph -> 0 < fo_B fo -> 0 <= d -> d <= fo_y fo -> amt_by_src false fo d = Some v -> fo_B fo * fo_B fo * v <= d.
Proof.
  intros H B0 Hd Hdy E. apply src_inv in E as [Nz E]. pose proof H as (HA & HB & Hz & Hy & Hyz & Hp).
  pose proof (rate_bounds fo ph (fo_y fo) H Hy Hyz) as [L1 U1]. pose proof (rate_bounds fo ph (fo_y fo - d) H ltac:(lra) ltac:(lra)) as [L2 U2].
  pose proof (qmul_pos _ _ B0 Hz) as BZ.
  set (P := rate_at fo (fo_y fo) * rate_at fo (fo_y fo - d)) in *.
  assert (PL : fo_B fo * fo_z fo * (fo_B fo * fo_z fo) <= P) by (apply qle_sq; lra).
  pose proof (qmul_pos _ _ BZ BZ). rewrite E. setoid_replace (fo_B fo * fo_B fo * (d * (fo_z fo * fo_z fo) / P)) with (d * (fo_B fo * fo_z fo * (fo_B fo * fo_z fo)) / P) by (field; lra).
  apply Qle_shift_div_r; [lra|]. apply qle_l; assumption.
Qed.
(** what is given for [x] *)
Lemma target_price fo ph x t : below fo ph -> 0 <= x -> amt_by_target false fo x = Some t -> t <= ph * x.
Proof.
  intros H Hx E. apply target_inv in E as [Nz E]. pose proof H as (HA & HB & Hz & Hy & Hyz & Hp).
  pose proof (rate_bounds fo ph (fo_y fo) H Hy Hyz) as [L1 U1]. pose proof (rates_nonneg fo ph (fo_y fo) H Hy Hyz) as R1.
  set (T := rate_at fo (fo_y fo)) in *. pose proof (qmul_pos _ _ Hz Hz) as ZZ. pose proof (qmul_nonneg _ _ (qmul_nonneg _ _ HA Hx) R1) as AX.
  assert (TT : T * T <= ph * (fo_z fo * fo_z fo)). { pose proof (qle_sq _ _ _ _ R1 R1 U1 U1). pose proof (qle_l (fo_z fo * fo_z fo) _ _ ltac:(lra) Hp). lra. }
  rewrite E. apply Qle_shift_div_r; [lra|]. pose proof (qle_l x _ _ Hx TT).
  assert (P0 : 0 <= ph) by (pose proof (sq_nonneg (fo_A fo + fo_B fo)); lra). pose proof (qmul_nonneg _ _ (qmul_nonneg _ _ P0 Hx) AX). lra.
Qed.

Definition lifted (ab : sorder -> Q * Q) (o : sorder) : forder := mkForder (so_y o) (so_yint o) (fst (ab o)) (snd (ab o)).
Lemma fast_prices sort ab apps rq routes r o : perm_sort sort ->
  (forall o, In o apps -> 0 < so_y o /\ so_y o <= so_yint o /\ fits_high ab o) ->
  fast_router sort ab apps rq = Some routes -> In r routes -> nth_error apps (rt_index r) = Some o ->
  let sold := match rq_by rq with BySource => rt_output r | ByTarget => rt_input r end in
  let bought := match rq_by rq with BySource => rt_input r | ByTarget => rt_output r end in
  0 < sold /\ 0 < bought /\ sold <= so_phigh o * bought /\ (fits_low ab o -> so_plow o * bought <= sold).
Proof.
  intros Hs Ha H Hin Ho. cbv zeta. pose proof (fast_sane _ _ _ _ _ Hs H) as (_ & _ & Sg & _). destruct (Sg r Hin) as (f1 & _ & I0 & O0 & _).
  split; [destruct (rq_by rq); assumption|]. split; [destruct (rq_by rq); assumption|].
  destruct (Ha o (nth_error_In _ _ Ho)) as (Y0 & YZ & FA & FB & FH).
  set (fo := lifted ab o).
  assert (Bl : below fo (so_phigh o)) by (unfold below, fo, lifted; cbn; repeat split; try assumption; lra).
  assert (FBo : fo_B fo = snd (ab o)) by reflexivity.
  assert (Gd0 : 0 < snd (ab o) -> good_order fo) by (intros; unfold good_order, fo, lifted; cbn; repeat split; lra).
  assert (Efo : lifted ab o = fo) by reflexivity. clearbody fo.
  unfold fast_router in H. cbv zeta in H. fold (lifted ab) in H. change (fun o => mkForder (so_y o) (so_yint o) (fst (ab o)) (snd (ab o))) with (lifted ab) in H.
  destruct (rq_by rq).
  - unfold match_by_src in H. destruct (match_acts _ _ _ _ _ _ Hs quote_source_zero H) as (acts & _ & -> & _ & HX & Hact). apply totals_In in Hin.
    destruct (Hact _ Hin) as (f & q & Ef & Eq & Hp & D). cbn [fa_index fa_input fa_output] in *.
    rewrite nth_error_map, Ho in Ef. cbn [option_map] in Ef. injection Ef as <-. rewrite Efo in Eq, D.
    pose proof Eq as Eq0. unfold quote_by_source in Eq. destruct (amt_by_target false fo (Qabs (rq_x rq))) as [t|] eqn:Et; [|discriminate]. cbv beta iota zeta delta [bind] in Eq.
    destruct (amt_by_src false fo (pymin t (fo_y fo))) as [v|] eqn:Ev; [|discriminate]. injection Eq as <-. destruct Hp as [P1 P2]. cbn [fr_input fr_output] in *.
    pose proof (pymin_r t (fo_y fo)) as Md.
    destruct D as [[E1 E2]|(X0 & X1 & X2 & q' & Eq' & E2)].
    + rewrite E1, E2 in *. split; [apply (src_price fo _ (pymin t (fo_y fo)) v Bl ltac:(lra) Md Ev)|]. intros [B0 BL].
      pose proof (src_price_low fo _ (pymin t (fo_y fo)) v Bl ltac:(rewrite FBo; exact B0) ltac:(lra) Md Ev) as X. rewrite FBo in X. pose proof (qle_l v _ _ ltac:(lra) BL). lra.
    + unfold quote_by_source in Eq'. destruct (amt_by_target false fo (rt_input r)) as [t'|] eqn:Et'; [|discriminate]. cbv beta iota zeta delta [bind] in Eq'.
      destruct (amt_by_src false fo (pymin t' (fo_y fo))) as [v'|] eqn:Ev'; [|discriminate]. injection Eq' as <-. cbn [fr_output] in *. rewrite E2 in *.
      split.
      * pose proof (target_price fo _ (rt_input r) t' Bl ltac:(lra) Et') as X. rewrite pymin_qmin. pose proof (qmin_l t' (fo_y fo)). lra.
      * intros [B0 BL]. pose proof (Gd0 B0) as Gd.
        destruct (target_value fo (rt_input r) Gd ltac:(lra)) as (u & Eu & Vu). assert (u = t') by congruence. subst u.
        destruct (src_value fo (pymin t (fo_y fo)) Gd Md) as (u & Eu2 & Vu2). assert (u = v) by congruence. subst u.
        assert (Lt : t' < fo_y fo).
        { pose proof (gain_lt fo (rt_input r) v Gd ltac:(lra) X1) as X. rewrite Vu2 in X. rewrite gain_cost in X by (try assumption; lra). lra. }
        assert (Mm : pymin t' (fo_y fo) = t'). { unfold pymin. destruct (Qlt_bool (fo_y fo) t') eqn:Q; [|reflexivity]. apply Qlt_bool_iff in Q. lra. }
        rewrite Mm in *. destruct (src_value fo t' Gd ltac:(lra)) as (u & Eu3 & Vu3). assert (u = v') by congruence. subst u.
        assert (Ec : curve_cost fo t' == rt_input r) by (rewrite Vu; apply cost_gain; [assumption|lra]).
        pose proof (src_price_low fo _ t' v' Bl ltac:(rewrite FBo; exact B0) ltac:(lra) ltac:(lra) Ev') as X. rewrite FBo in X. rewrite Vu3, Ec in X. pose proof (qle_l (rt_input r) _ _ ltac:(lra) BL). lra.
  - unfold match_by_target in H. destruct (match_acts _ _ _ _ _ _ Hs quote_target_zero H) as (acts & _ & -> & _ & HX & Hact). apply totals_In in Hin.
    destruct (Hact _ Hin) as (f & q & Ef & Eq & Hp & D). cbn [fa_index fa_input fa_output] in *.
    rewrite nth_error_map, Ho in Ef. cbn [option_map] in Ef. injection Ef as <-. rewrite Efo in Eq, D.
    assert (Core : forall d v, amt_by_src false fo d = Some v -> 0 < d -> 0 < v -> d <= fo_y fo -> d <= so_phigh o * v /\ (fits_low ab o -> so_plow o * v <= d)).
    { intros d v Ev D0 V0 Dy. split; [apply (src_price fo _ d v Bl ltac:(lra) Dy Ev)|]. intros [B0 BL].
      pose proof (src_price_low fo _ d v Bl ltac:(rewrite FBo; exact B0) ltac:(lra) Dy Ev) as X. rewrite FBo in X. pose proof (qle_l v _ _ ltac:(lra) BL). lra. }
    destruct D as [[E1 E2]|(X0 & X1 & X2 & q' & Eq' & E2)].
    + pose proof (target_in _ _ _ Eq) as Dy. unfold quote_by_target in Eq. cbv zeta in Eq. destruct (amt_by_src false fo (pymin (Qabs (rq_x rq)) (fo_y fo))) as [v|] eqn:Ev; [|discriminate]. cbv beta iota delta [bind] in Eq. injection Eq as <-. cbn [fr_input fr_output] in *.
      rewrite E1, E2 in *. apply Core; assumption.
    + destruct (target_partial _ _ _ _ _ X0 X2 Eq Hp X1 Eq') as (P1 & P2 & P3). unfold quote_by_target in Eq'. cbv zeta in Eq'.
      destruct (amt_by_src false fo (pymin (rt_input r) (fo_y fo))) as [v|] eqn:Ev; [|discriminate]. cbv beta iota delta [bind] in Eq'. injection Eq' as <-. cbn [fr_input fr_output] in *.
      rewrite P1 in Ev. rewrite E2 in *. apply Core; try assumption. lra.
Qed.
Lemma fast_router_priced e : runs_fast_priced e -> router_priced e.
Proof.
  intros (Hf & sort & ab & Hs & Hab & Hr) apps rq routes r o Ha H Hin Ho. rewrite Hr in H.
  assert (Ha' : forall o, In o apps -> 0 < so_y o /\ so_y o <= so_yint o /\ fits_high ab o).
  { intros o1 H1. destruct (Ha o1 H1) as (A & B & C). auto. }
  destruct (fast_prices sort ab apps rq routes r o Hs Ha' H Hin Ho) as (S0 & B0 & P & _). unfold sold_of, bought_of. rewrite Hf. destruct (rq_by rq); rewrite !Qabs_pos by lra; exact P.
Qed.
Lemma fast_priced_fast e : runs_fast_priced e -> runs_fast e.
Proof. intros (Hf & sort & ab & Hs & _ & Hr). split; [assumption|]. eauto. Qed.
