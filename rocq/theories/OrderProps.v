(** Theorems about Order objects (C34, C35). *)
From Coq Require Import Reals Lra Bool List Arith.
From Verif Require Import CurveModel CurveSpec CurveProofs OrderModel OrderProofs ExactModel ExactSpec ExactProofs ExactProofs2 ExactProofs6.
Import ListNotations.
Local Open Scope R_scope.

(** ** C34 *)
Theorem C34_marginal base p1 p2 pm y : 0 < p1 -> 0 < p2 -> p1 <> p2 -> Rmin p1 p2 < pm -> 0 < y ->
  exists o c, make_order (mkIn None None None (Some p1) (Some p2) (Some pm) (Some y) None false false) = Ret o /\ from_order base o = Ret c /\
    o_plow o = Rmin p1 p2 /\ o_phigh o = Rmax p1 p2 /\ o_y o = y /\ c_y c = y /\ c_yint c = o_yint o /\ c_base c = base /\ 0 < o_yint o /\
    raw_price c 0 = Rmin p1 p2 /\ raw_price c (o_yint o) = Rmax p1 p2 /\ raw_price c y = pm /\ (y <= o_yint o <-> pm <= Rmax p1 p2) /\
    (pm <= Rmax p1 p2 -> valid c /\ forall cb re, p_marg_f c 0 false cb re = Ret (Some (in_quote c pm))).
Proof. exact (marginal_order base p1 p2 pm y). Qed.
Print Assumptions C34_marginal.
Theorem C34_marginal_at_low p1 p2 y : 0 < p1 -> 0 < p2 ->
  make_order (mkIn None None None (Some p1) (Some p2) (Some (Rmin p1 p2)) (Some y) None false false) = Raise ZeroDivision.
Proof. exact (marginal_at_low p1 p2 y). Qed.
Print Assumptions C34_marginal_at_low.
Theorem C34_marginal_below p1 p2 pm y : 0 < p1 -> 0 < p2 -> p1 <> p2 -> 0 <= pm < Rmin p1 p2 -> 0 < y ->
  exists o, make_order (mkIn None None None (Some p1) (Some p2) (Some pm) (Some y) None false false) = Ret o /\ o_yint o < 0.
Proof. exact (marginal_below p1 p2 pm y). Qed.
Print Assumptions C34_marginal_below.
(** every order that can be made has a curve *)
Theorem C34_has_curve i o : make_order i = Ret o -> exists B W, o_B o = Some B /\ o_S o = Some W.
Proof.
  unfold make_order. intros H. destruct (convert_prices i) as [[[[B W] l] h]|] eqn:E; cbn [rbind] in H; [|discriminate].
  destruct (convert_yint i l h) as [[z d]|]; cbn [rbind] in H; [|discriminate].
  assert (K : exists b w, (l <> None -> h <> None -> B = Some b /\ W = Some w)).
  { unfold convert_prices in E. destruct (i_B i) as [b|], (i_S i) as [w|].
    - exists b, w. intros _ _. destruct (if i_rev i then _ else _) as [a|]; cbn [rbind] in E; [|discriminate]. destruct (if i_rev i then rdiv 1 (b * b) else _) as [c|]; cbn [rbind] in E; [|discriminate].
      destruct (rlt a c); injection E as <- <- _ _; auto.
    - destruct (i_plow i) as [pl|], (i_phigh i) as [ph|]; try (exists 0, 0; injection E as _ _ <- <-; congruence).
      destruct (if rlt ph pl then (ph, pl) else (pl, ph)) as [a c]. destruct (rsqrt a) as [u|]; cbn [rbind] in E; [|discriminate]. destruct (rsqrt c) as [v|]; cbn [rbind] in E; [|discriminate]. injection E as <- <- _ _. eauto.
    - destruct (i_plow i) as [pl|], (i_phigh i) as [ph|]; try (exists 0, 0; injection E as _ _ <- <-; congruence).
      destruct (if rlt ph pl then (ph, pl) else (pl, ph)) as [a c]. destruct (rsqrt a) as [u|]; cbn [rbind] in E; [|discriminate]. destruct (rsqrt c) as [v|]; cbn [rbind] in E; [|discriminate]. injection E as <- <- _ _. eauto.
    - destruct (i_plow i) as [pl|], (i_phigh i) as [ph|]; try (exists 0, 0; injection E as _ _ <- <-; congruence).
      destruct (if rlt ph pl then (ph, pl) else (pl, ph)) as [a c]. destruct (rsqrt a) as [u|]; cbn [rbind] in E; [|discriminate]. destruct (rsqrt c) as [v|]; cbn [rbind] in E; [|discriminate]. injection E as <- <- _ _. eauto. }
  destruct K as (b & w & K). exists b, w. destruct (match z with Some z0 => _ | None => _ end) as [z' d'].
  destruct (i_y i), z', l, h; try discriminate. destruct (opt_eqb d' _); [|discriminate]. injection H as <-. cbn. apply K; discriminate.
Qed.
Print Assumptions C34_has_curve.
Theorem C34_capacity base p1 p2 yint pm y : 0 < p1 -> 0 < p2 -> p1 <> p2 -> (yint <> None \/ pm = None) ->
  let z := match yint with Some z => z | None => y end in
  exists o c, make_order (mkIn None None yint (Some p1) (Some p2) pm (Some y) None false false) = Ret o /\ from_order base o = Ret c /\
    o_yint o = z /\ c_yint c = z /\ o_y o = y /\ c_y c = y /\ c_base c = base /\
    o_adj o = false /\ o_plow o = Rmin p1 p2 /\ o_phigh o = Rmax p1 p2 /\ o_B o = Some (sqrt (Rmin p1 p2)) /\ o_S o = Some (sqrt (Rmax p1 p2) - sqrt (Rmin p1 p2)) /\
    raw_price c 0 = Rmin p1 p2 /\ (z <> 0 -> raw_price c z = Rmax p1 p2).
Proof. exact (capacity_order base p1 p2 yint pm y). Qed.
Print Assumptions C34_capacity.
(** prices 4 and 1, marginal price 9/4, balance 3: capacity 6 *)
Example C34_ex : make_order (mkIn None None None (Some 4) (Some 1) (Some (9 / 4)) (Some 3) None false false) = Ret (mkOrder (Some 1) (Some (2 - 1)) 6 4 1 3 false).
Proof.
  unfold make_order, convert_prices, convert_yint. cbn [i_B i_S i_plow i_phigh i_yint i_pmarg i_y i_D i_adj]. rewrite rlt_false by lra. rewrite !rsqrt_ok by lra. cbn [rbind]. rewrite !rsqrt_ok by lra. cbn [rbind].
  assert (E4 : sqrt 4 = 2) by (replace 4 with (2 * 2) by ring; apply sqrt_square; lra).
  assert (E9 : sqrt (9 / 4) = 3 / 2) by (replace (9 / 4) with (3 / 2 * (3 / 2)) by field; apply sqrt_square; lra).
  rewrite sqrt_1, E4, E9. rewrite rdiv_ok by lra. cbn [rbind opt_eqb]. rewrite (req_false 4 1) by lra.
  replace (3 * (2 - 1) / (3 / 2 - 1)) with 6 by field. rewrite req_true by reflexivity. reflexivity.
Qed.

(** ** C35 *)
(** an order given by two distinct prices, as [C34_marginal] and [C34_capacity] produce them *)
Theorem C35_forms_agree base o c x d :
  0 < o_plow o < o_phigh o -> o_adj o = false -> o_B o = Some (sqrt (o_plow o)) -> o_S o = Some (sqrt (o_phigh o) - sqrt (o_plow o)) ->
  1 <= o_yint o -> 0 <= o_y o <= o_yint o -> from_order base o = Ret c -> view o = Ret x -> 0 <= d <= o_y o ->
  exists dx, dxdy x (- d) = Ret dx /\ (forall cb re, dxfromdy_f c d cb re = Ret (Some dx)) /\ price_after x (- d) = raw_price c (o_y o - d).
Proof. intros H1 H2 H3 H4. apply (forms_agree base o c x d). repeat split; try assumption; lra. Qed.
Print Assumptions C35_forms_agree.
Theorem C35_forms_disagree base o c x d :
  0 < o_plow o < o_phigh o -> o_adj o = false -> o_B o = Some (sqrt (o_plow o)) -> o_S o = Some (sqrt (o_phigh o) - sqrt (o_plow o)) ->
  0 < o_yint o < 1 -> 0 < o_y o <= o_yint o -> from_order base o = Ret c -> view o = Ret x -> 0 < d <= o_y o ->
  exists dx dx', dxdy x (- d) = Ret dx /\ (forall cb re, dxfromdy_f c d cb re = Ret (Some dx')) /\ dx' < dx.
Proof. intros H1 H2 H3 H4. apply (forms_disagree base o c x d). repeat split; try assumption; lra. Qed.
Print Assumptions C35_forms_disagree.
(** the parameters are well defined and of the kind the theorems about the exact router ask for *)
Theorem C35_view_sane o : 0 < o_plow o < o_phigh o -> o_adj o = false -> 0 <= o_y o -> exists x, view o = Ret x /\ sane x /\ xo_y x = o_y o.
Proof. exact (view_sane o). Qed.
Print Assumptions C35_view_sane.
Example C35_ex : let o := mkOrder (Some (sqrt 1)) (Some (sqrt 4 - sqrt 1)) 6 4 1 3 false in
  0 < o_plow o < o_phigh o /\ 1 <= o_yint o /\ 0 <= o_y o <= o_yint o /\ from_order true o = Ret (mkCurve true (sqrt 1) (sqrt 4 - sqrt 1) 6 3).
Proof. cbn. repeat split; try lra. apply (from_range_curve true (mkOrder (Some (sqrt 1)) (Some (sqrt 4 - sqrt 1)) 6 4 1 3 false)). repeat split; cbn; lra. Qed.
Example C35_ex_small : let o := mkOrder (Some (sqrt 1)) (Some (sqrt 4 - sqrt 1)) (1 / 2) 4 1 (1 / 2) false in
  0 < o_plow o < o_phigh o /\ 0 < o_yint o < 1 /\ 0 < o_y o <= o_yint o.
Proof. cbn. lra. Qed.
