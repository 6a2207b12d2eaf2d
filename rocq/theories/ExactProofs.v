(** The closed-form splits of the exact router. *)
From Coq Require Import Reals Lra Lia Bool List Arith.
From Verif Require Import CurveModel CurveProofs OrderModel ExactModel ExactSpec.
Import ListNotations.
Local Open Scope R_scope.

Lemma rmap_ok {A B} (f : A -> res B) (g : A -> B) l : (forall a, In a l -> f a = Ret (g a)) -> rmap f l = Ret (map g l).
Proof.
  induction l as [|a l IH]; intros H; [reflexivity|]. cbn [rmap map]. rewrite H by (left; reflexivity). cbn [rbind].
  rewrite IH by (intros; apply H; right; assumption). reflexivity.
Qed.
Lemma rmap_inv {A B} (f : A -> res B) l r : rmap f l = Ret r -> Forall2 (fun a b => f a = Ret b) l r.
Proof.
  revert r. induction l as [|a l IH]; intros r H; cbn in H; [injection H as <-; constructor|].
  destruct (f a) eqn:E; [|discriminate]. cbn in H. destruct (rmap f l); [|discriminate]. cbn in H. injection H as <-.
  constructor; [assumption|apply IH; reflexivity].
Qed.

Lemma total_ext f g l : (forall i, In i l -> f i = g i) -> total f l = total g l.
Proof. intros H. unfold total. f_equal. apply map_ext_in. assumption. Qed.
Lemma total_cons f i l : total f (i :: l) = f i + total f l. Proof. reflexivity. Qed.
Lemma total_plus f g l : total (fun i => f i + g i) l = total f l + total g l.
Proof. induction l; rewrite ?total_cons; [unfold total; cbn; lra|rewrite IHl; lra]. Qed.
Lemma total_scale c f l : total (fun i => c * f i) l = c * total f l.
Proof. induction l; rewrite ?total_cons; [unfold total; cbn; lra|rewrite IHl; lra]. Qed.
Lemma total_le f g l : (forall i, In i l -> f i <= g i) -> total f l <= total g l.
Proof.
  induction l; intros H; rewrite ?total_cons; [unfold total; cbn; lra|].
  specialize (H a (or_introl eq_refl)) as Ha. assert (total f l <= total g l) by (apply IHl; intros; apply H; right; assumption). lra.
Qed.
Lemma total_lt f g l : (forall i, In i l -> f i <= g i) -> (exists i, In i l /\ f i < g i) -> total f l < total g l.
Proof.
  induction l; intros H [i [Hi Hlt]]; [destruct Hi|]. rewrite !total_cons.
  specialize (H a (or_introl eq_refl)) as Ha. assert (Hl : total f l <= total g l) by (apply total_le; intros; apply H; right; assumption).
  destruct Hi as [<-|Hi]; [lra|]. assert (total f l < total g l) by (apply IHl; [intros; apply H; right; assumption|exists i; auto]). lra.
Qed.
Lemma total_pos f l : l <> [] -> (forall i, In i l -> 0 < f i) -> 0 < total f l.
Proof.
  intros Hne H. replace 0 with (total (fun _ => 0) l) by (induction l as [|a l IH]; [reflexivity|rewrite total_cons; destruct l; [unfold total; cbn; lra|rewrite IH; [lra|discriminate|intros; apply H; right; assumption]]]).
  apply total_lt; [intros; left; apply H; assumption|]. destruct l as [|a l]; [contradiction|]. exists a. split; [left; reflexivity|apply H; left; reflexivity].
Qed.
Lemma total_without f s l : NoDup l -> In s l -> total f l = f s + total f (without s l).
Proof.
  induction l as [|a l IH]; intros N H; [destruct H|]. inversion N as [|? ? Na Nl]; subst. unfold without. cbn [filter].
  destruct (Nat.eqb_spec a s) as [->|E]; cbn [negb].
  - rewrite total_cons. f_equal. fold (without s l). f_equal. unfold without. clear -Na. induction l as [|b l IH]; [reflexivity|]. cbn.
    destruct (Nat.eqb_spec b s) as [->|]; [exfalso; apply Na; left; reflexivity|]. cbn. f_equal. apply IH. intro; apply Na; right; assumption.
  - destruct H as [->|H]; [congruence|]. rewrite !total_cons. fold (without s l). rewrite (IH Nl H). lra.
Qed.
Lemma in_without i s l : In i (without s l) <-> In i l /\ i <> s.
Proof. unfold without. rewrite filter_In. destruct (Nat.eqb_spec i s); cbn; intuition congruence. Qed.
Lemma nodup_without s l : NoDup l -> NoDup (without s l). Proof. apply NoDup_filter. Qed.

(** products over all but one *)
Lemma rprod_without (f : nat -> R) s l : NoDup l -> In s l -> rprod (map f l) = f s * rprod (map f (without s l)).
Proof.
  induction l as [|a l IH]; intros N H; [destruct H|]. inversion N as [|? ? Na Nl]; subst. unfold without. cbn [filter].
  destruct (Nat.eqb_spec a s) as [->|E]; cbn [negb].
  - unfold rprod at 1. cbn [map fold_right]. f_equal. fold (rprod (map f l)). f_equal. f_equal. fold (without s l). unfold without. clear -Na. induction l as [|b l IH]; [reflexivity|]. cbn.
    destruct (Nat.eqb_spec b s) as [->|]; [exfalso; apply Na; left; reflexivity|]. cbn. f_equal. apply IH. intro; apply Na; right; assumption.
  - destruct H as [->|H]; [congruence|]. unfold rprod in *. cbn [map fold_right]. fold (without s l). rewrite (IH Nl H). lra.
Qed.
Lemma rprod_pos (f : nat -> R) l : (forall i, In i l -> 0 < f i) -> 0 < rprod (map f l).
Proof.
  induction l; intros H; unfold rprod; cbn; [lra|]. apply Rmult_lt_0_compat; [apply H; left; reflexivity|apply IHl; intros; apply H; right; assumption].
Qed.
Lemma rotate (f g : nat -> R) l : NoDup l -> (forall i, In i l -> 0 < f i) ->
  rsum (map (fun j => rprod (map f (without j l)) * g j) l) = rprod (map f l) * total (fun j => g j / f j) l.
Proof.
  intros N H. change (rsum (map (fun j => rprod (map f (without j l)) * g j) l)) with (total (fun j => rprod (map f (without j l)) * g j) l).
  rewrite <- total_scale. apply total_ext. intros i Hi. rewrite (rprod_without f i l N Hi). specialize (H i Hi). field. lra.
Qed.

(** ** per order *)
Definition root (o : xorder) : R := sqrt (xo_x0 o * xo_y0 o).
Lemma root_pos o : sane o -> 0 < root o.
Proof. intros (? & ? & ? & ?). apply sqrt_lt_R0. apply Rmult_lt_0_compat; assumption. Qed.
Lemma root_sq o : sane o -> root o * root o = xo_x0 o * xo_y0 o.
Proof. intros (? & ? & ? & ?). apply sqrt_sqrt. apply Rlt_le, Rmult_lt_0_compat; assumption. Qed.
Lemma depth0_pos o : sane o -> 0 < depth o 0.
Proof.
  intros (H & ? & ? & ?). unfold depth. rewrite Rplus_0_r. assert (0 < xo_y0 o * (1 - xo_n o)) by (apply Rmult_lt_0_compat; lra).
  assert (0 <= xo_n o * xo_y o) by (apply Rmult_le_pos; lra). lra.
Qed.
Lemma depth_shift o v : depth o v = depth o 0 + xo_n o * v. Proof. unfold depth. ring. Qed.
Lemma depth0_eq o : xo_n o * xo_y o + xo_y0 o * (1 - xo_n o) = depth o 0. Proof. unfold depth. ring. Qed.

(** x is defined and x0 - x + ... *)
Lemma x_form o : sane o -> exists x, xo_x o = Ret x /\ xo_n o * x + xo_x0 o * (1 - xo_n o) = xo_x0 o * xo_y0 o / depth o 0.
Proof.
  intros H. pose proof (depth0_pos o H) as D. unfold xo_x. rewrite depth0_eq, rdiv_ok by lra. eexists. split; [reflexivity|].
  assert (E : depth o 0 = xo_n o * xo_y o + xo_y0 o * (1 - xo_n o)) by (unfold depth; ring).
  apply (Rmult_eq_reg_r (depth o 0)); [|lra].
  replace ((xo_n o * (xo_x0 o * (xo_n o * xo_y o - xo_y o + xo_y0 o * (2 - xo_n o)) / depth o 0) + xo_x0 o * (1 - xo_n o)) * depth o 0) with
    (xo_n o * (xo_x0 o * (xo_n o * xo_y o - xo_y o + xo_y0 o * (2 - xo_n o))) + xo_x0 o * (1 - xo_n o) * depth o 0) by (field; lra).
  replace (xo_x0 o * xo_y0 o / depth o 0 * depth o 0) with (xo_x0 o * xo_y0 o) by (field; lra). rewrite E. ring.
Qed.

(** the balance change of an order at the common level [lam] *)
Definition at_level (lam : R) (o : xorder) : R := (lam * root o - depth o 0) / xo_n o.
Lemma depth_at_level lam o : sane o -> depth o (at_level lam o) = lam * root o.
Proof. intros (H & _). rewrite depth_shift. unfold at_level. field. lra. Qed.

(** sums *)
Definition weight (os : list xorder) (sub : list nat) : R := total (fun i => root (getx os i) / xo_n (getx os i)) sub.
Definition reach (os : list xorder) (sub : list nat) : R := total (fun i => depth (getx os i) 0 / xo_n (getx os i)) sub.
Definition level_target (os : list xorder) (sub : list nat) (dx : R) : R := (dx + reach os sub) / weight os sub.
Lemma good_sane os sub i : good_subset os sub -> In i sub -> sane (getx os i).
Proof. intros [_ H] Hi. apply H; assumption. Qed.
Lemma weight_pos os sub : good_subset os sub -> sub <> [] -> 0 < weight os sub.
Proof.
  intros G Hne. apply total_pos; [assumption|]. intros i Hi. pose proof (good_sane _ _ _ G Hi) as H.
  apply Rdiv_lt_0_compat; [apply root_pos; assumption|destruct H; lra].
Qed.
Lemma in_nonempty {A} (i : A) l : In i l -> l <> []. Proof. intros H ->. destruct H. Qed.

Lemma amt_by_target_value os s dx sub : good_subset os sub -> In s sub ->
  amt_by_target os s dx sub = Ret (at_level (level_target os sub dx) (getx os s)).
Proof.
  intros G Hs. destruct G as [N Hall] eqn:EG. clear EG. pose proof (weight_pos os sub (conj N Hall) (in_nonempty _ _ Hs)) as HW.
  pose proof (good_sane os sub s (conj N Hall) Hs) as Ho. unfold amt_by_target. cbv zeta.
  set (o := getx os s) in *. set (free := without s sub).
  assert (Nf : NoDup free) by (apply nodup_without; assumption).
  assert (Hf : forall i, In i free -> sane (getx os i)) by (intros i Hi; apply in_without in Hi; apply Hall; tauto).
  rewrite (rmap_ok _ (fun j => rprod (map (fun k => xo_n (getx os k)) (without j free)) * (root (getx os j) * root o))).
  2:{ intros j Hj. specialize (Hf j Hj). destruct Hf as (? & ? & ? & ?). destruct Ho as (? & ? & ? & ?).
      assert (0 < xo_x0 (getx os j) * xo_y0 (getx os j)) by (apply Rmult_lt_0_compat; assumption).
      assert (0 < xo_x0 o * xo_y0 o) by (apply Rmult_lt_0_compat; assumption).
      rewrite Rmult_assoc, rsqrt_ok by (apply Rlt_le, Rmult_lt_0_compat; assumption). cbn [rbind]. do 2 f_equal.
      unfold root. apply sqrt_mult; lra. }
  cbn [rbind]. destruct (x_form o Ho) as (x & -> & _). cbn [rbind].
  assert (Hn : forall i, In i free -> 0 < xo_n (getx os i)) by (intros i Hi; destruct (Hf i Hi); lra).
  rewrite !(rotate (fun k => xo_n (getx os k))) by assumption.
  set (a := rprod (map (fun k => xo_n (getx os k)) free)). assert (Ha : 0 < a) by (apply rprod_pos; assumption).
  assert (Eb : rsum (map (fun i => xo_y (getx os i)) free) - rsum (map (fun i => xo_y0 (getx os i)) free) + total (fun j => xo_y0 (getx os j) / xo_n (getx os j)) free = reach os sub - depth o 0 / xo_n o).
  { unfold reach. rewrite (total_without _ s sub N Hs). fold free o.
    change (rsum (map (fun i => xo_y (getx os i)) free)) with (total (fun i => xo_y (getx os i)) free).
    change (rsum (map (fun i => xo_y0 (getx os i)) free)) with (total (fun i => xo_y0 (getx os i)) free).
    replace (total (fun i => xo_y (getx os i)) free - total (fun i => xo_y0 (getx os i)) free) with (total (fun i => xo_y (getx os i)) free + (-1) * total (fun i => xo_y0 (getx os i)) free) by ring.
    rewrite <- total_scale, <- !total_plus.
    replace (depth o 0 / xo_n o + total (fun i => depth (getx os i) 0 / xo_n (getx os i)) free - depth o 0 / xo_n o) with (total (fun i => depth (getx os i) 0 / xo_n (getx os i)) free) by ring.
    apply total_ext. intros i Hi. specialize (Hn i Hi). unfold depth. field. lra. }
  assert (Ee : total (fun j => root (getx os j) * root o / xo_n (getx os j)) free = root o * (weight os sub - root o / xo_n o)).
  { unfold weight. rewrite (total_without _ s sub N Hs). fold free o.
    replace (root o / xo_n o + total (fun i => root (getx os i) / xo_n (getx os i)) free - root o / xo_n o) with (total (fun i => root (getx os i) / xo_n (getx os i)) free) by ring.
    rewrite <- total_scale. apply total_ext. intros i Hi. unfold Rdiv. ring. }
  rewrite Ee. pose proof (root_pos o Ho) as HK. pose proof (root_sq o Ho) as Hk.
  set (Y := rsum (map (fun i => xo_y (getx os i)) free) - rsum (map (fun i => xo_y0 (getx os i)) free)) in *.
  set (C := total (fun j => xo_y0 (getx os j) / xo_n (getx os j)) free) in *.
  assert (HY : Y = reach os sub - depth o 0 / xo_n o - C) by lra. rewrite HY. unfold at_level, level_target.
  assert (Hno : 0 < xo_n o) by (destruct Ho; lra).
  rewrite depth0_eq, <- Hk. set (K := root o) in *. set (W := weight os sub) in *. set (V := reach os sub) in *. set (n := xo_n o) in *. set (D := depth o 0) in *.
  clearbody K W V n D C Y a.
  replace (n * (a * (K * (W - K / n))) + K * K * a) with (a * (n * K * W)) by (field; lra).
  assert (0 < a * (n * K * W)) by (repeat apply Rmult_lt_0_compat; assumption).
  rewrite rdiv_ok by lra. f_equal. field. repeat split; lra.
Qed.

(** ** by source *)
Definition stock (o : xorder) : R := xo_x0 o * xo_y0 o / depth o 0.
Definition reach_src (os : list xorder) (sub : list nat) : R := total (fun i => stock (getx os i) / xo_n (getx os i)) sub.
(** the level is the reciprocal of (dx + reach_src) / weight *)
Definition level_src (os : list xorder) (sub : list nat) (dx : R) : R := weight os sub / (dx + reach_src os sub).
Lemma stock_pos o : sane o -> 0 < stock o.
Proof. intros H. pose proof (depth0_pos o H). destruct H as (? & ? & ? & ?). apply Rdiv_lt_0_compat; [apply Rmult_lt_0_compat; assumption|assumption]. Qed.
Lemma reach_src_pos os sub : good_subset os sub -> sub <> [] -> 0 < reach_src os sub.
Proof.
  intros G Hne. apply total_pos; [assumption|]. intros i Hi. pose proof (good_sane _ _ _ G Hi) as H.
  apply Rdiv_lt_0_compat; [apply stock_pos; assumption|destruct H; lra].
Qed.

Lemma amt_by_src_value os s dx sub : good_subset os sub -> In s sub -> 0 < dx + reach_src os sub ->
  amt_by_src os s dx sub = Ret (at_level (level_src os sub dx) (getx os s)).
Proof.
  intros G Hs Hdx. destruct G as [N Hall] eqn:EG. clear EG. pose proof (weight_pos os sub (conj N Hall) (in_nonempty _ _ Hs)) as HW.
  pose proof (good_sane os sub s (conj N Hall) Hs) as Ho. unfold amt_by_src. cbv zeta.
  set (o := getx os s) in *. set (free := without s sub).
  assert (Nf : NoDup free) by (apply nodup_without; assumption).
  assert (Hf : forall i, In i free -> sane (getx os i)) by (intros i Hi; apply in_without in Hi; apply Hall; tauto).
  assert (Hn : forall i, In i free -> 0 < xo_n (getx os i)) by (intros i Hi; destruct (Hf i Hi); lra).
  rewrite (rmap_ok _ (fun i => (stock (getx os i) - xo_x0 (getx os i) * (1 - xo_n (getx os i))) / xo_n (getx os i))).
  2:{ intros j Hj. specialize (Hn j Hj). destruct (x_form _ (Hf j Hj)) as (x & -> & E). f_equal. unfold stock. rewrite <- E. field. lra. }
  cbn [rbind].
  rewrite (rmap_ok _ (fun j => rprod (map (fun k => xo_n (getx os k)) (without j free)) * (root o * root (getx os j)))).
  2:{ intros j Hj. specialize (Hf j Hj). destruct Hf as (? & ? & ? & ?). destruct Ho as (? & ? & ? & ?).
      assert (0 < xo_x0 (getx os j) * xo_y0 (getx os j)) by (apply Rmult_lt_0_compat; assumption).
      assert (0 < xo_x0 o * xo_y0 o) by (apply Rmult_lt_0_compat; assumption). unfold xo_k.
      rewrite rsqrt_ok by (apply Rlt_le, Rmult_lt_0_compat; assumption). cbn [rbind]. do 2 f_equal.
      unfold root. apply sqrt_mult; lra. }
  cbn [rbind]. destruct (x_form o Ho) as (x & -> & Ex). cbn [rbind].
  rewrite !(rotate (fun k => xo_n (getx os k))) by assumption.
  set (a := rprod (map (fun k => xo_n (getx os k)) free)). assert (Ha : 0 < a) by (apply rprod_pos; assumption).
  assert (Eg : rsum (map (fun i => xo_x0 (getx os i)) free) - rsum (map (fun i => (stock (getx os i) - xo_x0 (getx os i) * (1 - xo_n (getx os i))) / xo_n (getx os i)) free) - total (fun j => xo_x0 (getx os j) / xo_n (getx os j)) free = stock o / xo_n o - reach_src os sub).
  { unfold reach_src. rewrite (total_without _ s sub N Hs). fold free o.
    repeat match goal with |- context [rsum (map ?f free)] => change (rsum (map f free)) with (total f free) end.
    match goal with |- total ?f free - total ?g free - total ?h free = _ => replace (total f free - total g free - total h free) with (total f free + (-1) * total g free + (-1) * total h free) by ring end.
    rewrite <- !total_scale, <- !total_plus.
    match goal with |- _ = ?p - (?p + total ?g free) => replace (p - (p + total g free)) with ((-1) * total g free) by ring end.
    rewrite <- total_scale.
    apply total_ext. intros i Hi. specialize (Hn i Hi). field. lra. }
  assert (Ee : total (fun j => root o * root (getx os j) / xo_n (getx os j)) free = root o * (weight os sub - root o / xo_n o)).
  { unfold weight. rewrite (total_without _ s sub N Hs). fold free o.
    replace (root o / xo_n o + total (fun i => root (getx os i) / xo_n (getx os i)) free - root o / xo_n o) with (total (fun i => root (getx os i) / xo_n (getx os i)) free) by ring.
    rewrite <- total_scale. apply total_ext. intros i Hi. unfold Rdiv. ring. }
  rewrite Ee. pose proof (root_pos o Ho) as HK. pose proof (root_sq o Ho) as Hk. pose proof (depth0_pos o Ho) as HD.
  set (X := rsum (map (fun i => xo_x0 (getx os i)) free) - _) in *.
  set (C := total (fun j => xo_x0 (getx os j) / xo_n (getx os j)) free) in *.
  assert (HX : X = stock o / xo_n o - reach_src os sub + C) by lra. rewrite HX. unfold at_level, level_src.
  assert (Hno : 0 < xo_n o) by (destruct Ho; lra). assert (Hx0 : 0 < xo_x0 o) by (destruct Ho; lra).
  assert (Ea : xo_a o = - (xo_x0 o * depth o 0)) by (unfold xo_a, xo_k, depth; ring). rewrite Ea.
  replace (- xo_n o * xo_x0 o + xo_n o * x + xo_x0 o) with (xo_x0 o * xo_y0 o / depth o 0) by (rewrite <- Ex; ring).
  unfold stock, xo_k. rewrite <- Hk.
  set (K := root o) in *. set (W := weight os sub) in *. set (V := reach_src os sub) in *. set (n := xo_n o) in *. set (D := depth o 0) in *. set (x0 := xo_x0 o) in *.
  clearbody K W V n D C X a x0.
  set (b := - (a * C) * (K * K) + _ + _).
  assert (Eb : b = a * K * (K * K / D * W - K * (dx + V))) by (unfold b; field; lra).
  assert (Ed : x0 * (- (x0 * D) * b * n + K * K * x0 * (a * (K * (W - K / n)) * n + K * K * a)) = a * (x0 * x0 * D * n * K * K * (dx + V))) by (rewrite Eb; field; lra).
  rewrite Ed, Eb.
  assert (0 < a * (x0 * x0 * D * n * K * K * (dx + V))) by (repeat apply Rmult_lt_0_compat; assumption).
  rewrite rdiv_ok by lra. f_equal. field. repeat split; lra.
Qed.

(** ** the inputs *)
Lemma dxdy_value o v : sane o -> depth o v <> 0 -> dxdy o v = Ret (payment o (- v)).
Proof.
  intros H Hv. pose proof (depth0_pos o H). unfold dxdy, payment. rewrite depth0_eq, Ropp_involutive.
  change (xo_n o * (xo_y o + v) + xo_y0 o * (1 - xo_n o)) with (depth o v). rewrite rdiv_ok by (apply Rmult_integral_contrapositive_currified; lra). f_equal. f_equal. ring.
Qed.
Lemma payment_form o t : sane o -> depth o (- t) <> 0 -> payment o t = xo_x0 o * xo_y0 o / xo_n o * (/ depth o (- t) - / depth o 0).
Proof.
  intros H Ht. pose proof (depth0_pos o H). unfold payment. rewrite (depth_shift o (- t)) in *. destruct H as (? & _). set (D := depth o 0) in *. clearbody D. field. repeat split; lra.
Qed.
Lemma payment_at_level lam o : sane o -> 0 < lam -> payment o (- at_level lam o) = (root o / lam - stock o) / xo_n o.
Proof.
  intros H Hl. pose proof (root_pos o H). pose proof (depth0_pos o H). rewrite payment_form by (rewrite ?Ropp_involutive, ?depth_at_level by assumption; try assumption; apply Rmult_integral_contrapositive_currified; lra).
  rewrite Ropp_involutive, depth_at_level by assumption. unfold stock. rewrite <- root_sq by assumption. destruct H as (? & _). set (D := depth o 0) in *. set (K := root o) in *. clearbody D K. field. repeat split; lra.
Qed.
