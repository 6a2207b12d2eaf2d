(** Numerical helpers of the optimizer (C91, C92). *)
From Coq Require Import Reals Lra Bool List Lia Ranalysis5 Arith.
From Verif Require Import CurveModel CurveProofs CpcProofs CpcModel ContainerModel ContainerProofs ContainerProofs2 OptModel.
Import ListNotations.
Local Open Scope R_scope.

(** ** goalseek *)
Lemma eps_pos : 0 < GOALSEEKEPS.
Proof. unfold GOALSEEKEPS. apply Rinv_0_lt_compat, pow_lt. lra. Qed.

Lemma seek_stops f (g : R -> R) n : forall a b, (forall t, a <= t <= b -> f t = Ret (g t)) -> a <= b -> b - a <= GOALSEEKEPS * 2 ^ n ->
  exists o, forall m, (n < m)%nat -> seek m f a b = Ret (Some o).
Proof.
  induction n as [|n IH]; intros a b F H W.
  - exists (Found ((a + b) / 2)). intros [|m] Hm; [lia|]. cbn [seek]. rewrite rlt_false; [reflexivity|]. cbn [pow] in W. lra.
  - destruct (Rlt_dec GOALSEEKEPS (b - a)) as [L|L].
    + assert (C : a <= (a + b) / 2 <= b) by lra.
      destruct (req (g ((a + b) / 2)) 0) eqn:Z.
      * exists (Plain ((a + b) / 2)). intros [|m] Hm; [lia|]. cbn [seek]. rewrite rlt_true by exact L.
        rewrite F by exact C. cbn [rbind]. rewrite Z. reflexivity.
      * cbn [pow] in W. destruct (rlt (g a * g ((a + b) / 2)) 0) eqn:S.
        -- destruct (IH a ((a + b) / 2)) as [o Ho]; [intros t Ht; apply F; lra|lra|lra|].
           exists o. intros [|m] Hm; [lia|]. cbn [seek]. rewrite rlt_true by exact L. rewrite F by exact C. cbn [rbind]. rewrite Z, F by lra. cbn [rbind].
           rewrite S. apply Ho. lia.
        -- destruct (IH ((a + b) / 2) b) as [o Ho]; [intros t Ht; apply F; lra|lra|lra|].
           exists o. intros [|m] Hm; [lia|]. cbn [seek]. rewrite rlt_true by exact L. rewrite F by exact C. cbn [rbind]. rewrite Z, F by lra. cbn [rbind].
           rewrite S. apply Ho. lia.
    + exists (Found ((a + b) / 2)). intros [|m] Hm; [lia|]. cbn [seek]. rewrite rlt_false by lra. reflexivity.
Qed.
Lemma some_power e w : 0 < e -> exists n, w <= e * 2 ^ n.
Proof.
  intros He. destruct (Pow_x_infinity 2 ltac:(rewrite Rabs_right; lra) (w / e)) as [N HN]. exists N.
  specialize (HN N (le_n N)). rewrite Rabs_right in HN by (apply Rle_ge, pow_le; lra).
  apply Rge_le in HN. apply (Rmult_le_compat_r e) in HN; [|lra]. replace (w / e * e) with w in HN by (field; lra). lra.
Qed.
Lemma goalseek_stops f (g : R -> R) a b : a <= b -> (forall t, a <= t <= b -> f t = Ret (g t)) -> g a * g b <= 0 ->
  exists N o, forall m, (N < m)%nat -> goalseek m f a b = Ret (Some o).
Proof.
  intros H F S. destruct (some_power GOALSEEKEPS (b - a) eps_pos) as [n W]. destruct (seek_stops f g n a b F H W) as [o Ho].
  exists n, o. intros m Hm. unfold goalseek. rewrite !F by lra. cbn [rbind]. rewrite rlt_false by lra. apply Ho. exact Hm.
Qed.
Lemma goalseek_raises n f (g : R -> R) a b : f a = Ret (g a) -> f b = Ret (g b) -> 0 < g a * g b -> goalseek n f a b = Raise ValueError.
Proof. intros Fa Fb S. unfold goalseek. rewrite Fa, Fb. cbn [rbind]. rewrite rlt_true by exact S. reflexivity. Qed.

(** the final bracket *)
Definition bracket (g : R -> R) (a b : R) (o : sought) : Prop :=
  match o with
  | Plain c => a < c < b /\ g c = 0
  | Found c => exists a' b', a <= a' /\ a' <= b' /\ b' <= b /\ b' - a' <= GOALSEEKEPS /\ c = (a' + b') / 2 /\ g a' <> 0 /\ g a' * g b' <= 0
  end.
Lemma seek_bracket f (g : R -> R) n : forall a b o, (forall t, a <= t <= b -> f t = Ret (g t)) -> a <= b -> g a <> 0 -> g a * g b <= 0 ->
  seek n f a b = Ret (Some o) -> bracket g a b o.
Proof.
  induction n as [|n IH]; intros a b o F H N S; cbn [seek]; [discriminate|].
  destruct (Rlt_dec GOALSEEKEPS (b - a)) as [L|L].
  - pose proof eps_pos. rewrite rlt_true by exact L. rewrite !F by lra. cbn [rbind]. set (c := (a + b) / 2) in *. assert (C : a < c < b) by (unfold c; lra). clearbody c.
    destruct (req (g c) 0) eqn:Z.
    + intros [= <-]. cbn [bracket]. split; [exact C|]. apply req_iff in Z. exact Z.
    + assert (NC : g c <> 0) by (intros G; apply req_iff in G; congruence).
      destruct (Rlt_dec (g a * g c) 0) as [Q|Q].
      * rewrite rlt_true by exact Q. intros E. apply IH in E; [|intros t Ht; apply F; lra|lra|exact N|lra].
        destruct o as [d|d]; cbn [bracket] in *; [lra|]. destruct E as (a' & b' & ?). exists a', b'. intuition lra.
      * rewrite rlt_false by lra. intros E. apply IH in E; [|intros t Ht; apply F; lra|lra|exact NC|].
        { destruct o as [d|d]; cbn [bracket] in *; [lra|]. destruct E as (a' & b' & ?). exists a', b'. intuition lra. }
        clear - N NC Q S. destruct (Rlt_dec 0 (g a)) as [A|A].
        -- assert (0 <= g c) by (apply Rnot_lt_le; intros B; apply Q; nra).
           assert (g b <= 0) by nra. nra.
        -- assert (g a < 0) by lra. assert (g c <= 0) by (apply Rnot_lt_le; intros B; apply Q; nra). assert (0 <= g b) by nra. nra.
  - rewrite rlt_false by lra. intros [= <-]. cbn [bracket]. exists a, b. intuition lra.
Qed.
Lemma root_between (g : R -> R) a b : a <= b -> (forall t, a <= t <= b -> continuity_pt g t) -> g a * g b <= 0 -> exists r, a <= r <= b /\ g r = 0.
Proof.
  intros H C S. destruct (Req_dec (g a) 0) as [Za|Za]; [exists a; split; [lra|exact Za]|].
  destruct (Req_dec (g b) 0) as [Zb|Zb]; [exists b; split; [lra|exact Zb]|].
  destruct (Req_dec a b) as [->|N]; [exfalso; nra|].
  destruct (Rlt_dec (g a) 0) as [A|A].
  - assert (0 < g b) by nra. destruct (IVT_interv g a b C ltac:(lra) A H0) as (r & Hr). exists r. exact Hr.
  - assert (0 < g a) by lra. assert (g b < 0) by nra. destruct (IVT_interv (fun t => - g t) a b) as (r & Hr1 & Hr2); [|lra|lra|lra|].
    + intros t Ht. apply (continuity_pt_opp g), C. exact Ht.
    + exists r. split; [exact Hr1|lra].
Qed.
Lemma goalseek_root f (g : R -> R) n a b o : a <= b -> (forall t, a <= t <= b -> f t = Ret (g t)) -> (forall t, a <= t <= b -> continuity_pt g t) -> g a <> 0 ->
  goalseek n f a b = Ret (Some o) ->
  match o with
  | Plain c => a < c < b /\ g c = 0
  | Found c => exists r, a <= r <= b /\ g r = 0 /\ Rabs (c - r) <= GOALSEEKEPS / 2 /\ a <= c <= b
  end.
Proof.
  intros H F C N. unfold goalseek. rewrite !F by lra. cbn [rbind]. destruct (Rlt_dec 0 (g a * g b)) as [S|S]; [rewrite rlt_true by exact S; discriminate|].
  rewrite rlt_false by lra. intros E. apply (seek_bracket f g) in E; [|exact F|exact H|exact N|lra].
  destruct o as [c|c]; cbn [bracket] in E; [exact E|]. destruct E as (a' & b' & H1 & H2 & H3 & H4 & -> & _ & S').
  destruct (root_between g a' b' H2) as (r & Hr & Z); [intros t Ht; apply C; lra|exact S'|]. exists r. split; [lra|]. split; [exact Z|].
  split; [apply Rabs_le; lra|lra].
Qed.
(** a root at the left end is lost *)
Lemma seek_right f (g : R -> R) n : forall a b o, (forall t, a <= t <= b -> f t = Ret (g t)) -> a <= b -> (forall t, a <= t <= b -> 0 < g t) ->
  seek n f a b = Ret (Some o) -> exists c, o = Found c /\ (a + b) / 2 <= c <= b /\ b - GOALSEEKEPS / 2 <= c.
Proof.
  induction n as [|n IH]; intros a b o F H P; cbn [seek]; [discriminate|]. destruct (Rlt_dec GOALSEEKEPS (b - a)) as [L|L].
  - rewrite rlt_true by exact L. pose proof eps_pos. rewrite !F by lra. cbn [rbind]. set (c := (a + b) / 2) in *. assert (C : a < c < b) by (unfold c; lra). clearbody c.
    rewrite req_false by (apply Rgt_not_eq, P; lra). rewrite rlt_false; [|apply Rlt_le, Rmult_lt_0_compat; apply P; lra].
    intros E. apply IH in E; [|intros t Ht; apply F; lra|lra|intros t Ht; apply P; lra]. destruct E as (d & -> & E1 & E2). exists d. split; [reflexivity|]. lra.
  - rewrite rlt_false by lra. intros [= <-]. eexists. split; [reflexivity|]. lra.
Qed.
Lemma goalseek_left f (g : R -> R) n a b o : GOALSEEKEPS < b - a -> (forall t, a <= t <= b -> f t = Ret (g t)) -> g a = 0 -> (forall t, a < t <= b -> 0 < g t) ->
  goalseek n f a b = Ret (Some o) -> exists c, o = Found c /\ b - GOALSEEKEPS / 2 <= c <= b.
Proof.
  intros L F Z P. pose proof eps_pos. unfold goalseek. rewrite !F by lra. cbn [rbind]. rewrite rlt_false by (rewrite Z; lra).
  destruct n as [|n]; cbn [seek]; [discriminate|]. rewrite rlt_true by exact L. rewrite !F by lra. cbn [rbind]. set (c := (a + b) / 2) in *. assert (C : a < c < b) by (unfold c; lra). clearbody c.
  rewrite req_false by (apply Rgt_not_eq, P; lra). rewrite rlt_false by (rewrite Z; lra). intros E.
  apply (seek_right f g) in E; [|intros t Ht; apply F; lra|lra|intros t Ht; apply P; lra]. destruct E as (d & -> & E1 & E2). exists d. split; [reflexivity|]. lra.
Qed.
Lemma goalseek_short f (g : R -> R) n a b : b - a <= GOALSEEKEPS -> f a = Ret (g a) -> f b = Ret (g b) -> g a * g b <= 0 -> goalseek (S n) f a b = Ret (Some (Found ((a + b) / 2))).
Proof. intros L Fa Fb S. unfold goalseek. rewrite Fa, Fb. cbn [rbind seek]. rewrite rlt_false by lra. rewrite rlt_false by lra. reflexivity. Qed.

(** ** finite differences *)
Lemma h_pos : 0 < DERIVEPS.
Proof. unfold DERIVEPS. apply Rinv_0_lt_compat, pow_lt. lra. Qed.
Lemma deriv_ret (g : R -> R) x : deriv (fun t => Ret (g t)) x = Ret ((g (x + DERIVEPS) - g (x - DERIVEPS)) / (2 * DERIVEPS)).
Proof. reflexivity. Qed.
Lemma deriv2_ret (g : R -> R) x : deriv2 (fun t => Ret (g t)) x = Ret ((g (x + DERIVEPS) - 2 * g x + g (x - DERIVEPS)) / (DERIVEPS * DERIVEPS)).
Proof. reflexivity. Qed.
Lemma slope (g g' : R -> R) x : (forall t, x - DERIVEPS <= t <= x + DERIVEPS -> derivable_pt_lim g t (g' t)) ->
  exists t, x - DERIVEPS < t < x + DERIVEPS /\ deriv (fun t => Ret (g t)) x = Ret (g' t).
Proof.
  intros D. pose proof h_pos as H. rewrite deriv_ret. set (h := DERIVEPS) in *. clearbody h.
  destruct (MVT_cor2 g g' (x - h) (x + h) ltac:(lra) D) as (t & E & Ht). exists t. split; [exact Ht|]. rewrite E. f_equal. field. lra.
Qed.
Lemma curvature (g g1 g2 : R -> R) x : (forall t, x - DERIVEPS <= t <= x + DERIVEPS -> derivable_pt_lim g t (g1 t) /\ derivable_pt_lim g1 t (g2 t)) ->
  exists t, x - DERIVEPS < t < x + DERIVEPS /\ deriv2 (fun t => Ret (g t)) x = Ret (g2 t).
Proof.
  intros D. pose proof h_pos as H. rewrite deriv2_ret. set (h := DERIVEPS) in *. clearbody h.
  destruct (MVT_cor2 (fun t => g t - g (t - h)) (fun t => g1 t - g1 (t - h)) x (x + h) ltac:(lra)) as (t & E & Ht).
  { intros c Hc. apply derivable_pt_lim_minus; [apply D; lra|].
    pose proof (derivable_pt_lim_comp (fun u => u - h) g c 1 (g1 (c - h))) as Q. unfold comp in Q. rewrite Rmult_1_r in Q. apply Q; [|apply D; lra].
    pose proof (derivable_pt_lim_minus id (fct_cte h) c 1 0 (derivable_pt_lim_id c) (derivable_pt_lim_const h c)) as Q'.
    rewrite Rminus_0_r in Q'. exact Q'. }
  destruct (MVT_cor2 g1 g2 (t - h) t ltac:(lra)) as (u & E' & Hu); [intros c Hc; apply D; lra|].
  exists u. split; [lra|]. f_equal. replace (x + h - h) with x in E by ring. rewrite E' in E.
  replace (g (x + h) - 2 * g x + g (x - h)) with (g (x + h) - g x - (g x - g (x - h))) by ring. rewrite E. field. lra.
Qed.

Definition quadratic (a b c t : R) : R := a * t ^ 2 + b * t + c.
Lemma deriv_quadratic a b c x : deriv (fun t => Ret (quadratic a b c t)) x = Ret (2 * a * x + b).
Proof. pose proof h_pos as H. rewrite deriv_ret. f_equal. unfold quadratic. set (h := DERIVEPS) in *. clearbody h. field. lra. Qed.
Lemma deriv2_quadratic a b c x : deriv2 (fun t => Ret (quadratic a b c t)) x = Ret (2 * a).
Proof. pose proof h_pos as H. rewrite deriv2_ret. f_equal. unfold quadratic. set (h := DERIVEPS) in *. clearbody h. field. lra. Qed.
Lemma newton_quadratic a b c n x : a <> 0 -> findminmax_nr (fun t => Ret (quadratic a b c t)) x (S n) = SOk (- b / (2 * a)).
Proof.
  intros N. revert x. induction n as [|n IH]; intros x.
  - cbn [findminmax_nr]. unfold nr_step. rewrite deriv_quadratic, deriv2_quadratic. cbn [rbind]. rewrite rdiv_ok by lra. cbn [rbind]. f_equal. field. exact N.
  - remember (S n) as m. cbn [findminmax_nr]. unfold nr_step. rewrite deriv_quadratic, deriv2_quadratic. cbn [rbind]. rewrite rdiv_ok by lra. cbn [rbind]. apply IH.
Qed.
Lemma newton_line b c n x : findminmax_nr (fun t => Ret (quadratic 0 b c t)) x (S n) = SError.
Proof.
  cbn [findminmax_nr]. unfold nr_step. rewrite deriv_quadratic, deriv2_quadratic. cbn [rbind]. replace (2 * 0) with 0 by ring.
  unfold rdiv. rewrite (proj2 (req_iff 0 0) eq_refl). reflexivity.
Qed.
Lemma descend_quadratic a b c rate n x : a <> 0 ->
  findmin_gd (fun t => Ret (quadratic a b c t)) x rate n = Ret (- b / (2 * a) + (1 - 2 * a * rate) ^ n * (x - - b / (2 * a))).
Proof.
  intros N. unfold findmin_gd. revert x. induction n as [|n IH]; intros x; cbn [descend]; [f_equal; cbn [pow]; ring|].
  rewrite deriv_quadratic. cbn [rbind]. rewrite IH. f_equal. cbn [pow]. field. exact N.
Qed.
Lemma ascend_quadratic a b c rate n x : a <> 0 ->
  findmax_gd (fun t => Ret (quadratic a b c t)) x rate n = Ret (- b / (2 * a) + (1 + 2 * a * rate) ^ n * (x - - b / (2 * a))).
Proof.
  intros N. unfold findmax_gd. revert x. induction n as [|n IH]; intros x; cbn [ascend]; [f_equal; cbn [pow]; ring|].
  rewrite deriv_quadratic. cbn [rbind]. rewrite IH. f_equal. cbn [pow]. field. exact N.
Qed.
Lemma posneg v : Forall (fun a => 0 <= a) (posx v) /\ Forall (fun a => a <= 0) (negx v) /\ zipw Rplus (posx v) (negx v) = v /\
  Forall (fun a => a = 0) (zipw Rmult (posx v) (negx v)).
Proof.
  induction v as [|a v (I1 & I2 & I3 & I4)]; cbn [posx negx map zipw]; [repeat split; constructor|].
  unfold posx, negx in *. destruct (Rlt_dec 0 a) as [P|P]; [rewrite (rlt_true 0 a), (rlt_false a 0) by lra|rewrite (rlt_false 0 a) by lra].
  - repeat split; try (constructor; [lra|assumption]). rewrite I3. f_equal. ring.
  - destruct (Rlt_dec a 0) as [Q|Q]; [rewrite rlt_true by lra|rewrite rlt_false by lra];
      (repeat split; try (constructor; [lra|assumption]); rewrite I3; f_equal; lra).
Qed.
(** the Jacobian of a function that is affine in every coordinate *)
Lemma zipw_sub_add D (w col : list R) : List.length col = List.length w -> zipw Rminus (zipw Rplus w (map (Rmult D) col)) w = map (Rmult D) col.
Proof.
  revert col. induction w as [|a w IH]; intros [|b col] H; cbn in *; try discriminate; [reflexivity|]. f_equal; [ring|]. apply IH. congruence.
Qed.
Lemma rmap_div D l : D <> 0 -> rmap (fun d => rdiv d D) (map (Rmult D) l) = Ret l.
Proof.
  intros H. induction l as [|a l IH]; [reflexivity|]. cbn [map rmap]. rewrite rdiv_ok by exact H. cbn [rbind]. rewrite IH. cbn [rbind].
  do 2 f_equal. field. exact H.
Qed.
Lemma jacobian_affine (f : list R -> list R) (cols : list (list R)) eps v : dflt eps JACEPS <> 0 ->
  List.length cols = List.length v ->
  (forall j D, (j < List.length v)%nat -> f (add_at j D v) = zipw Rplus (f v) (map (Rmult D) (nth j cols []))) ->
  (forall j, (j < List.length v)%nat -> List.length (nth j cols []) = List.length (f v)) ->
  jacobian (fun u => Ret (f u)) v eps = Ret cols.
Proof.
  intros He HL F W. unfold jacobian. cbn [rbind]. set (e := dflt eps JACEPS) in *. clearbody e.
  assert (G : forall l, (forall j, In j l -> (j < List.length v)%nat) ->
     rmap (fun j => let xj := nth j v 0 in let D := if req xj 0 then e else Rabs xj * e in rmap (fun d => rdiv d D) (zipw Rminus (f (add_at j D v)) (f v))) l
     = Ret (map (fun j => nth j cols []) l)).
  { cbv zeta. induction l as [|j l IH]; intros Hl; [reflexivity|]. cbn [rmap map].
    set (D := if req (nth j v 0) 0 then e else Rabs (nth j v 0) * e).
    assert (HD : D <> 0). { unfold D. destruct (req (nth j v 0) 0) eqn:Q; [exact He|]. apply Rmult_integral_contrapositive_currified; [|exact He].
      apply Rabs_no_R0. intros Z. apply req_iff in Z. congruence. }
    clearbody D. rewrite F by (apply Hl; left; reflexivity). rewrite zipw_sub_add by (apply W, Hl; left; reflexivity). rewrite rmap_div by exact HD. cbn [rbind].
    rewrite IH by (intros i Hi; apply Hl; right; exact Hi). reflexivity. }
  cbv zeta in G |- *. cbn [rbind]. rewrite G by (intros j Hj; apply in_seq in Hj; lia). f_equal. rewrite <- HL.
  clear. induction cols as [|c cols IH]; [reflexivity|]. cbn [List.length seq map nth]. f_equal. rewrite <- seq_shift, map_map. exact IH.
Qed.
