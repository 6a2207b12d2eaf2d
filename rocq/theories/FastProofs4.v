From Coq Require Import ZArith QArith Qabs Qround List Bool Lia Lqa Permutation Setoid Sorted.
From Verif Require Import TradeModel PairModel PairProofs SimModel MatchModel SimSpec SimProofs SimProofs7 SimProofs8 FastModel FastSpec FastProofs FastProofs2 FastProofs3.
Import ListNotations.
Local Open Scope Q_scope.

Lemma target_proper o X r : good_order o -> 0 <= X -> quote_by_target false X o = Some r -> proper_quote r.
Proof.
  intros G H E. destruct (quote_target_value o X G H) as (r' & E' & E1 & E2). rewrite E in E'. injection E' as <-.
  assert (Hy : 0 <= fo_y o) by apply G. assert (Ri : fr_input r <= fo_y o) by (rewrite E1; apply qmin_r).
  assert (R0 : 0 <= fr_input r) by (rewrite E1; destruct (qmin_cases X (fo_y o)) as [[-> _]|[-> _]]; assumption).
  destruct (Qlt_le_dec 0 (fr_input r)) as [L|L].
  - left. split; [assumption|]. rewrite E2. apply cost_pos; assumption.
  - right. assert (Z0 : fr_input r == 0) by lra. split; [assumption|]. rewrite E2, Z0. apply cost_0.
Qed.
Lemma source_proper o X r : good_order o -> 0 <= X -> quote_by_source false X o = Some r -> proper_quote r.
Proof.
  intros G H E. destruct (quote_source_value o X G H) as (r' & E' & E1 & E2 & _). rewrite E in E'. injection E' as <-.
  assert (Hy : 0 <= fo_y o) by apply G. pose proof (cost_nonneg o (fo_y o) G Hy (Qle_refl _)).
  assert (R0 : 0 <= fr_input r) by (rewrite E1; destruct (qmin_cases X (curve_cost o (fo_y o))) as [[-> _]|[-> _]]; assumption).
  destruct (Qlt_le_dec 0 (fr_input r)) as [L|L].
  - left. split; [assumption|]. rewrite E2. apply gain_pos; assumption.
  - right. assert (Z0 : fr_input r == 0) by lra. split; [assumption|]. rewrite E2, Z0. apply gain_0.
Qed.
Lemma not_ranks a b : ~ ranks_before a b -> unit_out a <= unit_out b /\ (unit_out a == unit_out b -> fr_output a <= fr_output b).
Proof.
  unfold ranks_before. intros H. split.
  - destruct (Qlt_le_dec (unit_out b) (unit_out a)); [destruct H; left; assumption|assumption].
  - intros E. destruct (Qlt_le_dec (fr_output b) (fr_output a)); [destruct H; right; split; assumption|assumption].
Qed.
Lemma target_ranked sort orders x routes i j a b : perm_sort sort -> sorts sort -> Forall good_order orders ->
  match_by_target sort false orders x = Some routes -> (i < j)%nat -> nth_error routes i = Some a -> nth_error routes j = Some b ->
  exists oa ob, nth_error orders (rt_index a) = Some oa /\ nth_error orders (rt_index b) = Some ob /\
    let da := qmin (Qabs x) (fo_y oa) in let db := qmin (Qabs x) (fo_y ob) in
    curve_cost oa da / da <= curve_cost ob db / db /\ (curve_cost oa da / da == curve_cost ob db / db -> curve_cost oa da <= curve_cost ob db).
Proof.
  intros Hs Hso Hg H Hij Hi Hj. rewrite Forall_forall in Hg. 
  destruct (match_ranked sort (quote_by_target false) cmp_max orders x routes i j a b Hs Hso quote_target_zero) as (oa & ob & qa & qb & Ea & Eb & Ta & Tb & Pa & Pb & C); try assumption.
  { intros l Hl. apply (cmp_fit l Hl). } { intros o r Io. apply target_proper; [apply Hg; assumption|apply Qabs_nonneg]. }
  exists oa, ob. split; [assumption|]. split; [assumption|]. cbv zeta.
  destruct (quote_target_value oa (Qabs x) (Hg _ (nth_error_In _ _ Ea)) (Qabs_nonneg x)) as (ra & Ra & A1 & A2). rewrite Ta in Ra. injection Ra as <-.
  destruct (quote_target_value ob (Qabs x) (Hg _ (nth_error_In _ _ Eb)) (Qabs_nonneg x)) as (rb & Rb & B1 & B2). rewrite Tb in Rb. injection Rb as <-.
  unfold cmp_max in C. destruct (cmp_spec qb qa Pb Pa) as [_ S]. assert (N : ~ ranks_before (fq_rate qa) (fq_rate qb)) by (intros X; apply S in X; lia).
  apply not_ranks in N. unfold unit_out in N. rewrite A2, B2 in N. rewrite A1, B1 in N. assumption.
Qed.
Lemma source_ranked sort orders x routes i j a b : perm_sort sort -> sorts sort -> Forall good_order orders ->
  match_by_src sort false orders x = Some routes -> (i < j)%nat -> nth_error routes i = Some a -> nth_error routes j = Some b ->
  exists oa ob, nth_error orders (rt_index a) = Some oa /\ nth_error orders (rt_index b) = Some ob /\
    let da := qmin (Qabs x) (curve_cost oa (fo_y oa)) in let db := qmin (Qabs x) (curve_cost ob (fo_y ob)) in
    curve_gain ob db / db <= curve_gain oa da / da /\ (curve_gain ob db / db == curve_gain oa da / da -> curve_gain ob db <= curve_gain oa da).
Proof.
  intros Hs Hso Hg H Hij Hi Hj. rewrite Forall_forall in Hg. 
  destruct (match_ranked sort (quote_by_source false) cmp_min orders x routes i j a b Hs Hso quote_source_zero) as (oa & ob & qa & qb & Ea & Eb & Ta & Tb & Pa & Pb & C); try assumption.
  { intros l Hl. apply (cmp_fit l Hl). } { intros o r Io. apply source_proper; [apply Hg; assumption|apply Qabs_nonneg]. }
  exists oa, ob. split; [assumption|]. split; [assumption|]. cbv zeta.
  destruct (quote_source_value oa (Qabs x) (Hg _ (nth_error_In _ _ Ea)) (Qabs_nonneg x)) as (ra & Ra & A1 & A2 & _). rewrite Ta in Ra. injection Ra as <-.
  destruct (quote_source_value ob (Qabs x) (Hg _ (nth_error_In _ _ Eb)) (Qabs_nonneg x)) as (rb & Rb & B1 & B2 & _). rewrite Tb in Rb. injection Rb as <-.
  destruct (cmp_spec qa qb Pa Pb) as [_ S]. assert (N : ~ ranks_before (fq_rate qb) (fq_rate qa)) by (intros X; apply S in X; lia).
  apply not_ranks in N. unfold unit_out in N. rewrite A2, B2 in N. rewrite A1, B1 in N. assumption.
Qed.

(** ** A sorting function that meets the assumptions *)
Fixpoint insert_by (cmp : fquote -> fquote -> Z) (a : fquote) (l : list fquote) : list fquote :=
  match l with [] => [a] | b :: l' => if Z.leb (cmp a b) 0 then a :: l else b :: insert_by cmp a l' end.
Definition isort : fsorter := fun cmp l => fold_right (insert_by cmp) [] l.
Lemma insert_perm cmp a l : Permutation (insert_by cmp a l) (a :: l).
Proof.
  induction l as [|b l IH]; cbn; [reflexivity|]. destruct (Z.leb (cmp a b) 0); [reflexivity|]. rewrite IH. apply perm_swap.
Qed.
Lemma isort_perm : perm_sort isort.
Proof. intros cmp l. induction l as [|a l IH]; cbn; [reflexivity|]. rewrite insert_perm. fold (isort cmp l). rewrite IH. reflexivity. Qed.
Lemma isort_sorts : sorts isort.
Proof.
  intros cmp l F. assert (G : forall l', (forall a, In a l' -> In a l) -> StronglySorted (fun a b => (cmp a b <= 0)%Z) (isort cmp l')); [|apply G; auto].
  destruct F as (F1 & F2 & F3). induction l' as [|a l' IH]; intros Hin; cbn; [constructor|].
  specialize (IH ltac:(intros; apply Hin; right; assumption)). fold (isort cmp l').
  assert (Hin' : forall b, In b (isort cmp l') -> In b l). { intros b Hb. apply Hin. right. apply (Permutation_in b (isort_perm cmp l')). assumption. }
  pose proof (Hin a (or_introl eq_refl)) as Ha. clear Hin. induction (isort cmp l') as [|b s IHs]; cbn; [repeat constructor|].
  inversion IH as [|? ? S1 S2]; subst. destruct (Z.leb (cmp a b) 0) eqn:E.
  - apply Z.leb_le in E. constructor; [assumption|]. constructor; [assumption|]. rewrite Forall_forall in *. intros c Hc.
    apply (F3 a b c); [assumption|apply Hin'; left; reflexivity|apply Hin'; right; assumption|assumption|apply S2; assumption].
  - apply Z.leb_gt in E. constructor; [apply IHs; [assumption|intros; apply Hin'; right; assumption]|].
    rewrite Forall_forall. intros c Hc. apply (Permutation_in c (insert_perm cmp a s)) in Hc. destruct Hc as [<-|Hc].
    + destruct (F1 a b Ha ltac:(apply Hin'; left; reflexivity)); [lia|assumption].
    + rewrite Forall_forall in S2. apply S2. assumption.
Qed.

(** ** Floor division *)
Lemma one_pos : 0 < inject_Z (2 ^ 32). Proof. reflexivity. Qed.
Lemma unscale_good o : good_order o -> good_order (unscale o).
Proof.
  intros (H1 & H2 & H3 & H4). unfold unscale. repeat split; cbn [fo_y fo_z fo_A fo_B]; try assumption.
  - apply Qle_shift_div_l; [apply one_pos|]. lra.
  - apply qdiv_pos_pos; [assumption|apply one_pos].
Qed.
Lemma unscale_rate o y : rate_at (unscale o) y == (fo_A o * y + fo_B o * fo_z o) / inject_Z (2 ^ 32).
Proof. unfold rate_at, unscale. cbn [fo_y fo_z fo_A fo_B]. field. discriminate. Qed.
Lemma is_int_mul a b : is_int a -> is_int b -> is_int (a * b).
Proof. intros [m Hm] [n Hn]. exists (m * n)%Z. rewrite Hm, Hn, inject_Z_mult. reflexivity. Qed.
Lemma is_int_add a b : is_int a -> is_int b -> is_int (a + b).
Proof. intros [m Hm] [n Hn]. exists (m + n)%Z. rewrite Hm, Hn, inject_Z_plus. reflexivity. Qed.
Lemma is_int_opp a : is_int a -> is_int (- a).
Proof. intros [m Hm]. exists (- m)%Z. rewrite Hm, inject_Z_opp. reflexivity. Qed.
Lemma is_int_Z n : is_int (inject_Z n). Proof. exists n. reflexivity. Qed.
#[export] Instance is_int_comp : Proper (Qeq ==> iff) is_int.
Proof. intros a b E. unfold is_int. split; intros [n H]; exists n; [rewrite <- E|rewrite E]; assumption. Qed.
Lemma qquot_floor a b : 0 <= a -> 0 < b -> exists v, qquot a b = Some v /\ v = inject_Z (Qfloor (a / b)).
Proof.
  intros Ha Hb. unfold qquot. rewrite qdiv_some by (apply pos_nz; assumption). cbv beta iota delta [bind].
  assert (E : Qle_bool 0 (a / b) = true). { apply Qle_bool_iff. apply Qle_shift_div_l; [assumption|]. lra. }
  rewrite E. eauto.
Qed.
(** ceiling by (a + b - 1) // b for integers *)
Lemma ceil_quot a b : is_int a -> is_int b -> 0 <= a -> 0 < b -> exists v, qquot (a + b - 1) b = Some v /\ is_int v /\ a / b <= v /\ v < a / b + 1.
Proof.
  intros [m Em] [n En] Ha Hb. assert (Hn : (0 < n)%Z). { rewrite En in Hb. unfold Qlt in Hb. cbn in Hb. lia. }
  assert (Hm : (0 <= m)%Z). { rewrite Em in Ha. unfold Qle in Ha. cbn in Ha. lia. }
  assert (B1 : 1 <= b). { rewrite En. change 1 with (inject_Z 1). rewrite <- Zle_Qle. lia. }
  destruct (qquot_floor (a + b - 1) b ltac:(lra) Hb) as (v & -> & ->). eexists. split; [reflexivity|]. split; [apply is_int_Z|].
  assert (E : (a + b - 1) / b == inject_Z (m + n - 1) / inject_Z n).
  { rewrite Em, En. apply Qdiv_comp; [|reflexivity]. unfold Z.sub. rewrite !inject_Z_plus, inject_Z_opp. reflexivity. }
  rewrite (Qfloor_comp _ _ E). clear E. 
  assert (F : Qfloor (inject_Z (m + n - 1) / inject_Z n) = ((m + n - 1) / n)%Z). { symmetry. apply Zdiv_Qdiv. }
  rewrite F. clear F. pose proof (Z.div_mod (m + n - 1) n ltac:(lia)) as D. pose proof (Z.mod_pos_bound (m + n - 1) n Hn) as M.
  set (k := ((m + n - 1) / n)%Z) in *. assert (K1 : (m <= k * n)%Z) by lia. assert (K2 : (k * n < m + n)%Z) by lia. clearbody k.
  rewrite Zle_Qle, inject_Z_mult in K1. rewrite Zlt_Qlt, inject_Z_mult, inject_Z_plus in K2. rewrite <- Em, <- En in *. split.
  - apply Qle_shift_div_r; assumption.
  - setoid_replace (a / b + 1) with ((a + b) / b) by (field; apply pos_nz; assumption). apply Qlt_shift_div_l; assumption.
Qed.
Lemma rate_raw o y : good_order o -> 0 <= y -> 0 < fo_A o * y + fo_B o * fo_z o.
Proof. intros G H. apply (rate_at_pos o y G H). Qed.
Lemma floor_src o dx : good_order o -> integral o -> is_int dx -> 0 <= dx -> dx <= fo_y o ->
  exists v, amt_by_src true o dx = Some v /\ is_int v /\ curve_cost (unscale o) dx <= v /\ v < curve_cost (unscale o) dx + 1.
Proof.
  intros G (Iy & Iz & IA & IB) Id H0 H1. unfold amt_by_src, mul_div_c, fast_one. cbv zeta.
  set (T := fo_y o * fo_A o + fo_z o * fo_B o). set (t1 := fo_z o * inject_Z (2 ^ 32)).
  assert (Hz : 0 < fo_z o) by apply G.
  assert (HT : 0 < T). { unfold T. pose proof (rate_raw o (fo_y o) G ltac:(apply G)). lra. }
  assert (HU : 0 < T - dx * fo_A o). { unfold T. pose proof (rate_raw o (fo_y o - dx) G ltac:(lra)). lra. }
  assert (IT : is_int T) by (unfold T; apply is_int_add; apply is_int_mul; assumption).
  assert (It1 : is_int t1) by (apply is_int_mul; [assumption|apply is_int_Z]).
  assert (Ht1 : 0 < t1) by (apply qmul_pos; [assumption|apply one_pos]).
  destruct (ceil_quot (dx * t1 * t1) (T * (T - dx * fo_A o))) as (v & E & Iv & V1 & V2).
  - apply is_int_mul; [apply is_int_mul|]; assumption.
  - apply is_int_mul; [assumption|]. apply is_int_add; [assumption|]. apply is_int_opp, is_int_mul; assumption.
  - apply qmul_nonneg; [apply qmul_nonneg; lra|lra].
  - apply qmul_pos; assumption.
  - exists v. split; [assumption|]. split; [assumption|].
    assert (X : curve_cost (unscale o) dx == dx * t1 * t1 / (T * (T - dx * fo_A o))).
    { unfold curve_cost. change (fo_y (unscale o)) with (fo_y o). change (fo_z (unscale o)) with (fo_z o). rewrite !unscale_rate.
      setoid_replace (fo_A o * fo_y o + fo_B o * fo_z o) with T by (unfold T; ring).
      setoid_replace (fo_A o * (fo_y o - dx) + fo_B o * fo_z o) with (T - dx * fo_A o) by (unfold T; ring).
      unfold t1. clearbody T. field. repeat split; try discriminate; apply pos_nz; assumption. }
    rewrite X. split; assumption.
Qed.
Lemma floor_le q : inject_Z (Qfloor q) <= q. Proof. apply Qfloor_le. Qed.
Lemma floor_lt q : q < inject_Z (Qfloor q) + 1.
Proof. pose proof (Qlt_floor q) as H. rewrite inject_Z_plus in H. exact H. Qed.
Lemma floor_mono a b : a <= b -> inject_Z (Qfloor a) <= inject_Z (Qfloor b).
Proof. intros H. rewrite <- Zle_Qle. apply Qfloor_resp_le. assumption. Qed.
(** by target: never more than the curve gives, and at most one unit less than the curve
    gives for the source amount rounded down in the intermediate product *)
Lemma floor_target o dx : good_order o -> 0 <= dx ->
  exists v, amt_by_target true o dx = Some v /\ is_int v /\ 0 <= v /\ v <= curve_gain (unscale o) dx /\
  (forall dx', 0 <= dx' -> dx' + inject_Z (2 ^ 32) / (fo_A o * fo_y o + fo_B o * fo_z o) <= dx -> curve_gain (unscale o) dx' < v + 1).
Proof.
  intros G H0. unfold amt_by_target, mul_div_f, fast_one. cbv zeta.
  set (T := fo_y o * fo_A o + fo_z o * fo_B o). set (ONE := inject_Z (2 ^ 32)).
  assert (Hz : 0 < fo_z o) by apply G. assert (HA : 0 <= fo_A o) by apply G.
  assert (ET : fo_A o * fo_y o + fo_B o * fo_z o == T) by (unfold T; ring).
  assert (HT : 0 < T). { rewrite <- ET. apply rate_raw; [assumption|apply G]. }
  assert (H1 : 0 < ONE) by apply one_pos.
  destruct (qquot_floor (T * dx) ONE (qmul_nonneg _ _ (Qlt_le_weak _ _ HT) H0) H1) as (t2 & -> & Et2). cbv beta iota delta [bind].
  assert (T2 : 0 <= t2). { rewrite Et2. change 0 with (inject_Z 0). rewrite <- Zle_Qle. replace 0%Z with (Qfloor (inject_Z 0)) by reflexivity. apply Qfloor_resp_le. apply Qle_shift_div_l; [assumption|]. rewrite Qmult_0_l. apply qmul_nonneg; lra. }
  assert (zz : 0 < fo_z o * fo_z o * ONE) by (apply qmul_pos; [apply qmul_pos|]; assumption).
  assert (Dt : forall t, 0 <= t -> 0 < t * fo_A o + fo_z o * fo_z o * ONE) by (intros t Ht; pose proof (qmul_nonneg _ _ Ht HA); lra).
  destruct (qquot_floor (T * t2) (t2 * fo_A o + fo_z o * fo_z o * ONE) (qmul_nonneg _ _ (Qlt_le_weak _ _ HT) T2) (Dt _ T2)) as (v & -> & Ev).
  exists v. split; [reflexivity|]. split; [rewrite Ev; apply is_int_Z|].
  (* g t = T t / (t A + z^2 ONE) *)
  assert (Gx : forall d, 0 <= d -> curve_gain (unscale o) d == T * (T * d / ONE) / ((T * d / ONE) * fo_A o + fo_z o * fo_z o * ONE)).
  { intros d Hd. pose proof (Dt (T * d / ONE) ltac:(apply Qle_shift_div_l; [assumption|]; rewrite Qmult_0_l; apply qmul_nonneg; lra)) as D.
    unfold curve_gain. change (fo_y (unscale o)) with (fo_y o). change (fo_z (unscale o)) with (fo_z o). change (fo_A (unscale o)) with (fo_A o / ONE). rewrite !unscale_rate, ET. fold ONE.
    assert (E2 : fo_A o / ONE * d * (T / ONE) + fo_z o * fo_z o == (T * d / ONE * fo_A o + fo_z o * fo_z o * ONE) / ONE) by (field; apply pos_nz; assumption).
    rewrite E2. set (DD := T * d / ONE * fo_A o + fo_z o * fo_z o * ONE) in *. clearbody DD. field. split; apply pos_nz; assumption. }
  assert (Mono : forall s t, 0 <= s -> s <= t -> T * s / (s * fo_A o + fo_z o * fo_z o * ONE) <= T * t / (t * fo_A o + fo_z o * fo_z o * ONE)).
  { intros s t Hs Hst. pose proof (Dt s Hs) as D1. pose proof (Dt t ltac:(lra)) as D2. apply Qle_shift_div_l; [assumption|].
    setoid_replace (T * s / (s * fo_A o + fo_z o * fo_z o * ONE) * (t * fo_A o + fo_z o * fo_z o * ONE)) with (T * s * (t * fo_A o + fo_z o * fo_z o * ONE) / (s * fo_A o + fo_z o * fo_z o * ONE)) by (field; apply pos_nz; assumption).
    apply Qle_shift_div_r; [assumption|]. pose proof (qmul_nonneg T ((t - s) * (fo_z o * fo_z o * ONE)) (Qlt_le_weak _ _ HT) (qmul_nonneg (t - s) (fo_z o * fo_z o * ONE) ltac:(lra) (Qlt_le_weak _ _ zz))) as Y.
    clearbody T ONE. lra. }
  split; [|split].
  - rewrite Ev. change 0 with (inject_Z 0). rewrite <- Zle_Qle. replace 0%Z with (Qfloor (inject_Z 0)) by reflexivity. apply Qfloor_resp_le. apply Qle_shift_div_l; [apply Dt; assumption|]. rewrite Qmult_0_l. apply qmul_nonneg; lra.
  - rewrite Gx by assumption. rewrite Ev. eapply Qle_trans; [apply floor_le|]. apply Mono; [assumption|]. rewrite Et2. apply floor_le.
  - intros d Hd Hle. rewrite Gx by assumption. rewrite Ev. eapply Qle_lt_trans; [|apply floor_lt]. apply Mono.
    + apply Qle_shift_div_l; [assumption|]. rewrite Qmult_0_l. apply qmul_nonneg; lra.
    + rewrite ET in Hle. pose proof (floor_lt (T * dx / ONE)) as F. rewrite <- Et2 in F.
      assert (K : T * d / ONE + 1 <= T * dx / ONE); [|lra].
      setoid_replace (T * d / ONE + 1) with (T * (d + ONE / T) / ONE) by (field; split; apply pos_nz; assumption).
      apply Qle_shift_div_l; [assumption|]. setoid_replace (T * (d + ONE / T) / ONE * ONE) with (T * (d + ONE / T)) by (field; split; apply pos_nz; assumption).
      apply Qmult_le_l; assumption.
Qed.
Lemma cost_mono o a b : good_order o -> 0 <= a -> a <= b -> b <= fo_y o -> curve_cost o a <= curve_cost o b.
Proof.
  intros G Ha Hab Hb. destruct (Qlt_le_dec (curve_cost o b) (curve_cost o a)) as [L|L]; [|assumption]. exfalso.
  pose proof (gain_lt o _ _ G (cost_nonneg o b G ltac:(lra) Hb) L) as M. rewrite !gain_cost in M by (try assumption; lra). lra.
Qed.
(** no integer round trip makes a profit *)
Lemma floor_round_trip o dx : good_order o -> integral o -> is_int dx -> 0 <= dx -> curve_gain (unscale o) dx <= fo_y o ->
  exists v w, amt_by_target true o dx = Some v /\ amt_by_src true o v = Some w /\ w <= dx.
Proof.
  intros G I Id H0 H1. destruct (floor_target o dx G H0) as (v & Ev & Iv & V0 & V1 & _).
  destruct (floor_src o v G I Iv V0 ltac:(lra)) as (w & Ew & Iw & W1 & W2). exists v, w. split; [assumption|]. split; [assumption|].
  pose proof (unscale_good o G) as G'. 
  assert (C : curve_cost (unscale o) v <= dx).
  { rewrite <- (cost_gain (unscale o) dx G' H0). apply cost_mono; [assumption|assumption|assumption|]. exact H1. }
  destruct Iw as [nw Ew']. destruct Id as [nd Ed']. rewrite Ew', Ed' in *.
  rewrite <- Zle_Qle. assert (L : inject_Z nw < inject_Z (nd + 1)) by (rewrite inject_Z_plus; change (inject_Z 1) with 1; lra). rewrite <- Zlt_Qlt in L. lia.
Qed.

(** exact round trips *)
Lemma round_trip_source o dx : good_order o -> 0 <= dx -> curve_gain o dx <= fo_y o ->
  exists v w, amt_by_target false o dx = Some v /\ v == curve_gain o dx /\ amt_by_src false o v = Some w /\ w == dx.
Proof.
  intros G H0 H1. destruct (target_value o dx G H0) as (v & Ev & V). destruct (src_value o v G ltac:(lra)) as (w & Ew & W).
  exists v, w. repeat (split; [assumption|]). rewrite W, V. apply cost_gain; assumption.
Qed.
Lemma round_trip_target o dy : good_order o -> 0 <= dy -> dy <= fo_y o ->
  exists v w, amt_by_src false o dy = Some v /\ v == curve_cost o dy /\ amt_by_target false o v = Some w /\ w == dy.
Proof.
  intros G H0 H1. destruct (src_value o dy G H1) as (v & Ev & V). destruct (target_value o v G ltac:(rewrite V; apply cost_nonneg; assumption)) as (w & Ew & W).
  exists v, w. repeat (split; [assumption|]). rewrite W, V. apply gain_cost; assumption.
Qed.
