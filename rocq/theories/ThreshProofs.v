(** How the number of orders an alpha trade may use affects it. *)
From Coq Require Import Reals Lra Lia Bool List Arith Permutation Sorted.
From Verif Require Import CurveModel CurveSpec CurveProofs OrderModel OrderProofs ExactModel ExactSpec ExactProofs ExactProofs2 ExactProofs3 ExactProofs4 ExactProofs5 ExactProofs6 AlphaModel AlphaSpec AlphaProofs AlphaProofs2 AlphaProofs3 ThreshSpec.
Import ListNotations.
Local Open Scope R_scope.

(** ** what the orders are ranked by *)
Lemma tradable_rate o : tradable o -> 0 < o_yint o /\ 0 < sqrt (o_phigh o) - sqrt (o_plow o) /\ 0 < sqrt (o_plow o) + (sqrt (o_phigh o) - sqrt (o_plow o)) * (o_y o / o_yint o).
Proof.
  intros (H & _ & _ & _ & Hz & Hy). assert (Hs : 0 < sqrt (o_plow o) < sqrt (o_phigh o)) by (split; [apply sqrt_lt_R0; lra|apply sqrt_lt_1; lra]).
  split; [lra|]. split; [lra|]. assert (0 <= o_y o / o_yint o) by (apply Rmult_le_pos; [lra|left; apply Rinv_0_lt_compat; lra]).
  assert (0 <= (sqrt (o_phigh o) - sqrt (o_plow o)) * (o_y o / o_yint o)) by (apply Rmult_le_pos; lra). lra.
Qed.
Lemma tradable_zmax o : tradable o -> zmax o = o_yint o.
Proof. intros (_ & _ & _ & _ & Hz & _). unfold zmax. rewrite rlt_false by lra. reflexivity. Qed.
Lemma hyp_target_value o x A : tradable o -> view o = Ret x -> 0 < A -> hyp_target o (- A) = Ret (payment x (- A)).
Proof.
  intros T Ev HA. destruct (tradable_rate o T) as (Hz & HW & Hr). pose proof (tradable_zmax o T) as Ez. destruct T as (H & Ha & EB & ES & _ & _).
  destruct (view_curve true o x (- A) H Ha Ev) as [_ Hc]. unfold cost, rate, seen in Hc. cbn [c_B c_S c_yint] in Hc. rewrite Ez in Hc.
  unfold hyp_target. rewrite EB, ES. set (B := sqrt (o_plow o)) in *. set (W := sqrt (o_phigh o) - B) in *. set (y := o_y o) in *. set (z := o_yint o) in *.
  set (r := B + W * (y / z)) in *. assert (Er : B + W * ((y - - A) / z) = r + W * A / z) by (unfold r; field; lra). rewrite Er in Hc. replace (W * y + B * z) with (r * z) by (unfold r; field; lra).
  assert (HWA : 0 < W * A / z) by (apply Rdiv_lt_0_compat; [apply Rmult_lt_0_compat; lra|assumption]). rewrite Hc by lra. clear Hc. clearbody r.
  assert (Ed : r * z - W * - A = (r + W * A / z) * z) by (field; lra). rewrite Ed. rewrite rdiv_ok; [f_equal; field; repeat split; try lra|].
  - replace (r * z + W * A) with ((r + W * A / z) * z) by (field; lra). apply Rmult_integral_contrapositive_currified; lra.
  - repeat apply Rmult_integral_contrapositive_currified; lra.
Qed.
Lemma hyp_source_value o x A : tradable o -> view o = Ret x -> 0 < A -> exists h, hyp_source o A = Ret h /\ payment x h = A.
Proof.
  intros T Ev HA. destruct (tradable_rate o T) as (Hz & HW & Hr). pose proof (tradable_zmax o T) as Ez. destruct T as (H & Ha & EB & ES & _ & _).
  unfold hyp_source. rewrite EB, ES. set (B := sqrt (o_plow o)) in *. set (W := sqrt (o_phigh o) - B) in *.
  set (r := B + W * (o_y o / o_yint o)) in *. replace (W * o_y o + B * o_yint o) with (r * o_yint o) by (unfold r; field; lra).
  set (z := o_yint o) in *. set (q := W * A * r / z + 1). assert (Hq : 0 < q). { unfold q. assert (0 < W * A * r / z); [|lra]. apply Rdiv_lt_0_compat; [|assumption]. repeat apply Rmult_lt_0_compat; lra. }
  assert (Ed : W * A * (r * z) + z ^ 2 = q * z ^ 2) by (unfold q; field; lra). rewrite Ed. assert (Hz2 : 0 < z ^ 2) by (apply pow_lt; lra). assert (0 < q * z ^ 2) by (apply Rmult_lt_0_compat; assumption).
  exists (A * r ^ 2 / q). split; [rewrite rdiv_ok by lra; f_equal; field; split; lra|].
  destruct (view_curve true o x (A * r ^ 2 / q) H Ha Ev) as [_ Hc]. unfold cost, rate, seen in Hc. cbn [c_B c_S c_yint] in Hc. rewrite Ez in Hc. fold B W z in Hc. fold r in Hc.
  assert (Er : B + W * ((o_y o - A * r ^ 2 / q) / z) = r / q). { replace (B + W * ((o_y o - A * r ^ 2 / q) / z)) with (r - W * A * r ^ 2 / (q * z)) by (unfold r; field; split; lra). assert (Eq : W * A * r / z = q - 1) by (unfold q; ring). replace (W * A * r ^ 2 / (q * z)) with (W * A * r / z * r / q) by (field; split; lra). rewrite Eq. field. lra. }
  rewrite Er in Hc. assert (0 < r / q) by (apply Rdiv_lt_0_compat; assumption). rewrite Hc by lra. clear Hc Er Ed. clearbody r q. field. split; lra.
Qed.
Lemma topped_payment x A : payment (topped x A) A = - payment x (- A).
Proof.
  unfold payment, topped, depth. cbn [xo_n xo_x0 xo_y0 xo_y].
  replace (xo_n x * (xo_y x + A + - A) + xo_y0 x * (1 - xo_n x)) with (xo_n x * (xo_y x + 0) + xo_y0 x * (1 - xo_n x)) by ring.
  replace (xo_n x * (xo_y x + A + 0) + xo_y0 x * (1 - xo_n x)) with (xo_n x * (xo_y x + - - A) + xo_y0 x * (1 - xo_n x)) by ring.
  unfold Rdiv. rewrite (Rmult_comm (xo_n x * (xo_y x + - - A) + _)). ring.
Qed.
Lemma sorted_split (f : nat -> R) l a i b j : StronglySorted (fun i j => f j <= f i) l -> l = a ++ i :: b -> In j b -> f j <= f i.
Proof.
  intros Hs. revert a. induction Hs as [|c l Hs IH F]; intros a E Hj; [destruct a; discriminate|]. destruct a as [|c' a]; cbn [app] in E.
  - injection E as -> ->. rewrite Forall_forall in F. apply F. exact Hj.
  - injection E as -> ->. apply (IH a); [reflexivity|exact Hj].
Qed.
Lemma rmap_nth {A B} (f : A -> res B) l r d i a : rmap f l = Ret r -> nth_error l i = Some a -> f a = Ret (nth i r d).
Proof. intros E. apply rmap_inv in E. revert i. induction E as [|x b l r Eb _ IH]; intros [|i] Hi; cbn in Hi; try discriminate; [injection Hi as ->; exact Eb|cbn [nth]; apply IH; exact Hi]. Qed.

(** ** the selection, with its ranking *)
Lemma target_level rank ords os A : (forall o, In o ords -> tradable o) -> ords <> [] -> rmap view ords = Ret os -> (forall f l, Permutation (rank f l) l) -> 0 < A -> 
  exists ranked, Permutation ranked (seq 0 (length os)) /\ ((forall f l, StronglySorted (fun i j => f j <= f i) (rank f l)) -> ascending (fun i => payment (topped (nth i os (mkX 0 0 0 0)) A) A) ranked) /\
    forall fuel infuel check k sp, (1 <= k)%nat -> (sp = true -> A <= total (balance os) (seq 0 (length os))) ->
    exists ps, select (map (balance os) ranked) A k = Ret (Some ps) /\ alpha_by_target fuel infuel rank ords (- A) check (Some k) sp = exact_match fuel infuel os (- A) true check (map (fun p => nth p ranked O) ps) sp.
Proof.
  intros T Hne E P HA. destruct (book_sane ords os T E) as [L H].
  assert (Hlen : (1 <= length os)%nat) by (rewrite L; destruct ords; [congruence|cbn; lia]).
  destruct (rmap_total (fun o => hyp_target o (- A)) ords) as (hs & Eh); [intros o Ho; apply hyp_target_ok; [apply T|]; assumption|].
  set (ranked := rank (fun i => nth i hs 0) (indexes os)). assert (Pr : Permutation ranked (seq 0 (length os))) by apply P.
  assert (Hin : forall i, In i ranked -> (i < length os)%nat) by (intros i Hi; assert (H0 : In i (seq 0 (length os))) by (rewrite <- Pr; assumption); apply in_seq in H0; lia).
  assert (Hh : forall i, (i < length os)%nat -> nth i hs 0 = payment (getx os i) (- A)).
  { intros i Hi. destruct (H i Hi) as (o & Eo & To & Ev & _). pose proof (rmap_nth _ _ _ 0 _ _ Eh Eo) as E1. cbv beta in E1. rewrite (hyp_target_value o _ A To Ev HA) in E1. congruence. }
  assert (Hpos : forall i, (i < length os)%nat -> 0 <= balance os i) by (intros i Hi; destruct (H i Hi) as (o & _ & _ & _ & (_ & _ & _ & Hy) & _); exact Hy).
  exists ranked. split; [exact Pr|]. split.
  - intros Hd a b i j Er Hj. pose proof (sorted_split (fun i => nth i hs 0) ranked a i b j (Hd _ _) Er Hj) as Hle. cbv beta in Hle.
    rewrite !Hh in Hle by (apply Hin; rewrite Er; apply in_or_app; right; first [left; reflexivity|right; exact Hj]). rewrite !topped_payment. unfold getx in Hle. lra.
  - intros fuel infuel check k sp Hk Hsp.
    destruct (select_spec (map (balance os) ranked) A k) as (ps & Es & _); [destruct ranked as [|r0 ranked0]; [apply Permutation_length in Pr; rewrite seq_length in Pr; cbn in Pr; lia|discriminate]|exact Hk| |].
    { intros a Ha. apply in_map_iff in Ha. destruct Ha as (i & <- & Hi). apply Hpos, Hin. exact Hi. }
    exists ps. split; [exact Es|]. unfold alpha_by_target. rewrite E. cbn [rbind]. rewrite Eh. cbn [rbind]. fold ranked. change (fun i => xo_y (getx os i)) with (balance os). rewrite (total_seq (balance os) ranked (length os) Pr).
    assert (Ex : clamp_request sp (total (balance os) (seq 0 (length os))) (- A) = - A).
    { unfold clamp_request. rewrite Rabs_Ropp, Rabs_right by lra. destruct sp; [|reflexivity]. rewrite rlt_false by (apply Hsp; reflexivity). reflexivity. }
    rewrite Ex. unfold route. rewrite Rabs_Ropp, Rabs_right by lra. rewrite Es. reflexivity.
Qed.
Lemma source_level rank ords os A : (forall o, In o ords -> tradable o) -> ords <> [] -> rmap view ords = Ret os -> (forall f l, Permutation (rank f l) l) -> 0 < A -> 
  exists ranked h, Permutation ranked (seq 0 (length os)) /\ (forall i, (i < length os)%nat -> payment (nth i os (mkX 0 0 0 0)) (h i) = A) /\ ((forall f l, StronglySorted (fun i j => f j <= f i) (rank f l)) -> ascending (fun i => - h i) ranked) /\
    forall fuel infuel check k sp, (1 <= k)%nat -> (sp = true -> A <= total (worth os A) (seq 0 (length os))) ->
    exists ps, select (map (worth os A) ranked) A k = Ret (Some ps) /\ alpha_by_source fuel infuel rank ords A check (Some k) sp = exact_match fuel infuel os A false check (map (fun p => nth p ranked O) ps) sp.
Proof.
  intros T Hne E P HA. destruct (book_sane ords os T E) as [L H].
  assert (Hlen : (1 <= length os)%nat) by (rewrite L; destruct ords; [congruence|cbn; lia]).
  destruct (source_values ords os A T E HA) as (hs & vs & Eh & Ev & Hv).
  set (ranked := rank (fun i => nth i hs 0) (indexes os)). assert (Pr : Permutation ranked (seq 0 (length os))) by apply P.
  assert (Hin : forall i, In i ranked -> (i < length os)%nat) by (intros i Hi; assert (H0 : In i (seq 0 (length os))) by (rewrite <- Pr; assumption); apply in_seq in H0; lia).
  assert (Hpos : forall i, (i < length os)%nat -> 0 <= worth os A i) by (intros i Hi; apply (worth_bounds ords); assumption).
  exists ranked, (fun i => nth i hs 0). split; [exact Pr|]. split; [|split].
  - intros i Hi. destruct (H i Hi) as (o & Eo & To & Ev' & _). pose proof (rmap_nth _ _ _ 0 _ _ Eh Eo) as E1. cbv beta in E1. destruct (hyp_source_value o _ A To Ev' HA) as (h & E2 & E3). rewrite E1 in E2. assert (h = nth i hs 0) as -> by congruence. exact E3.
  - intros Hd a b i j Er Hj. pose proof (sorted_split (fun i => nth i hs 0) ranked a i b j (Hd _ _) Er Hj) as Hle. cbv beta in Hle. lra.
  - intros fuel infuel check k sp Hk Hsp.
    destruct (select_spec (map (worth os A) ranked) A k) as (ps & Es & _); [destruct ranked as [|r0 ranked0]; [apply Permutation_length in Pr; rewrite seq_length in Pr; cbn in Pr; lia|discriminate]|exact Hk| |].
    { intros a Ha. apply in_map_iff in Ha. destruct Ha as (i & <- & Hi). apply Hpos, Hin. exact Hi. }
    exists ps. split; [exact Es|]. unfold alpha_by_source. rewrite E. cbn [rbind]. rewrite Eh. cbn [rbind]. rewrite Ev. cbn [rbind]. fold ranked.
    assert (Em : map (fun i => nth i vs 0) ranked = map (worth os A) ranked) by (apply map_ext_in; intros i Hi; apply Hv, Hin; exact Hi). rewrite Em. rewrite (total_seq (worth os A) ranked (length os) Pr).
    assert (Ex : clamp_request sp (total (worth os A) (seq 0 (length os))) A = A).
    { unfold clamp_request. rewrite Rabs_right by lra. destruct sp; [|reflexivity]. rewrite rlt_false by (apply Hsp; reflexivity). reflexivity. }
    rewrite Ex. unfold route. rewrite Rabs_right by lra. rewrite Es. reflexivity.
Qed.
(** the positions the selector returns, through a ranking *)
Lemma level_facts n k ranked (value : nat -> R) thr ps : Permutation ranked (seq 0 n) -> (1 <= n)%nat -> (1 <= k)%nat -> (forall i, (i < n)%nat -> 0 <= value i) -> select (map value ranked) thr k = Ret (Some ps) ->
  let level := map (fun p => nth p ranked O) ps in
  choice n k level /\ level <> [] /\ ((n <= k)%nat -> Permutation level (seq 0 n)) /\
  ((exists l, choice n k l /\ thr <= total value l) -> thr <= total value level) /\
  (thr <= total value (firstn k ranked) -> level = firstn k ranked).
Proof.
  intros P Hn Hk V Es level. assert (Hl : length ranked = n) by (rewrite (Permutation_length P), seq_length; reflexivity).
  assert (Hlt : forall i, In i ranked -> (i < n)%nat) by (intros i Hi; assert (H : In i (seq 0 n)) by (rewrite <- P; assumption); apply in_seq in H; lia).
  destruct (select_spec (map value ranked) thr k) as (ps' & Es' & N & Vp & Len & H & H0); [destruct ranked; [cbn in Hl; lia|discriminate]|exact Hk|intros a Ha; apply in_map_iff in Ha; destruct Ha as (i & <- & Hi); apply V, Hlt; assumption|].
  assert (ps' = ps) by congruence. subst ps'. rewrite map_length, Hl in *.
  assert (C : choice n k level) by (apply ranked_level; try assumption; lia).
  assert (Htot : forall qs, (forall i, In i qs -> (i < n)%nat) -> rsum (map (fun i => nth i (map value ranked) 0) qs) = total value (map (fun p => nth p ranked O) qs)).
  { intros qs Hq. unfold total. rewrite map_map. unfold rsum. f_equal. apply map_ext_in. intros i Hi. apply nth_map_total. rewrite Hl. apply Hq. assumption. }
  split; [exact C|]. split; [unfold level; destruct ps; [cbn in Len; lia|discriminate]|]. split; [|split].
  - intros Hle. apply NoDup_Permutation_bis; [apply C|unfold level; rewrite map_length, seq_length, Len; lia|]. intros i Hi. apply in_seq. destruct C as (_ & V' & _). specialize (V' i Hi). lia.
  - intros (l & Cl & Hs). rewrite Htot in H by exact Vp. destruct H as [H|H]; [exact H|]. destruct (choice_positions n k ranked l P Cl) as (qs & Nq & Vq & Lq & Eq).
    specialize (H qs Nq Vq ltac:(destruct Cl as (_ & _ & Lc); lia)). rewrite Htot in H by exact Vq. rewrite Eq in H. unfold level. lra.
  - intros Hs. unfold level. rewrite H0.
    + clear - Hl. rewrite <- Hl. clear Hl. revert k. induction ranked as [|a ranked IH]; intros [|k]; try reflexivity. cbn [length Nat.min seq map nth firstn]. f_equal. rewrite <- seq_shift, map_map. cbn [nth]. apply IH.
    + rewrite firstn_map. exact Hs.
Qed.
