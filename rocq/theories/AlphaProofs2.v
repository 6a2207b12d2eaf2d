(** The alpha router. *)
From Coq Require Import Reals Lra Lia Bool List Arith Permutation.
From Verif Require Import CurveModel CurveSpec CurveProofs OrderModel OrderProofs ExactModel ExactSpec ExactProofs ExactProofs2 ExactProofs3 ExactProofs4 ExactProofs5 ExactProofs6 ExactProofs7 AlphaModel AlphaSpec AlphaProofs.
Import ListNotations.
Local Open Scope R_scope.

Lemma book_sane ords os : (forall o, In o ords -> tradable o) -> rmap view ords = Ret os ->
  length os = length ords /\ forall i, (i < length os)%nat -> exists o, nth_error ords i = Some o /\ tradable o /\ view o = Ret (getx os i) /\ sane (getx os i) /\ xo_y (getx os i) = o_y o.
Proof.
  intros T E. apply rmap_inv in E. induction E as [|o x ords os Eo _ IH]; [split; [reflexivity|cbn; intros; lia]|].
  destruct IH as [L H]; [intros; apply T; right; assumption|]. split; [cbn; f_equal; assumption|]. intros [|i] Hi.
  - exists o. split; [reflexivity|]. assert (To : tradable o) by (apply T; left; reflexivity). split; [assumption|]. split; [assumption|]. destruct To as (H1 & H2 & _ & _ & _ & H3).
    destruct (view_sane o H1 H2 (proj1 H3)) as (x' & Ex & Sx & Ey). rewrite Eo in Ex. injection Ex as <-. split; assumption.
  - apply H. cbn in Hi. lia.
Qed.
Lemma hyp_target_ok o A : tradable o -> 0 < A -> exists h, hyp_target o (- A) = Ret h.
Proof.
  intros (H & _ & EB & ES & Hz & Hy) HA. unfold hyp_target. rewrite EB, ES. assert (Hs : 0 < sqrt (o_plow o) < sqrt (o_phigh o)) by (split; [apply sqrt_lt_R0; lra|apply sqrt_lt_1; lra]).
  set (B := sqrt (o_plow o)) in *. set (W := sqrt (o_phigh o) - B) in *. assert (HW : 0 < W) by (unfold W; lra). clearbody B W.
  assert (0 <= W * o_y o) by (apply Rmult_le_pos; lra). assert (0 < B * o_yint o) by (apply Rmult_lt_0_compat; lra). assert (0 < W * A) by (apply Rmult_lt_0_compat; lra).
  eexists. apply rdiv_ok. apply Rgt_not_eq. apply Rmult_lt_0_compat; [lra|]. replace (W * - A) with (- (W * A)) by ring. lra.
Qed.
Lemma rmap_total {A B} (f : A -> res B) l : (forall a, In a l -> exists b, f a = Ret b) -> exists r, rmap f l = Ret r.
Proof.
  induction l as [|a l IH]; intros H; [exists []; reflexivity|]. destruct (H a (or_introl eq_refl)) as (b & Eb). destruct IH as (r & Er); [intros; apply H; right; assumption|].
  exists (b :: r). cbn [rmap]. rewrite Eb. cbn [rbind]. rewrite Er. reflexivity.
Qed.

(** ** selection through a ranking *)
Lemma ranked_level (n k : nat) ranked ps : Permutation ranked (seq 0 n) -> NoDup ps -> (forall i, In i ps -> (i < n)%nat) -> (length ps <= k)%nat ->
  choice n k (map (fun p => nth p ranked O) ps).
Proof.
  intros P N V L. assert (Hl : length ranked = n) by (rewrite (Permutation_length P), seq_length; reflexivity). assert (NR : NoDup ranked) by (rewrite P; apply seq_NoDup). split; [|split].
  - clear L. induction N as [|p ps Hn N IH]; cbn [map]; [constructor|]. constructor; [|apply IH; intros; apply V; right; assumption].
    intro Hi. apply in_map_iff in Hi. destruct Hi as (q & E & Hq). assert (q = p); [|congruence]. apply (proj1 (NoDup_nth ranked O) NR); [rewrite Hl; apply V; right; assumption|rewrite Hl; apply V; left; reflexivity|assumption].
  - intros i Hi. apply in_map_iff in Hi. destruct Hi as (p & <- & Hp). assert (Hin : In (nth p ranked O) (seq 0 n)) by (rewrite <- P; apply nth_In; rewrite Hl; apply V; assumption). apply in_seq in Hin. lia.
  - rewrite map_length. assumption.
Qed.
Lemma choice_positions n k ranked l : Permutation ranked (seq 0 n) -> choice n k l -> exists ps, NoDup ps /\ (forall i, In i ps -> (i < n)%nat) /\ length ps = length l /\ map (fun p => nth p ranked O) ps = l.
Proof.
  intros P (N & V & L). assert (Hl : length ranked = n) by (rewrite (Permutation_length P), seq_length; reflexivity). clear L.
  induction N as [|i l Hn N IH]; [exists []; repeat split; [constructor|intros i []]|].
  destruct IH as (ps & Np & Vp & Lp & Ep); [intros; apply V; right; assumption|].
  assert (Hi : In i ranked) by (rewrite P; apply in_seq; specialize (V i (or_introl eq_refl)); lia). apply (In_nth _ _ O) in Hi. destruct Hi as (p & Hp & Ei).
  exists (p :: ps). split; [constructor; [|assumption]; intro Hc; apply Hn; rewrite <- Ep, <- Ei; apply in_map_iff; exists p; split; [reflexivity|assumption]|].
  split; [intros q [<-|Hq]; [lia|apply Vp; assumption]|]. split; [cbn; f_equal; assumption|]. cbn [map]. f_equal; assumption.
Qed.
Lemma nth_map_total {A} (f : A -> R) (l : list A) d i : (i < length l)%nat -> nth i (map f l) 0 = f (nth i l d).
Proof. intros H. rewrite (nth_indep _ 0 (f d)) by (rewrite map_length; assumption). apply map_nth. Qed.
Lemma chosen n k ranked (value : nat -> R) threshold : (1 <= n)%nat -> (1 <= k)%nat -> Permutation ranked (seq 0 n) -> (forall i, (i < n)%nat -> 0 <= value i) ->
  exists level, (exists ps, select (map value ranked) threshold k = Ret (Some ps) /\ map (fun p => nth p ranked O) ps = level) /\ choice n k level /\ level <> [] /\
    ((threshold <= total value level /\ exists l, choice n k l /\ threshold <= total value l) \/ ((forall l, choice n k l -> total value l <= total value level) /\ total value level < threshold)).
Proof.
  intros Hn Hk P V. assert (Hl : length ranked = n) by (rewrite (Permutation_length P), seq_length; reflexivity).
  assert (Hlt : forall i, In i ranked -> (i < n)%nat) by (intros i Hi; assert (H : In i (seq 0 n)) by (rewrite <- P; assumption); apply in_seq in H; lia).
  destruct (select_selected (map value ranked) threshold k) as (ps & Es & (N & Vp & L & H) & _); [destruct ranked; [cbn in Hl; lia|discriminate]|assumption|intros a Ha; apply in_map_iff in Ha; destruct Ha as (i & <- & Hi); apply V, Hlt; assumption|].
  rewrite map_length, Hl in *. exists (map (fun p => nth p ranked O) ps). split; [exists ps; split; [assumption|reflexivity]|].
  assert (Htot : forall qs, (forall i, In i qs -> (i < n)%nat) -> rsum (map (fun i => nth i (map value ranked) 0) qs) = total value (map (fun p => nth p ranked O) qs)).
  { intros qs Hq. unfold total. rewrite map_map. unfold rsum. f_equal. apply map_ext_in. intros i Hi. apply nth_map_total. rewrite Hl. apply Hq. assumption. }
  assert (C : choice n k (map (fun p => nth p ranked O) ps)) by (apply ranked_level; try assumption; lia).
  split; [assumption|]. split; [destruct ps; [cbn in L; lia|discriminate]|]. cbv zeta in H. rewrite Htot in H by assumption. destruct H as [[H _]|[H H2]]; [left|right].
  - split; [assumption|]. eexists. split; [exact C|assumption].
  - split; [|lra]. intros l Cl. destruct (choice_positions n k ranked l P Cl) as (qs & Nq & Vq & Lq & Eq). rewrite H. rewrite <- Eq, <- Htot by assumption. apply maxfill_upper; try assumption.
    + apply Forall_forall. intros a Ha. apply in_map_iff in Ha. destruct Ha as (i & <- & Hi). apply V, Hlt. assumption.
    + rewrite map_length, Hl. assumption.
    + destruct Cl as (_ & _ & Ll). lia.
Qed.

(** ** by target *)
Lemma chosen_usable os level i : level <> [] -> usable os level i <-> (i < length os)%nat /\ In i level /\ xo_y (getx os i) <> 0.
Proof. intros Hne. unfold usable. fold (getx os i). split; [intros (H1 & [H2|H2] & H3); [congruence|repeat split; assumption]|intros (H1 & H2 & H3); repeat split; [assumption|right; assumption|assumption]]. Qed.
Definition nz os (l : list nat) : list nat := filter (fun i => negb (req (xo_y (getx os i)) 0)) l.
Lemma in_nz os l i : In i (nz os l) <-> In i l /\ xo_y (getx os i) <> 0.
Proof. unfold nz. rewrite filter_In, negb_true_iff. split; intros [H E]; (split; [assumption|]); [apply req_nspec; assumption|unfold req; destruct (Req_EM_T (xo_y (getx os i)) 0); [contradiction|reflexivity]]. Qed.
Lemma nz_total os l (f : nat -> R) : (forall i, In i l -> xo_y (getx os i) = 0 -> f i = 0) -> total f (nz os l) = total f l.
Proof.
  intros H. rewrite (total_filter f (fun i => negb (req (xo_y (getx os i)) 0)) l). rewrite (total_const0 _ (filter (fun i => negb (negb _)) l)); [unfold nz; ring|].
  intros i Hi. apply filter_In in Hi. destruct Hi as [Hi E]. rewrite negb_involutive in E. apply req_spec in E. apply H; assumption.
Qed.
Lemma nz_feasible os level l t : level <> [] -> (forall i, In i level -> (i < length os)%nat) -> feasible os level l t ->
  NoDup (nz os l) /\ (forall i, In i (nz os l) -> usable os level i /\ 0 <= t i <= xo_y (nth i os (mkX 0 0 0 0))) /\ total t (nz os l) = total t l /\
  total (fun i => payment (nth i os (mkX 0 0 0 0)) (t i)) (nz os l) = total (fun i => payment (nth i os (mkX 0 0 0 0)) (t i)) l.
Proof.
  intros Hne V (N & F). split; [apply NoDup_filter; assumption|]. split; [|split].
  - intros i Hi. apply in_nz in Hi. destruct Hi as [Hi E]. destruct (F i Hi) as [H1 H2]. split; [|assumption]. apply chosen_usable; [assumption|]. repeat split; try assumption. apply V. assumption.
  - apply nz_total. intros i Hi E. destruct (F i Hi) as [_ H]. fold (getx os i) in H. lra.
  - apply nz_total. intros i Hi E. destruct (F i Hi) as [_ H]. fold (getx os i) in H. replace (t i) with 0 by lra. apply payment_zero.
Qed.
Lemma level_feasible os level : (forall i, In i level -> sane (getx os i)) -> NoDup level -> feasible os level level (balance os).
Proof. intros Hs N. split; [assumption|]. intros i Hi. split; [assumption|]. destruct (Hs i Hi) as (_ & _ & _ & ?). unfold balance, getx in *. lra. Qed.
Lemma action_price o a : sane o -> 0 <= xo_y o + ac_output a -> dxdy o (ac_output a) = Ret (ac_input a) -> ac_input a = payment o (- ac_output a).
Proof.
  intros H Hy E. rewrite dxdy_value in E; [congruence|assumption|]. apply Rgt_not_eq. destruct H as ((Hn0 & Hn1) & _ & Hy0 & _). unfold depth.
  assert (0 <= xo_n o * (xo_y o + ac_output a)) by (apply Rmult_le_pos; lra). assert (0 < xo_y0 o * (1 - xo_n o)) by (apply Rmult_lt_0_compat; lra). lra.
Qed.
Lemma level_served_target fuel infuel os level A check sp : (forall i, (i < length os)%nat -> sane (getx os i)) -> level <> [] -> NoDup level -> (forall i, In i level -> (i < length os)%nat) -> (length os < fuel)%nat -> (length os + 1 < infuel)%nat -> 0 < A ->
  A <= total (balance os) level -> exists acts, exact_match fuel infuel os (- A) true check level sp = Some (Ret acts) /\ served_target os level A acts.
Proof.
  intros Hs Hne N V Hf Hi HA HT. destruct (match_optimal_target fuel infuel os level A check sp) as (acts & E & Eo & B & O); try assumption.
  - intros i (Hi' & _). apply Hs. assumption.
  - destruct (nz_feasible os level level (balance os) Hne V) as (N' & U' & T' & _); [apply level_feasible; [intros; apply Hs, V; assumption|assumption]|].
    exists (nz os level), (balance os). split; [assumption|]. split; [assumption|]. rewrite T'. assumption.
  - exists acts. split; [assumption|]. destruct (match_bounded _ _ _ _ _ _ _ _ _ _ E) as (Nd & Hb & _). split; [assumption|]. split; [|split; [assumption|]].
    + intros a Ha. destruct (Hb a Ha) as (Hu & _ & Hy & Hx). apply chosen_usable in Hu; [|assumption]. split; [tauto|]. split; [apply B; assumption|]. apply action_price; try assumption. apply Hs. tauto.
    + intros l t F T. destruct (nz_feasible os level l t Hne V F) as (N' & U' & T' & P'). rewrite <- P'. apply O; try assumption. rewrite T'. assumption.
Qed.
Lemma level_served_source fuel infuel os level A check sp : (forall i, (i < length os)%nat -> sane (getx os i)) -> level <> [] -> NoDup level -> (forall i, In i level -> (i < length os)%nat) -> (length os < fuel)%nat -> (length os + 1 < infuel)%nat -> 0 < A ->
  A <= total (absorbs os) level -> exists acts, exact_match fuel infuel os A false check level sp = Some (Ret acts) /\ served_source os level A acts.
Proof.
  intros Hs Hne N V Hf Hi HA HT. destruct (match_optimal_src fuel infuel os level A check sp) as (acts & E & Eo & B & O); try assumption.
  - intros i (Hi' & _). apply Hs. assumption.
  - destruct (nz_feasible os level level (balance os) Hne V) as (N' & U' & _ & T'); [apply level_feasible; [intros; apply Hs, V; assumption|assumption]|].
    exists (nz os level), (balance os). split; [assumption|]. split; [assumption|]. rewrite T'. assumption.
  - exists acts. split; [assumption|]. destruct (match_bounded _ _ _ _ _ _ _ _ _ _ E) as (Nd & Hb & _). split; [assumption|]. split; [|split; [assumption|]].
    + intros a Ha. destruct (Hb a Ha) as (Hu & _ & Hy & Hx). apply chosen_usable in Hu; [|assumption]. split; [tauto|]. split; [apply B; assumption|]. apply action_price; try assumption. apply Hs. tauto.
    + intros l t F T. destruct (nz_feasible os level l t Hne V F) as (N' & U' & T' & P'). rewrite <- T'. apply O; try assumption. rewrite P'. assumption.
Qed.

(** the request reaches the exact router together with a level chosen by the selector *)
Lemma total_seq (f : nat -> R) ranked n : Permutation ranked (seq 0 n) -> rsum (map f ranked) = total f (seq 0 n).
Proof. intros P. change (rsum (map f ranked)) with (total f ranked). apply total_perm. assumption. Qed.
Lemma choice_total (f : nat -> R) n k l : (forall i, (i < n)%nat -> 0 <= f i) -> choice n k l -> total f l <= total f (seq 0 n).
Proof. intros P (N & V & _). apply total_incl_le; [assumption|intros i Hi; apply in_seq; specialize (V i Hi); lia|]. intros i Hi. apply P. apply in_seq in Hi. lia. Qed.
Lemma alpha_target_route fuel infuel rank ords os A check k sp : (forall o, In o ords -> tradable o) -> ords <> [] -> rmap view ords = Ret os -> (forall f l, Permutation (rank f l) l) -> (1 <= k)%nat -> 0 < A ->
  let A' := if sp && rlt (total (balance os) (seq 0 (length os))) A then total (balance os) (seq 0 (length os)) - dust else A in 0 < A' ->
  exists level, alpha_by_target fuel infuel rank ords (- A) check (Some k) sp = exact_match fuel infuel os (- A') true check level sp /\ choice (length os) k level /\ level <> [] /\
    ((A' <= total (balance os) level /\ exists l, choice (length os) k l /\ A' <= total (balance os) l) \/ ((forall l, choice (length os) k l -> total (balance os) l <= total (balance os) level) /\ total (balance os) level < A')).
Proof.
  intros T Hne E P Hk HA A' HA'. destruct (book_sane ords os T E) as [L H].
  assert (Hlen : (1 <= length os)%nat) by (rewrite L; destruct ords; [congruence|cbn; lia]).
  destruct (rmap_total (fun o => hyp_target o (- A)) ords) as (hs & Eh); [intros o Ho; apply hyp_target_ok; [apply T|]; assumption|].
  unfold alpha_by_target. rewrite E. cbn [rbind]. rewrite Eh. cbn [rbind]. set (ranked := rank (fun i => nth i hs 0) (indexes os)).
  assert (Pr : Permutation ranked (seq 0 (length os))) by apply P.
  assert (Hpos : forall i, (i < length os)%nat -> 0 <= balance os i) by (intros i Hi; destruct (H i Hi) as (o & _ & _ & _ & (_ & _ & _ & Hy) & _); exact Hy).
  destruct (chosen (length os) k ranked (balance os) A' Hlen Hk Pr Hpos) as (level & (ps & Es & El) & C & Hl & Hd).
  exists level. split; [|repeat split; try assumption; apply C].
  change (fun i => xo_y (getx os i)) with (balance os). rewrite (total_seq (balance os) ranked (length os) Pr).
  assert (Ex : clamp_request sp (total (balance os) (seq 0 (length os))) (- A) = - A').
  { unfold clamp_request, A'. rewrite Rabs_Ropp, Rabs_right by lra. destruct (sp && rlt (total (balance os) (seq 0 (length os))) A); [|reflexivity]. rewrite (rlt_true (- A)) by lra. ring. }
  rewrite Ex. unfold route. rewrite Rabs_Ropp, Rabs_right by lra. rewrite Es, El. reflexivity.
Qed.
Lemma choice_within n k level l : choice n k level -> NoDup l -> (forall i, In i l -> In i level) -> choice n k l.
Proof. intros (N & V & L) Nl I. split; [assumption|]. split; [intros i Hi; apply V, I; assumption|]. apply Nat.le_trans with (length level); [|assumption]. apply NoDup_incl_length; assumption. Qed.

(** when some k orders can serve the request *)
Lemma alpha_target_served fuel infuel rank ords os A check k sp : (forall o, In o ords -> tradable o) -> rmap view ords = Ret os -> (forall f l, Permutation (rank f l) l) -> (1 <= k)%nat -> (length os < fuel)%nat -> (length os + 1 < infuel)%nat -> 0 < A ->
  (exists l, choice (length os) k l /\ A <= total (balance os) l) ->
  exists level acts, choice (length os) k level /\ alpha_by_target fuel infuel rank ords (- A) check (Some k) sp = Some (Ret acts) /\ served_target os level A acts.
Proof.
  intros T E P Hk Hf Hi HA (l & C & HT). destruct (book_sane ords os T E) as [L H].
  assert (Hpos : forall i, (i < length os)%nat -> 0 <= balance os i) by (intros i Hi'; destruct (H i Hi') as (o & _ & _ & _ & (_ & _ & _ & Hy) & _); exact Hy).
  assert (Hne : ords <> []). { intros ->. destruct l as [|i l]; [cbn in HT; unfold total in HT; cbn in HT; lra|]. destruct C as (_ & V & _). specialize (V i (or_introl eq_refl)). cbn in L. lia. }
  pose proof (choice_total (balance os) _ k l Hpos C) as Hall.
  destruct (alpha_target_route fuel infuel rank ords os A check k sp T Hne E P Hk HA) as (level & Ea & Cl & Hl & Hd).
  { rewrite (rlt_false _ A) by lra. rewrite andb_false_r. assumption. }
  rewrite (rlt_false _ A) in Ea, Hd by lra. rewrite andb_false_r in Ea, Hd.
  assert (HTl : A <= total (balance os) level). { destruct Hd as [[Hd _]|[Hd Hlt]]; [assumption|]. specialize (Hd l C). lra. }
  destruct (level_served_target fuel infuel os level A check sp) as (acts & Em & Hserved); try assumption; [|apply Cl|apply Cl|].
  { intros i Hi'. destruct (H i Hi') as (o & _ & _ & _ & Hs & _). exact Hs. }
  exists level, acts. split; [assumption|]. split; [rewrite Ea; assumption|assumption].
Qed.
(** when no k orders can *)
Lemma alpha_target_rejected fuel infuel rank ords os A k : (forall o, In o ords -> tradable o) -> ords <> [] -> rmap view ords = Ret os -> (forall f l, Permutation (rank f l) l) -> (1 <= k)%nat -> 0 < A ->
  (forall l, choice (length os) k l -> total (balance os) l < A) ->
  alpha_by_target fuel infuel rank ords (- A) true (Some k) false = Some (Raise AssertionError).
Proof.
  intros T Hne E P Hk HA Hno. destruct (book_sane ords os T E) as [L H].
  destruct (alpha_target_route fuel infuel rank ords os A true k false T Hne E P Hk HA HA) as (level & Ea & Cl & Hl & Hd). cbn [andb] in Ea. rewrite Ea.
  apply target_rejected; [|apply Cl|apply Cl|assumption|].
  - intros i (Hi & _). destruct (H i Hi) as (o & _ & _ & _ & Hs & _). exact Hs.
  - intros l t N U. apply Rle_lt_trans with (total (balance os) l).
    + apply total_le. intros i Hi. apply U. assumption.
    + apply Hno. apply (choice_within _ _ level); [assumption|assumption|]. intros i Hi. destruct (U i Hi) as [Hu _]. apply chosen_usable in Hu; [tauto|assumption].
Qed.
(** with partial support *)
Lemma alpha_target_partial fuel infuel rank ords os A check k : (forall o, In o ords -> tradable o) -> rmap view ords = Ret os -> (forall f l, Permutation (rank f l) l) -> (1 <= k)%nat -> (length os < fuel)%nat -> (length os + 1 < infuel)%nat -> 0 < A ->
  / 10 ^ 10 < total (balance os) (seq 0 (length os)) -> (forall l, choice (length os) k l -> total (balance os) l < A) ->
  exists level acts, choice (length os) k level /\ alpha_by_target fuel infuel rank ords (- A) check (Some k) true = Some (Ret acts) /\
    let T := total (balance os) (seq 0 (length os)) in
    ((exists l, choice (length os) k l /\ (if rlt T A then T - / 10 ^ 10 else A) <= total (balance os) l) -> T < A /\ served_target os level (T - / 10 ^ 10) acts) /\
    ((forall l, choice (length os) k l -> total (balance os) l < (if rlt T A then T - / 10 ^ 10 else A)) ->
       (forall l, choice (length os) k l -> total (balance os) l <= total (balance os) level) /\
       forall i, In i level -> balance os i <> 0 -> exists a, In a acts /\ ac_index a = i /\ ac_output a = - balance os i).
Proof.
  intros T E P Hk Hf Hi HA Hdust Hno. destruct (book_sane ords os T E) as [L H]. set (Tt := total (balance os) (seq 0 (length os))) in *.
  assert (Hd10 : 0 < / 10 ^ 10) by (apply Rinv_0_lt_compat; apply pow_lt; lra).
  assert (Hs : forall i, (i < length os)%nat -> sane (getx os i)) by (intros i Hi'; destruct (H i Hi') as (o & _ & _ & _ & Hs & _); exact Hs).
  assert (Hpos : forall i, (i < length os)%nat -> 0 <= balance os i) by (intros i Hi'; destruct (Hs i Hi') as (_ & _ & _ & Hy); exact Hy).
  assert (Hne : ords <> []). { intros ->. unfold Tt in Hdust. rewrite L in Hdust. cbn [length seq] in Hdust. change (total (balance os) []) with 0 in Hdust. lra. }
  set (A' := if rlt Tt A then Tt - / 10 ^ 10 else A).
  assert (HA' : 0 < A') by (unfold A'; destruct (rlt Tt A); lra).
  destruct (alpha_target_route fuel infuel rank ords os A check k true T Hne E P Hk HA HA') as (level & Ea & Cl & Hl & Hd). fold Tt in Ea, Hd. cbn [andb] in Ea, Hd. change (if rlt Tt A then Tt - dust else A) with A' in Ea, Hd.
  destruct Hd as [[Hge (l0 & C0 & H0)]|[Hbest Hlt]].
  - assert (Tt < A). { apply Rnot_le_lt. intro Hc. unfold A' in H0. rewrite rlt_false in H0 by lra. specialize (Hno l0 C0). lra. }
    assert (EA : A' = Tt - / 10 ^ 10) by (unfold A'; rewrite rlt_true by assumption; reflexivity).
    destruct (level_served_target fuel infuel os level A' check true) as (acts & Em & Hserved); try assumption; [apply Cl|apply Cl|].
    exists level, acts. split; [assumption|]. split; [rewrite Ea; assumption|]. cbv zeta. split.
    + intros _. split; [assumption|]. rewrite <- EA. assumption.
    + intros Hc. exfalso. fold A' in Hc. specialize (Hc l0 C0). lra.
  - assert (Hex : exists i, usable os level i).
    { destruct (Req_EM_T (total (balance os) level) 0) as [E0|E0].
      - exfalso. assert (Hz : forall i, (i < length os)%nat -> balance os i = 0).
        { intros i Hi'. assert (C1 : choice (length os) k [i]) by (split; [repeat constructor; intros []|]; split; [intros j [<-|[]]; assumption|cbn; lia]). specialize (Hbest _ C1). rewrite total_cons in Hbest. change (total (balance os) []) with 0 in Hbest. specialize (Hpos i Hi'). lra. }
        assert (Tt = 0) by (apply total_const0; intros i Hi'; apply in_seq in Hi'; apply Hz; lia). lra.
      - destruct (Exists_dec (fun i => balance os i <> 0) level) as [Hex|Hex]; [intros i; destruct (Req_EM_T (balance os i) 0); [right|left]; tauto| |].
        + apply Exists_exists in Hex. destruct Hex as (i & Hi1 & Hi2). exists i. apply chosen_usable; [assumption|]. split; [apply Cl; assumption|]. split; [assumption|exact Hi2].
        + exfalso. apply E0. apply total_const0. intros i Hi'. destruct (Req_EM_T (balance os i) 0); [assumption|]. exfalso. apply Hex. apply Exists_exists. exists i. split; assumption. }
    destruct (partial_fill true fuel infuel os level A' check) as (acts & Em & Hdr); try assumption.
    + intros i (Hi' & _). apply Hs. assumption.
    + intros _. apply Cl.
    + intros l t N U. unfold serves. rewrite (total_ext _ t) by (intros; ring). apply Rle_lt_trans with (total (balance os) level); [|assumption].
      apply Rle_trans with (total (balance os) l); [apply total_le; intros i Hi'; apply U; assumption|]. apply total_incl_le; [assumption| |].
      * intros i Hi'. destruct (U i Hi') as [Hu _]. apply chosen_usable in Hu; [tauto|assumption].
      * intros i Hi'. apply Hpos, Cl. assumption.
    + exists level, acts. split; [assumption|]. split; [rewrite Ea; exact Em|]. cbv zeta. split.
      * intros (l & Cl' & Hl'). exfalso. fold A' in Hl'. specialize (Hbest l Cl'). lra.
      * intros _. split; [assumption|]. intros i Hi' Hb. apply Hdr. apply chosen_usable; [assumption|]. split; [apply Cl; assumption|]. split; assumption.
Qed.
