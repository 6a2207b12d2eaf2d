(** Proofs for C152 and C153, continued. *)
From Coq Require Import Reals QArith Qreals Lra Bool List String Ascii Arith Lia.
From Verif Require Import CurveModel CurveProofs PairModel PairProofs HelperModel HelperProofs CpcModel CpcSpec CpcProofs ContainerModel ContainerSpec ContainerProofs ContainerProofs2 ContainerProofs4 OptModel OptSpec OptProofs9 MetaModel MetaSpec MetaProofs.
Import ListNotations.
Local Open Scope R_scope.

(** ** scale objects over time *)
Lemma dct_get_set d t v u : dct_get u (dct_set t v d) = if String.eqb t u then Some v else dct_get u d.
Proof.
  induction d as [|[a w] d IH]; cbn [dct_set dct_get]; [reflexivity|]. destruct (String.eqb_spec a t) as [->|N]; cbn [dct_get].
  - destruct (String.eqb t u); reflexivity.
  - rewrite IH. destruct (String.eqb_spec a u) as [->|N2]; [|reflexivity]. destruct (String.eqb_spec t u); [congruence|reflexivity].
Qed.
Lemma scales_step w a s d : nth_error (s_scales w) s = Some (Some d) -> exists d', nth_error (s_scales (sact w a)) s = Some (Some d') /\
  forall t, (forall v, a = SAddScale s t v -> dct_get t d' = Some v) /\ ((forall v, a <> SAddScale s t v) -> dct_get t d' = dct_get t d).
Proof.
  intros H. assert (Id : (forall t v, a <> SAddScale s t v) -> exists d', nth_error (s_scales w) s = Some (Some d') /\ forall t, (forall v, a = SAddScale s t v -> dct_get t d' = Some v) /\ ((forall v, a <> SAddScale s t v) -> dct_get t d' = dct_get t d)).
  { intros N. exists d. split; [exact H|]. intros t. split; [intros v E; destruct (N t v E)|reflexivity]. }
  assert (Co : forall l s', s_scales (construct_cc w l s') = s_scales w) by (intros l s'; unfold construct_cc; destruct (valid_refs _ _); reflexivity).
  destruct a as [d0|s0 t0 v0|c|l s0|i l|i j|i l]; cbn [sact].
  - cbn [s_scales]. rewrite nth_error_app1 by (apply nth_error_Some; congruence). apply Id. discriminate.
  - destruct (Nat.eq_dec s0 s) as [->|N].
    + rewrite H. cbn [s_scales]. exists (add_scale d t0 v0). split; [rewrite nth_put, Nat.eqb_refl, H; reflexivity|]. intros t. unfold add_scale. rewrite dct_get_set. split.
      * intros v E. injection E as -> ->. rewrite String.eqb_refl. reflexivity.
      * intros E. destruct (String.eqb_spec t0 t) as [->|]; [destruct (E v0); reflexivity|reflexivity].
    + destruct (nth_error (s_scales w) s0) as [[d0|]|] eqn:E; try (apply Id; congruence). cbn [s_scales]. rewrite nth_put. destruct (Nat.eqb_spec s s0); [congruence|]. apply Id. congruence.
  - destruct (constructible c); apply Id; discriminate.
  - destruct (Nat.ltb _ _); [rewrite Co|]; apply Id; discriminate.
  - apply Id; discriminate.
  - apply Id; discriminate.
  - destruct (nth_error (w_ccs (s_base w)) i); [|apply Id; discriminate]. destruct (nth_error (s_cont w) i); [|apply Id; discriminate]. destruct (forallb _ l); [rewrite Co|]; apply Id; discriminate.
Qed.
Lemma scales_run l2 : forall l1 s d, nth_error (s_scales (srun l1)) s = Some (Some d) -> exists d', nth_error (s_scales (srun (l1 ++ l2))) s = Some (Some d') /\
  forall t, (forall m v m', l2 = (m ++ SAddScale s t v :: m')%list -> (forall v', ~ In (SAddScale s t v') m') -> last_set d' t (Some v)) /\ ((forall v, ~ In (SAddScale s t v) l2) -> forall o, last_set d' t o <-> last_set d t o).
Proof.
  induction l2 as [|a l2 IH]; intros l1 s d H.
  - exists d. rewrite app_nil_r. split; [exact H|]. intros t. split; [intros m v m' E; destruct m; discriminate|tauto].
  - destruct (scales_step (srun l1) a s d H) as (d1 & H1 & G1). rewrite <- srun_snoc in H1. destruct (IH (l1 ++ [a])%list s d1 H1) as (d' & H' & G'). rewrite <- app_assoc in H'. exists d'. split; [exact H'|]. intros t. destruct (G1 t) as [A1 B1]. destruct (G' t) as [A' B']. split.
    + intros m v m' E N. destruct m as [|b m].
      * injection E as -> ->. apply B'; [exact N|]. apply get_set. apply A1. reflexivity.
      * injection E as -> E. apply (A' m v m' E N).
    + intros N o. rewrite B' by (intros v I1; apply (N v); right; exact I1). rewrite !get_set. rewrite B1 by (intros v E; apply (N v); left; exact E). tauto.
Qed.
Lemma scale_made l1 d l2 : let s := List.length (s_scales (srun l1)) in exists d', nth_error (s_scales (srun (l1 ++ SScale d :: l2))) s = Some (Some d') /\
  forall t, (forall m v m', l2 = (m ++ SAddScale s t v :: m')%list -> (forall v', ~ In (SAddScale s t v') m') -> last_set d' t (Some v)) /\ ((forall v, ~ In (SAddScale s t v) l2) -> forall o, last_set d' t o <-> last_set d t o).
Proof.
  cbv zeta. replace (l1 ++ SScale d :: l2)%list with ((l1 ++ [SScale d]) ++ l2)%list by (rewrite <- app_assoc; reflexivity). apply scales_run. rewrite srun_snoc. cbn [sact s_scales]. rewrite nth_error_app2, Nat.sub_diag by lia. reflexivity.
Qed.
Lemma curve_value l r s t v : curve_has (srun l) r s -> exists o, nth_error (s_scales (srun l)) s = Some o /\ (curve_scale (srun l) r t = v <-> tells o t v).
Proof.
  intros H. destruct (srun_ok l) as (_ & _ & _ & _ & _ & SC). pose proof (SC s (nth_error_In _ _ H)) as L. destruct (nth_error (s_scales (srun l)) s) as [o|] eqn:E; [|apply nth_error_None in E; lia]. exists o. split; [reflexivity|]. unfold curve_scale. rewrite (nth_error_nth _ _ O H), (nth_error_nth _ _ (None : tscale) E). symmetry. apply scale_tells.
Qed.
Lemma cont_value l i s t v : cont_has (srun l) i s -> exists o, nth_error (s_scales (srun l)) s = Some o /\ (cont_scale (srun l) i t = v <-> tells o t v).
Proof.
  intros H. destruct (srun_ok l) as (_ & _ & _ & _ & SK & _). pose proof (SK s (nth_error_In _ _ H)) as L. destruct (nth_error (s_scales (srun l)) s) as [o|] eqn:E; [|apply nth_error_None in E; lia]. exists o. split; [reflexivity|]. unfold cont_scale. rewrite (nth_error_nth _ _ O H), (nth_error_nth _ _ (None : tscale) E). symmetry. apply scale_tells.
Qed.
Lemma srun_trivial l : nth_error (s_scales (srun l)) 0 = Some None.
Proof. apply (srun_ok l). Qed.
Lemma srun_base l : exists l', s_base (srun l) = run l'.
Proof. apply (srun_ok l). Qed.
(** ** the optimizer *)
Lemma mfeasible_iff s l : positive_scales l -> Forall (fun e => pool_ok (fst (fst (fst e)))) l ->
  (mfeasible s l <-> all_allowed (map mreported l) /\ forall t v, In t (s_tokens s) -> sfc_get s t = Ret (Num v) -> weighted l t = v * first_scale l t).
Proof.
  intros S H. unfold mfeasible. assert (A : Forall mconstraints l <-> all_allowed (map mreported l)).
  { unfold all_allowed. rewrite !Forall_forall. rewrite Forall_forall in H. split.
    - intros F e He. apply in_map_iff in He as ([[[c sc] vx] vy] & <- & He). cbn [mreported reported fst snd]. apply (constraints_iff sc c vx vy (H _ He)). exact (F _ He).
    - intros F [[[c sc] vx] vy] He. apply (constraints_iff sc c vx vy (H _ He)). exact (F _ (in_map mreported _ _ He)). }
  rewrite A. destruct (get_items s) as (items & E & I1). split; intros [F1 F2]; (split; [exact F1|]).
  - destruct F2 as (it & E' & F2). assert (it = items) by congruence. subst it. unfold mfinancing, financing in F2. rewrite Forall_forall in F2. intros t v Ht Hv.
    specialize (F2 (t, Num v) (proj2 (I1 t (Num v)) (conj Ht Hv))). cbn [fst snd] in F2. rewrite (weighted_sum l t S) in F2. exact F2.
  - exists items. split; [exact E|]. unfold mfinancing, financing. apply Forall_forall. intros [t v] Hi. cbn [fst snd]. destruct v as [v|w]; [|exact I]. apply I1 in Hi as [Ht Hv]. rewrite (weighted_sum l t S). apply F2; assumption.
Qed.
Lemma mcommon s l : positive_scales l -> Forall (fun e => pool_ok (fst (fst (fst e)))) l -> (forall e e' t, In e l -> In e' l -> snd (fst (fst e)) t = snd (fst (fst e')) t) ->
  l <> [] -> (mfeasible s l <-> all_allowed (map mreported l) /\ forall t v, In t (s_tokens s) -> sfc_get s t = Ret (Num v) -> net (map mreported l) t = v).
Proof.
  intros S H C N. rewrite (mfeasible_iff s l S H). assert (W : forall t, weighted l t = first_scale l t * net (map mreported l) t /\ 0 < first_scale l t).
  { intros t. destruct l as [|[[[c sc] vx] vy] l]; [congruence|]. cbn [first_scale]. split; [apply weighted_same; intros e I1; apply (C e (c, sc, vx, vy) t I1); left; reflexivity|]. inversion S as [|? ? X _]. apply X. }
  split; intros [A B]; (split; [exact A|]); intros t v T G; specialize (B t v T G); destruct (W t) as [W1 W2].
  - apply (Rmult_eq_reg_l (first_scale l t)); [|lra]. rewrite <- W1, B. ring.
  - rewrite W1, B. ring.
Qed.
(** a container just built has one scale *)
Lemma fresh_scale l1 a l s cc es : builds (srun l1) a l s -> nth_error (w_ccs (s_base (srun (l1 ++ [a])))) (List.length (w_ccs (s_base (srun l1)))) = Some cc -> entries_of (srun (l1 ++ [a])) cc es ->
  curves cc = l /\ forall e e' t, In e es -> In e' es -> snd (fst (fst e)) t = snd (fst (fst e')) t.
Proof.
  intros Hb E F. assert (C : curves cc = l).
  { rewrite srun_snoc in E. pose proof (srun_ok l1) as Hw. destruct (builds_does _ _ _ _ Hw Hb) as (_ & V & D). rewrite D in E. unfold construct_cc in E. rewrite V in E. cbn [s_base] in E. destruct Hw as ((p & B) & _). pose proof (run_ok p) as Ok. rewrite <- B in Ok. destruct (new_shape _ l V Ok) as (_ & c2 & E2 & C). rewrite E2, nth_error_app2, Nat.sub_diag in E by lia. cbn in E. congruence. }
  split; [exact C|].
  assert (G : forall e, In e es -> exists r, In r (curves cc) /\ forall t, snd (fst (fst e)) t = curve_scale (srun (l1 ++ [a])) r t).
  { unfold entries_of in F. clear E C. induction F as [|r e rs es' (_ & X) F IH]; intros e0 I1; [destruct I1|]. destruct I1 as [<-|I1]; [exists r; split; [left; reflexivity|exact X]|]. destruct (IH e0 I1) as (r' & I2 & Y). exists r'. split; [right; exact I2|exact Y]. }
  assert (Sc : forall r, In r (curves cc) -> curve_has (srun (l1 ++ [a])) r s). { intros r I1. rewrite C in I1. apply (last_built l1 a [] l s r Hb I1). intros m b m' l0 s0 X. destruct m; discriminate. }
  intros e e' t I1 I2. destruct (G e I1) as (r & R1 & X). destruct (G e' I2) as (r' & R2 & X'). rewrite X, X'. unfold curve_scale. rewrite (nth_error_nth _ _ O (Sc r R1)), (nth_error_nth _ _ O (Sc r' R2)). reflexivity.
Qed.
