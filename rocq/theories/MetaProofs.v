(** Proofs for C152 and C153. *)
From Coq Require Import Reals QArith Qreals Lra Bool List String Ascii Arith Lia.
From Verif Require Import CurveModel CurveProofs PairModel PairProofs HelperModel HelperProofs CpcModel ContainerModel ContainerSpec ContainerProofs ContainerProofs2 ContainerProofs4 OptModel OptSpec MetaModel MetaSpec.
Import ListNotations.
Local Open Scope R_scope.

Lemma srun_snoc l a : srun (l ++ [a]) = sact (srun l) a.
Proof. unfold srun. rewrite fold_left_app. reflexivity. Qed.
Lemma put_length {A} (l : list A) i a : List.length (put l i a) = List.length l.
Proof. revert i. induction l as [|b l IH]; intros [|i]; cbn; auto. Qed.
Lemma set_length l : forall f s, List.length (set_scales f l s) = List.length f.
Proof. induction l as [|r l IH]; intros f s; [reflexivity|]. cbn [set_scales fold_left]. fold (set_scales (put f r s) l s). rewrite IH. apply put_length. Qed.
Lemma set_nth l : forall f s r, (r < List.length f)%nat -> nth_error (set_scales f l s) r = if existsb (Nat.eqb r) l then Some s else nth_error f r.
Proof.
  induction l as [|a l IH]; intros f s r L; [reflexivity|]. cbn [set_scales fold_left existsb]. fold (set_scales (put f a s) l s). rewrite IH by (rewrite put_length; exact L). rewrite nth_put. destruct (Nat.eqb_spec r a) as [->|N]; cbn [orb]; [|reflexivity].
  destruct (existsb (Nat.eqb a) l); [reflexivity|]. destruct (nth_error f a) eqn:E; [reflexivity|]. apply nth_error_None in E. lia.
Qed.
Lemma mem_in r l : existsb (Nat.eqb r) l = true <-> In r l.
Proof. rewrite existsb_exists. split; [intros (a & I1 & E); apply Nat.eqb_eq in E; subst; exact I1|]. intros I1. exists r. split; [exact I1|apply Nat.eqb_refl]. Qed.

(** what actions do to the containers *)
Lemma new_shape w l : valid_refs (w_heap w) l = true -> world_ok w ->
  List.length (w_heap (act w (NewContainer l))) = List.length (w_heap w) /\ exists cc, w_ccs (act w (NewContainer l)) = (w_ccs w ++ [cc])%list /\ curves cc = l.
Proof.
  intros V _. cbn [act]. rewrite V. pose proof (new_good (w_heap w) l V) as N. destruct (new_container (w_heap w) l) as [h cc]. destruct N as (_ & _ & C & L). cbn [w_heap w_ccs]. split; [exact L|]. exists cc. auto.
Qed.
Lemma add_shape w i l : world_ok w -> List.length (w_heap (act w (AddTo i l))) = List.length (w_heap w) /\ List.length (w_ccs (act w (AddTo i l))) = List.length (w_ccs w) /\
  forall j cc, nth_error (w_ccs w) j = Some cc -> exists cc' m, nth_error (w_ccs (act w (AddTo i l))) j = Some cc' /\ curves cc' = (curves cc ++ m)%list.
Proof.
  intros [G _]. cbn [act]. rewrite Forall_forall in G.
  assert (Id : forall j cc, nth_error (w_ccs w) j = Some cc -> exists cc' m, nth_error (w_ccs w) j = Some cc' /\ curves cc' = (curves cc ++ m)%list) by (intros j cc E; exists cc, []; rewrite app_nil_r; auto).
  destruct (nth_error (w_ccs w) i) as [cc|] eqn:E; [|auto]. destruct (valid_refs (w_heap w) l) eqn:V; [|auto].
  pose proof (adds_good l (w_heap w) cc (G cc (nth_error_In _ _ E)) (proj1 (valid_iff _ _) V)) as A. destruct (add_curves (w_heap w) cc l) as [h' cc']. destruct A as (_ & _ & C & L). cbn [w_heap w_ccs].
  split; [exact L|]. split; [apply put_length|]. intros j c Ej. rewrite nth_put. destruct (Nat.eqb_spec j i) as [->|N]; [rewrite E; exists cc', l; rewrite E in Ej; injection Ej as <-; auto|apply Id, Ej].
Qed.
Lemma addcont_shape w i j0 : world_ok w -> List.length (w_heap (act w (AddCont i j0))) = List.length (w_heap w) /\ List.length (w_ccs (act w (AddCont i j0))) = List.length (w_ccs w) /\
  forall j cc, nth_error (w_ccs w) j = Some cc -> exists cc' m, nth_error (w_ccs (act w (AddCont i j0))) j = Some cc' /\ curves cc' = (curves cc ++ m)%list.
Proof.
  intros [G _]. cbn [act]. rewrite Forall_forall in G.
  assert (Id : forall j cc, nth_error (w_ccs w) j = Some cc -> exists cc' m, nth_error (w_ccs w) j = Some cc' /\ curves cc' = (curves cc ++ m)%list) by (intros j cc E; exists cc, []; rewrite app_nil_r; auto).
  destruct (nth_error (w_ccs w) i) as [cc|] eqn:E; [|auto]. destruct (nth_error (w_ccs w) j0) as [dd|] eqn:Ed; [|auto]. destruct (Nat.eqb i j0); [auto|].
  pose proof (adds_good (curves dd) (w_heap w) cc (G cc (nth_error_In _ _ E)) (fun r I1 => proj1 (proj1 (G dd (nth_error_In _ _ Ed)) r I1))) as A. destruct (add_curves (w_heap w) cc (curves dd)) as [h' cc']. destruct A as (_ & _ & C & L). cbn [w_heap w_ccs].
  split; [exact L|]. split; [apply put_length|]. intros j c Ej. rewrite nth_put. destruct (Nat.eqb_spec j i) as [->|N]; [rewrite E; exists cc', (curves dd); rewrite E in Ej; injection Ej as <-; auto|apply Id, Ej].
Qed.

(** invariant *)
Definition sok (w : sworld) : Prop := (exists l, s_base w = run l) /\ List.length (s_curve w) = List.length (w_heap (s_base w)) /\ List.length (s_cont w) = List.length (w_ccs (s_base w)) /\
  nth_error (s_scales w) 0 = Some None /\ (forall s, In s (s_cont w) -> s < List.length (s_scales w))%nat /\ (forall s, In s (s_curve w) -> s < List.length (s_scales w))%nat.
Lemma in_set l : forall f s v, In v (set_scales f l s) -> v = s \/ In v f.
Proof.
  induction l as [|r l IH]; intros f s v I1; [auto|]. cbn [set_scales fold_left] in I1. fold (set_scales (put f r s) l s) in I1. apply IH in I1. destruct I1 as [I1|I1]; [auto|]. clear IH. revert r I1. induction f as [|a f IHf]; intros [|r] I1; cbn in *; try tauto.
  - destruct I1; auto.
  - destruct I1 as [I1|I1]; [auto|]. apply IHf in I1. tauto.
Qed.
Lemma construct_ok w l s : sok w -> (s < List.length (s_scales w))%nat -> sok (construct_cc w l s).
Proof.
  intros ((p & B) & LC & LK & S0 & SK & SC) Hs. unfold construct_cc. destruct (valid_refs (w_heap (s_base w)) l) eqn:V; [|repeat split; eauto].
  pose proof (run_ok p) as Ok. rewrite <- B in Ok. destruct (new_shape (s_base w) l V Ok) as (L & cc & C & _). unfold sok. cbn [s_base s_scales s_curve s_cont].
  split; [exists (p ++ [NewContainer l])%list; rewrite run_snoc, B; reflexivity|]. split; [rewrite set_length, L; exact LC|]. split; [rewrite C, !app_length, LK; reflexivity|]. split; [exact S0|]. split.
  - intros v I1. apply in_app_iff in I1. destruct I1 as [I1|[<-|[]]]; [apply SK, I1|exact Hs].
  - intros v I1. apply in_set in I1. destruct I1 as [->|I1]; [exact Hs|apply SC, I1].
Qed.
Lemma sact_ok w a : sok w -> sok (sact w a).
Proof.
  intros Hw. pose proof Hw as ((p & B) & LC & LK & S0 & SK & SC). pose proof (run_ok p) as Ok. rewrite <- B in Ok. destruct a as [d|s t v|c|l s|i l|i j|i l]; cbn [sact].
  - unfold sok. cbn [s_base s_scales s_curve s_cont]. rewrite app_length. repeat split; eauto; try (intros u I1; apply SK in I1 || apply SC in I1; lia). destruct (s_scales w); [discriminate|exact S0].
  - destruct (nth_error (s_scales w) s) as [[d|]|] eqn:E; try exact Hw. unfold sok. cbn [s_base s_scales s_curve s_cont]. rewrite put_length. repeat split; eauto. rewrite nth_put. destruct (Nat.eqb_spec 0 s) as [<-|N]; [congruence|exact S0].
  - destruct (constructible c) eqn:K; [|exact Hw]. unfold sok. cbn [s_base s_scales s_curve s_cont]. split; [exists (p ++ [NewCurve c])%list; rewrite run_snoc, B; reflexivity|]. cbn [act]. rewrite K. cbn [w_heap w_ccs]. rewrite !app_length, LC. repeat split; eauto.
    intros u I1. apply in_app_iff in I1. destruct I1 as [I1|[<-|[]]]; [apply SC, I1|]. destruct (s_scales w); [discriminate|cbn; lia].
  - destruct (Nat.ltb_spec (match s with Some s => s | None => O end) (List.length (s_scales w))) as [L|L]; [apply construct_ok; assumption|exact Hw].
  - destruct (add_shape (s_base w) i l Ok) as (L1 & L2 & _). unfold sok. cbn [s_base s_scales s_curve s_cont]. split; [exists (p ++ [AddTo i l])%list; rewrite run_snoc, B; reflexivity|]. rewrite L1, L2. repeat split; eauto.
  - destruct (addcont_shape (s_base w) i j Ok) as (L1 & L2 & _). unfold sok. cbn [s_base s_scales s_curve s_cont]. split; [exists (p ++ [AddCont i j])%list; rewrite run_snoc, B; reflexivity|]. rewrite L1, L2. repeat split; eauto.
  - destruct (nth_error (w_ccs (s_base w)) i) as [cc|]; [|exact Hw]. destruct (nth_error (s_cont w) i) as [s|] eqn:E; [|exact Hw]. destruct (forallb _ l); [|exact Hw]. apply construct_ok; [exact Hw|]. apply SK, (nth_error_In _ _ E).
Qed.
Lemma srun_ok l : sok (srun l).
Proof.
  unfold srun. assert (X : forall w, sok w -> sok (fold_left sact l w)). { clear. induction l as [|a l IH]; intros w H; [exact H|]. cbn [fold_left]. apply IH, sact_ok, H. }
  apply X. unfold sok. cbn [s_base s_scales s_curve s_cont]. split; [exists []; reflexivity|]. cbn. repeat split; try (intros s []).
Qed.
(** an action that builds a container *)
Lemma select_valid w l cc s i : sok w -> nth_error (w_ccs (s_base w)) i = Some cc -> incl l (curves cc) -> nth_error (s_cont w) i = Some s -> valid_refs (w_heap (s_base w)) l = true.
Proof.
  intros ((p & B) & _) E In1 _. apply valid_iff. intros r I1. pose proof (run_ok p) as [G _]. rewrite <- B in G. rewrite Forall_forall in G. apply (proj1 (G cc (nth_error_In _ _ E)) r (In1 r I1)).
Qed.
Lemma builds_does w a l s : sok w -> builds w a l s -> (s < List.length (s_scales w))%nat /\ valid_refs (w_heap (s_base w)) l = true /\ sact w a = construct_cc w l s.
Proof.
  intros Hw Hb. pose proof Hw as ((p & B) & LC & LK & S0 & SK & SC). destruct Hb as [l V|l s V L|i l cc s E Es In1]; cbn [sact].
  - assert (L : (0 < List.length (s_scales w))%nat) by (destruct (s_scales w); [discriminate|cbn; lia]). split; [exact L|]. split; [apply valid_iff, V|]. apply Nat.ltb_lt in L. rewrite L. reflexivity.
  - split; [exact L|]. split; [apply valid_iff, V|]. apply Nat.ltb_lt in L. rewrite L. reflexivity.
  - split; [apply SK, (nth_error_In _ _ Es)|]. split; [apply (select_valid w l cc s i Hw E In1 Es)|]. rewrite E, Es. replace (forallb _ l) with true; [reflexivity|]. symmetry. apply forallb_forall. intros r I1. apply mem_in, In1, I1.
Qed.
(** other actions leave the scale of a curve *)
Lemma keeps w a r s : sok w -> curve_has w r s -> (forall l s', builds w a l s' -> ~ In r l) -> curve_has (sact w a) r s.
Proof.
  intros Hw H N. pose proof Hw as ((p & B) & LC & LK & S0 & SK & SC). assert (Lr : (r < List.length (s_curve w))%nat) by (apply nth_error_Some; unfold curve_has in H; congruence).
  assert (Co : forall l s', (valid_refs (w_heap (s_base w)) l = true -> ~ In r l) -> curve_has (construct_cc w l s') r s).
  { intros l s' M. unfold construct_cc, curve_has. destruct (valid_refs (w_heap (s_base w)) l) eqn:V; [|exact H]. cbn [s_curve]. rewrite set_nth by exact Lr. destruct (existsb (Nat.eqb r) l) eqn:E; [apply mem_in in E; destruct (M eq_refl E)|exact H]. }
  destruct a as [d|s0 t v|c|l s0|i l|i j|i l]; cbn [sact]; try exact H.
  - destruct (nth_error (s_scales w) s0) as [[d|]|]; exact H.
  - destruct (constructible c); [|exact H]. unfold curve_has. cbn [s_curve]. rewrite nth_error_app1 by exact Lr. exact H.
  - destruct (Nat.ltb_spec (match s0 with Some s => s | None => O end) (List.length (s_scales w))) as [L|L]; [|exact H]. apply Co. intros V. destruct s0 as [s0|]; (eapply N; [constructor; [apply valid_iff, V|..]; auto]).
  - destruct (nth_error (w_ccs (s_base w)) i) as [cc|] eqn:E; [|exact H]. destruct (nth_error (s_cont w) i) as [s1|] eqn:Es; [|exact H]. destruct (forallb _ l) eqn:F; [|exact H]. apply Co. intros V. eapply N. eapply by_selection; try eassumption. intros u I1. rewrite forallb_forall in F. apply mem_in, F, I1.
Qed.
Lemma keeps_run l1 l2 r s : curve_has (srun l1) r s -> untouched l1 l2 r -> curve_has (srun (l1 ++ l2)) r s.
Proof.
  revert l1. induction l2 as [|a l2 IH]; intros l1 H U; [rewrite app_nil_r; exact H|]. replace (l1 ++ a :: l2)%list with ((l1 ++ [a]) ++ l2)%list by (rewrite <- app_assoc; reflexivity). apply IH.
  - rewrite srun_snoc. apply keeps; [apply srun_ok|exact H|]. intros l s' Hb. apply (U [] a l2 l s'); [reflexivity|rewrite app_nil_r; exact Hb].
  - intros m b m' l s' -> Hb. apply (U (a :: m) b m' l s'); [reflexivity|]. rewrite <- app_assoc in Hb. exact Hb.
Qed.
Lemma last_built l1 a l2 l s r : builds (srun l1) a l s -> In r l -> untouched (l1 ++ [a]) l2 r -> curve_has (srun (l1 ++ a :: l2)) r s.
Proof.
  intros Hb I1 U. replace (l1 ++ a :: l2)%list with ((l1 ++ [a]) ++ l2)%list by (rewrite <- app_assoc; reflexivity). apply keeps_run; [|exact U]. rewrite srun_snoc.
  pose proof (srun_ok l1) as Hw. destruct (builds_does _ _ _ _ Hw Hb) as (_ & V & ->). unfold construct_cc, curve_has. rewrite V. cbn [s_curve]. destruct Hw as (_ & LC & _).
  rewrite set_nth by (rewrite LC; apply (proj1 (valid_iff _ _) V), I1). rewrite (proj2 (mem_in r l) I1). reflexivity.
Qed.
Lemma curve_new l1 c l2 : constructible c = true -> let r := List.length (w_heap (s_base (srun l1))) in untouched (l1 ++ [SCurve c]) l2 r -> curve_has (srun (l1 ++ SCurve c :: l2)) r 0.
Proof.
  intros K r U. replace (l1 ++ SCurve c :: l2)%list with ((l1 ++ [SCurve c]) ++ l2)%list by (rewrite <- app_assoc; reflexivity). apply keeps_run; [|exact U]. rewrite srun_snoc. cbn [sact]. rewrite K. unfold curve_has. cbn [s_curve]. destruct (srun_ok l1) as (_ & LC & _). unfold r. rewrite <- LC, nth_error_app2, Nat.sub_diag by lia. reflexivity.
Qed.
(** containers keep their scale object and their first curves *)
Lemma cont_step w a i s cc : sok w -> cont_has w i s -> nth_error (w_ccs (s_base w)) i = Some cc -> cont_has (sact w a) i s /\ exists cc' m, nth_error (w_ccs (s_base (sact w a))) i = Some cc' /\ curves cc' = (curves cc ++ m)%list.
Proof.
  intros Hw H Hc. pose proof Hw as ((p & B) & LC & LK & S0 & SK & SC). pose proof (run_ok p) as Ok. rewrite <- B in Ok.
  assert (Id : cont_has w i s /\ exists cc' m, nth_error (w_ccs (s_base w)) i = Some cc' /\ curves cc' = (curves cc ++ m)%list) by (split; [exact H|exists cc, []; rewrite app_nil_r; auto]).
  assert (Co : forall l s', cont_has (construct_cc w l s') i s /\ exists cc' m, nth_error (w_ccs (s_base (construct_cc w l s'))) i = Some cc' /\ curves cc' = (curves cc ++ m)%list).
  { intros l s'. unfold construct_cc. destruct (valid_refs (w_heap (s_base w)) l) eqn:V; [|exact Id]. unfold cont_has. cbn [s_cont s_base]. destruct (new_shape (s_base w) l V Ok) as (_ & c2 & E & _). rewrite E.
    rewrite !nth_error_app1; [exact Id|apply nth_error_Some; congruence|apply nth_error_Some; unfold cont_has in H; congruence]. }
  destruct a as [d|s0 t v|c|l s0|i0 l|i0 j|i0 l]; cbn [sact]; try exact Id.
  - destruct (nth_error (s_scales w) s0) as [[d|]|]; exact Id.
  - destruct (constructible c) eqn:K; [|exact Id]. cbn [act]. rewrite K. cbn [s_base s_cont w_ccs]. exact Id.
  - destruct (Nat.ltb _ _); [apply Co|exact Id].
  - split; [exact H|]. cbn [s_base]. apply (add_shape (s_base w) i0 l Ok), Hc.
  - split; [exact H|]. cbn [s_base]. apply (addcont_shape (s_base w) i0 j Ok), Hc.
  - destruct (nth_error (w_ccs (s_base w)) i0); [|exact Id]. destruct (nth_error (s_cont w) i0); [|exact Id]. destruct (forallb _ l); [apply Co|exact Id].
Qed.
Lemma cont_keeps l1 a l2 l s : builds (srun l1) a l s -> let i := List.length (w_ccs (s_base (srun l1))) in let w := srun (l1 ++ a :: l2) in
  cont_has w i s /\ exists cc m, nth_error (w_ccs (s_base w)) i = Some cc /\ curves cc = (l ++ m)%list.
Proof.
  intros Hb i. cbv zeta. replace (l1 ++ a :: l2)%list with ((l1 ++ [a]) ++ l2)%list by (rewrite <- app_assoc; reflexivity).
  assert (S : cont_has (srun (l1 ++ [a])) i s /\ exists cc m, nth_error (w_ccs (s_base (srun (l1 ++ [a])))) i = Some cc /\ curves cc = (l ++ m)%list).
  { rewrite srun_snoc. pose proof (srun_ok l1) as Hw. destruct (builds_does _ _ _ _ Hw Hb) as (_ & V & ->). unfold construct_cc, cont_has. rewrite V. cbn [s_cont s_base]. destruct Hw as ((p & B) & _ & LK & _). pose proof (run_ok p) as Ok. rewrite <- B in Ok.
    destruct (new_shape _ l V Ok) as (_ & cc & E & C). rewrite E. unfold i. split; [rewrite <- LK, nth_error_app2, Nat.sub_diag by lia; reflexivity|]. exists cc, []. rewrite nth_error_app2, Nat.sub_diag, app_nil_r by lia. auto. }
  clearbody i. clear Hb. revert S. generalize (l1 ++ [a])%list as l0. induction l2 as [|b l2 IH]; intros l0 S; [rewrite app_nil_r; exact S|].
  replace (l0 ++ b :: l2)%list with ((l0 ++ [b]) ++ l2)%list by (rewrite <- app_assoc; reflexivity). apply IH. rewrite srun_snoc. destruct S as (H & cc & m & E & C). destruct (cont_step _ b i s cc (srun_ok l0) H E) as (H' & cc' & m' & E' & C'). split; [exact H'|]. exists cc', (m ++ m')%list. rewrite C', C, app_assoc. auto.
Qed.
(** scale objects *)
Lemma get_set d t o : last_set d t o <-> dct_get t d = o.
Proof.
  revert o. induction d as [|[a v] d IH]; intros o; cbn [dct_get].
  - destruct o as [q|]; cbn; [|tauto]. split; [intros (l1 & l2 & E & _); destruct l1; discriminate|discriminate].
  - destruct (String.eqb_spec a t) as [->|N].
    + destruct o as [q|]; cbn; split; intros H.
      * destruct H as (l1 & l2 & E & M). destruct l1 as [|[b u] l1]; [injection E as ->; reflexivity|]. injection E as <- <- E. cbn in M. tauto.
      * injection H as ->. exists [], d. auto.
      * tauto.
      * discriminate.
    + rewrite <- IH. destruct o as [q|]; cbn; split; intros H.
      * destruct H as (l1 & l2 & E & M). destruct l1 as [|[b u] l1]; [injection E as -> -> ->; congruence|]. injection E as <- <- E. exists l1, l2. cbn in M. tauto.
      * destruct H as (l1 & l2 & -> & M). exists ((a, v) :: l1), l2. cbn. tauto.
      * tauto.
      * tauto.
Qed.
Lemma scale_tells o t v : tells o t v <-> scale_of o t = v.
Proof.
  destruct o as [d|]; cbn [tells scale_of]; [|split; congruence]. unfold scale. pose proof (get_set d t) as G. destruct (dct_get t d) as [q|] eqn:E; split.
  - intros [(q' & L & ->)|(L & _)]; apply G in L; congruence.
  - intros <-. left. exists q. split; [apply G; reflexivity|reflexivity].
  - intros [(q' & L & _)|(_ & ->)]; [apply G in L; discriminate|]. unfold DEFAULT_SCALE, Q2R. cbn. lra.
  - intros <-. right. split; [apply G; reflexivity|]. unfold DEFAULT_SCALE, Q2R. cbn. lra.
Qed.
(** ** C153 *)
Lemma weighted_sum l t : positive_scales l -> raw_sum (map bare l) t = weighted l t.
Proof.
  intros S. unfold raw_sum. rewrite !rsum_total. induction l as [|[[[c sc] vx] vy] l IH]; [cbn; ring|]. inversion S as [|e l' Sc S' E]. subst. cbn [fst snd] in Sc. cbn [map weighted bare mreported reported flow filter fst].
  set (A := total (map (fun e : entry => let '(_, _, vy) := e in vy) (filter (fun e : entry => String.eqb (tkny (fst (fst e))) t) (map bare l)))) in *.
  set (B := total (map (fun e : entry => let '(_, vx, _) := e in vx) (filter (fun e : entry => String.eqb (tknx (fst (fst e))) t) (map bare l)))) in *.
  rewrite <- (IH S'). pose proof (Sc (tknx c)). pose proof (Sc (tkny c)).
  destruct (string_dec (tknx c) t) as [Ex|Nx], (string_dec (tkny c) t) as [Ey|Ny].
  - rewrite (proj2 (String.eqb_eq _ _) Ex), (proj2 (String.eqb_eq _ _) Ey). cbn [map]. rewrite !total_cons. fold A B. rewrite Ex, Ey in *. field. lra.
  - rewrite (proj2 (String.eqb_eq _ _) Ex), (proj2 (String.eqb_neq _ _) Ny). cbn [map]. rewrite !total_cons. fold A B. rewrite Ex in *. field. lra.
  - rewrite (proj2 (String.eqb_neq _ _) Nx), (proj2 (String.eqb_eq _ _) Ey). cbn [map]. rewrite !total_cons. fold A B. rewrite Ey in *. field. lra.
  - rewrite (proj2 (String.eqb_neq _ _) Nx), (proj2 (String.eqb_neq _ _) Ny). fold A B. ring.
Qed.
Lemma weighted_same l t s : (forall e, In e l -> snd (fst (fst e)) t = s) -> weighted l t = s * net (map mreported l) t.
Proof.
  induction l as [|[[[c sc] vx] vy] l IH]; intros H; [cbn; ring|]. cbn [weighted map net]. rewrite IH by (intros e I1; apply H; right; exact I1). pose proof (H _ (or_introl eq_refl)) as E. cbn in E. rewrite E. ring.
Qed.
