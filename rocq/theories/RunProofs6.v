(** Simulations: values along the path, the books behind a result, several strategies, errors. *)
From Coq Require Import Reals Lra Lia Bool String List Arith.
From Verif Require Import CurveModel CurveSpec CurveProofs CurveProofs2 CurveProofs3 OrderModel StrategyModel RunModel RunSpec RunProofs RunProofs2 RunProofs3 RunProofs4 RunProofs5.
Import ListNotations.
Local Open Scope R_scope.

Lemma gains_snoc : forall path a i, (S i < List.length path)%nat -> List.length a = List.length path -> gains a (firstn (S (S i)) path) = gains a (firstn (S i) path) + nth i a 0 * (nth (S i) path 0 - nth i path 0).
Proof.
  induction path as [|p path IH]; intros [|x a] i H L; cbn [List.length] in *; try lia. destruct path as [|q path]; cbn [List.length] in *; [lia|].
  destruct i as [|i]. { cbn [firstn gains nth]. destruct a; cbn; ring. }
  change (firstn (S (S (S i))) (p :: q :: path)) with (p :: q :: firstn (S i) path). change (firstn (S (S i)) (p :: q :: path)) with (p :: q :: firstn i path). cbn [gains].
  specialize (IH a i ltac:(cbn; lia) ltac:(cbn; lia)). change (firstn (S (S i)) (q :: path)) with (q :: firstn (S i) path) in IH. change (firstn (S i) (q :: path)) with (q :: firstn i path) in IH. cbn [nth] in *. rewrite IH. ring.
Qed.
Lemma run_value strats path shift r : simulable strats path shift -> run_sim strats path shift = Ret r -> forall i, (i < List.length path)%nat ->
  nth i (value_r r) 0 <= nth 0 (value_r r) 0 + gains (rskamt_r r) (firstn (S i) path).
Proof.
  intros SM E. destruct (run_result _ _ _ SM) as (r' & E' & Sp & _ & (L1 & _) & _ & _ & _ & _ & V). rewrite E in E'. assert (X : forall a b : simresults, Ret a = Ret b -> a = b) by congruence. apply X in E'. subst r'. cbv zeta in V.
  induction i as [|i IH]; intros Hi. { destruct path as [|p path]; [cbn in Hi; lia|]. cbn [firstn]. assert (G : gains (rskamt_r r) [p] = 0) by (destruct (rskamt_r r); reflexivity). rewrite G. lra. }
  rewrite gains_snoc by lia. specialize (IH ltac:(lia)). destruct (V i ltac:(lia)) as (_ & _ & V1 & _). destruct (V (S i) Hi) as (_ & _ & V2 & _). destruct (run_steps _ _ _ _ i SM E Hi) as (S1 & _). cbv zeta in S1. rewrite V2. rewrite V1 in IH. lra.
Qed.
Lemma run_loss strats path shift r : simulable strats path shift -> run_sim strats path shift = Ret r -> forall i, (S i < List.length path)%nat ->
  nth (S i) (value_r r) 0 <= nth i (value_r r) 0 + nth i (rskamt_r r) 0 * (nth (S i) path 0 - nth i path 0).
Proof.
  intros SM E i Hi. destruct (run_result _ _ _ SM) as (r' & E' & Sp & _ & (L1 & _) & _ & _ & _ & _ & V). rewrite E in E'. assert (X : forall a b : simresults, Ret a = Ret b -> a = b) by congruence. apply X in E'. subst r'. cbv zeta in V.
  destruct (V i ltac:(lia)) as (_ & _ & V1 & _). destruct (V (S i) Hi) as (_ & _ & V2 & _). destruct (run_steps _ _ _ _ i SM E Hi) as (S1 & _). cbv zeta in S1. rewrite V2, V1. lra.
Qed.
Lemma run_gap strats path shift r m : simulable strats path shift -> run_sim strats path shift = Ret r -> Forall (fun s => buy_hi s <= m <= sell_lo s) (r_strat r) ->
  forall i, (i < List.length path)%nat -> m * nth 0 (rskamt_r r) 0 + nth 0 (cshamt_r r) 0 <= m * nth i (rskamt_r r) 0 + nth i (cshamt_r r) 0.
Proof. intros SM E G. induction i as [|i IH]; intros Hi; [lra|]. specialize (IH ltac:(lia)). destruct (run_steps _ _ _ _ i SM E Hi) as (_ & S2 & _). specialize (S2 m G). cbv zeta in S2. lra. Qed.
Lemma run_hodl strats path shift r : simulable strats path shift -> run_sim strats path shift = Ret r -> forall i, (i < List.length path)%nat ->
  Forall (fun s => buy_hi s <= nth i path 0 <= sell_lo s) (r_strat r) -> nth i (hodl_r r) 0 <= nth i (value_r r) 0.
Proof.
  intros SM E i Hi G. pose proof (run_gap _ _ _ _ _ SM E G i Hi) as K. destruct (run_result _ _ _ SM) as (r' & E' & Sp & _ & _ & _ & _ & A0 & C0 & V). rewrite E in E'. assert (X : forall a b : simresults, Ret a = Ret b -> a = b) by congruence. apply X in E'. subst r'. cbv zeta in V.
  destruct (V i Hi) as (_ & _ & V1 & V2). rewrite V1, V2. rewrite A0, C0 in K. lra.
Qed.
Lemma run_idle strats path shift r : simulable strats path shift -> run_sim strats path shift = Ret r -> forall i, (i < List.length path)%nat ->
  (forall j, (0 < j <= i)%nat -> Forall (fun s => buy_hi s <= nth j path 0 <= sell_lo s) (r_strat r)) ->
  nth i (rskamt_r r) 0 = nth 0 (rskamt_r r) 0 /\ nth i (cshamt_r r) 0 = nth 0 (cshamt_r r) 0 /\ nth i (value_r r) 0 = nth i (hodl_r r) 0.
Proof.
  intros SM E i Hi G. assert (Q : nth i (rskamt_r r) 0 = nth 0 (rskamt_r r) 0 /\ nth i (cshamt_r r) 0 = nth 0 (cshamt_r r) 0).
  { induction i as [|i IH]; [auto|]. destruct IH as [I1 I2]; [lia|intros j Hj; apply G; lia|]. destruct (run_steps _ _ _ _ i SM E Hi) as (_ & _ & S3 & S4). cbv zeta in *. specialize (G (S i) ltac:(lia)).
    destruct S3 as [A B]. { eapply Forall_impl; [|exact G]. cbv beta. intros s H. lra. } destruct S4 as [C D]. { eapply Forall_impl; [|exact G]. cbv beta. intros s H. lra. } lra. }
  destruct Q as [Q1 Q2]. split; [exact Q1|]. split; [exact Q2|]. destruct (run_result _ _ _ SM) as (r' & E' & Sp & _ & _ & _ & _ & A0 & C0 & V). rewrite E in E'. assert (X : forall a b : simresults, Ret a = Ret b -> a = b) by congruence. apply X in E'. subst r'. cbv zeta in V.
  destruct (V i Hi) as (_ & _ & V1 & V2). rewrite V1, V2, Q1, Q2, A0, C0. reflexivity.
Qed.

(** ** the books behind the results *)
Lemma mapm_comp {A B C} (f : A -> res B) (g : B -> res C) l m : mapm f l = Ret m -> mapm g m = mapm (fun a => let* b := f a in g b) l.
Proof.
  revert m. induction l as [|a l IH]; intros m; cbn [mapm]; [intros [= <-]; reflexivity|]. destruct (f a) as [b|]; [|discriminate]. cbn [rbind]. destruct (mapm f l) as [m'|]; [|discriminate]. cbn [rbind]. intros [= <-]. cbn [mapm]. rewrite (IH m' eq_refl). reflexivity.
Qed.
Lemma mapm_ext {A B} (f g : A -> res B) l : (forall a, f a = g a) -> mapm f l = mapm g l. Proof. intros H. induction l as [|a l IH]; [reflexivity|]. cbn [mapm]. rewrite H, IH. reflexivity. Qed.
Lemma mapm_id {A} (l : list A) : mapm (fun a => Ret a) l = Ret l. Proof. induction l as [|a l IH]; [reflexivity|]. cbn [mapm rbind]. rewrite IH. reflexivity. Qed.
Lemma follow_after d : forall path bs pts i, follow bs path = Ret pts -> (i < List.length path)%nat -> exists bs', mapm (fun b => after b (firstn (S i) path)) bs = Ret bs' /\ observe bs' = Ret (nth i pts d).
Proof.
  induction path as [|p path IH]; intros bs pts i E Hi; cbn [List.length] in Hi; [lia|]. cbn [follow] in E. destruct (mapm (trade_book p) bs) as [bs1|] eqn:E1; [|discriminate]. cbn [rbind] in E.
  destruct (observe bs1) as [pt|] eqn:O; [|discriminate]. cbn [rbind] in E. destruct (follow bs1 path) as [rest|] eqn:E2; [|discriminate]. cbn [rbind] in E. injection E as <-.
  destruct i as [|i]. { exists bs1. split; [|exact O]. cbn [firstn after]. rewrite <- E1. apply mapm_ext. intros b. destruct (trade_book p b); reflexivity. }
  destruct (IH bs1 rest i E2 ltac:(lia)) as (bs' & E3 & O3). exists bs'. split; [|exact O3]. rewrite <- E3. symmetry. exact (mapm_comp _ (fun b => after b (firstn (S i) path)) _ _ E1).
Qed.
Lemma observe_amounts bs pt : observe bs = Ret pt -> pt_rsk pt = rsk_of bs /\ pt_csh pt = csh_of bs.
Proof. unfold observe. destruct (mapm p_marg (map b_rsk bs)); [|discriminate]. cbn [rbind]. destruct (mapm p_marg (map b_csh bs)); [|discriminate]. cbn [rbind]. intros [= <-]. split; reflexivity. Qed.
Lemma run_books strats path shift r : simulable strats path shift -> run_sim strats path shift = Ret r -> forall i, (i < List.length path)%nat ->
  exists bs, mapm (fun s => let* b := enter s in after b (firstn i (tl path))) (r_strat r) = Ret bs /\ nth i (rskamt_r r) 0 = total (map (fun b => c_y (b_rsk b)) bs) /\ nth i (cshamt_r r) 0 = total (map (fun b => c_y (b_csh b)) bs) /\
    mapm p_marg (map b_rsk bs) = Ret (map (fun row => nth i row None) (margpbuy_r r)) /\ mapm p_marg (map b_csh bs) = Ret (map (fun row => nth i row None) (margpsell_r r)).
Proof.
  intros SM E i Hi. destruct (simulable_shape _ _ _ SM) as (l & bs & pt & pts & E' & _ & EN & F & O & Y1 & Y2 & L1 & L2 & FO & C). rewrite E in E'. assert (X : forall a b : simresults, Ret a = Ret b -> a = b) by congruence. apply X in E'. subst r. cbn [r_strat rskamt_r cshamt_r margpbuy_r margpsell_r].
  assert (LP : List.length (pt :: pts) = List.length path). { apply chain_length in C. cbn [List.length]. rewrite C. destruct path; cbn in *; lia. }
  assert (W : exists bs', mapm (fun s => let* b := enter s in after b (firstn i (tl path))) l = Ret bs' /\ observe bs' = Ret (nth i (pt :: pts) pt)).
  { destruct i as [|i]. { exists bs. cbn [firstn nth]. split; [|exact O]. rewrite <- EN. apply mapm_ext. intros s. destruct (enter s); reflexivity. }
    destruct (follow_after pt _ _ _ i FO) as (bs' & E1 & O1). { destruct path; cbn in *; lia. } exists bs'. split; [|exact O1]. rewrite <- E1. symmetry. exact (mapm_comp _ (fun b => after b (firstn (S i) (tl path))) _ _ EN). }
  destruct W as (bs' & W1 & W2). exists bs'. split; [exact W1|]. destruct (observe_amounts _ _ W2) as [A1 A2].
  split. { rewrite (nth_indep _ 0 (pt_rsk pt)) by (rewrite map_length; lia). rewrite map_nth. exact A1. }
  split. { rewrite (nth_indep _ 0 (pt_csh pt)) by (rewrite map_length; lia). rewrite map_nth. exact A2. }
  assert (AL : forall (g : point -> list (option R)), List.length (g pt) = List.length l -> Forall (fun q => List.length (g q) = List.length l) pts -> map (fun row => nth i row None) (splice (map g (pt :: pts))) = g (nth i (pt :: pts) pt)).
  { intros g G1 G2. assert (FA : Forall (fun q => List.length (g q) = List.length l) (pt :: pts)) by (constructor; assumption).
    destruct (splice_rows (List.length l) (List.length (pt :: pts)) (map g (pt :: pts))) as (S1 & S2 & S3); [cbn; congruence|apply map_length|apply Forall_map; exact FA|].
    apply (nth_ext _ _ None None). { rewrite map_length, S1. symmetry. assert (H : In (nth i (pt :: pts) pt) (pt :: pts)) by (apply nth_In; lia). rewrite Forall_forall in FA. apply FA. exact H. }
    intros j Hj. rewrite map_length, S1 in Hj. rewrite (nth_indep _ None (nth i [] None)) by (rewrite map_length, S1; exact Hj). rewrite (map_nth (fun row => nth i row None)). rewrite (S3 j i Hj) by lia.
    f_equal. rewrite (nth_indep _ [] (g pt)) by (rewrite map_length; lia). rewrite (map_nth g). reflexivity. }
  assert (Fb : Forall (fun q => List.length (pt_mbuy q) = List.length l) pts) by (eapply chain_all; [|exact C]; intros a p b S; apply S).
  assert (Fs : Forall (fun q => List.length (pt_msell q) = List.length l) pts) by (eapply chain_all; [|exact C]; intros a p b S; apply S).
  rewrite (AL pt_mbuy L1 Fb), (AL pt_msell L2 Fs). unfold observe in W2. destruct (mapm p_marg (map b_rsk bs')) as [mb|]; [|discriminate]. cbn [rbind] in W2. destruct (mapm p_marg (map b_csh bs')) as [ms|]; [|discriminate]. cbn [rbind] in W2.
  assert (X2 : forall a b : point, Ret a = Ret b -> a = b) by congruence. apply X2 in W2. rewrite <- W2. split; reflexivity.
Qed.
Lemma moved_sep q strats l : 0 < q -> Forall separated strats -> Forall2 (fun s s' => ready s' /\ moved (if rescale s then q else 1) s s') strats l -> Forall separated l.
Proof.
  intros Q F. revert l. induction F as [|s strats H _ IH]; intros l G; inversion G as [|? s' ? l' (_ & M) G']; subst; constructor; [|apply IH; exact G'].
  destruct M as (M1 & M2 & M3 & M4 & _). unfold separated, buy_hi, sell_lo in *. rewrite M1, M2, M3, M4. destruct (rescale s); rewrite rmax_scale, rmin_scale by lra; apply Rmult_le_compat_r; lra.
Qed.
Lemma mapm_after_again path p l : forall bs, Forall ready l -> Forall separated l -> Forall (fun p => 0 < p) path -> 0 < p -> mapm (fun s => let* b := enter s in after b (path ++ [p])) l = Ret bs -> mapm (fun s => let* b := enter s in after b (path ++ [p; p])) l = Ret bs.
Proof.
  intros bs R S P Hp. revert bs. induction l as [|s l IH]; intros bs E; [exact E|]. inversion R as [|? ? R1 R2]; subst. inversion S as [|? ? S1 S2]; subst. cbn [mapm] in *.
  destruct (enter_ok s R1) as (b & Eb & Fb & _). rewrite Eb in *. cbn [rbind] in *. destruct (after b (path ++ [p])) as [c|] eqn:Ec; [|discriminate]. cbn [rbind] in E. destruct (mapm _ l) as [bs'|] eqn:El; [|discriminate]. cbn [rbind] in E. injection E as <-.
  rewrite (IH R2 S2 bs' eq_refl). assert (A : after b (path ++ [p; p]) = Ret c). { change [p; p] with ([p] ++ [p])%list. rewrite app_assoc, after_app, Ec. cbn [rbind]. apply (after_cleared s path p b c Fb S1 P Hp Ec). }
  rewrite A. reflexivity.
Qed.
Lemma firstn_snoc {A} (d : A) : forall l i, (i < List.length l)%nat -> firstn (S i) l = (firstn i l ++ [nth i l d])%list.
Proof. induction l as [|a l IH]; intros i H; cbn [List.length] in H; [lia|]. destruct i as [|i]; [reflexivity|]. cbn [firstn nth app]. f_equal. apply IH. lia. Qed.
Lemma run_repeat strats path shift r i : simulable strats path shift -> run_sim strats path shift = Ret r -> Forall separated strats -> (S (S i) < List.length path)%nat -> nth (S (S i)) path 0 = nth (S i) path 0 ->
  nth (S (S i)) (rskamt_r r) 0 = nth (S i) (rskamt_r r) 0 /\ nth (S (S i)) (cshamt_r r) 0 = nth (S i) (cshamt_r r) 0 /\
  map (fun row => nth (S (S i)) row None) (margpbuy_r r) = map (fun row => nth (S i) row None) (margpbuy_r r) /\ map (fun row => nth (S (S i)) row None) (margpsell_r r) = map (fun row => nth (S i) row None) (margpsell_r r).
Proof.
  intros SM E Sep Hi Eq. destruct (run_result _ _ _ SM) as (r' & E' & Sp & F2 & _). rewrite E in E'. assert (X : forall a b : simresults, Ret a = Ret b -> a = b) by congruence. apply X in E'. subst r'.
  assert (RL : Forall ready (r_strat r)) by (clear -F2; induction F2 as [|s s' a b (H & _) _ IH]; constructor; assumption). pose proof SM as (_ & _ & PN & PP & SH & _).
  assert (Q : 0 < hd 0 path * (1 + amount shift) / 100). { destruct path as [|p path]; [congruence|]. inversion PP; subst. cbn [hd]. assert (0 < p * (1 + amount shift)) by (apply Rmult_lt_0_compat; assumption). lra. }
  pose proof (moved_sep _ _ _ Q Sep F2) as SL.
  destruct (run_books _ _ _ _ SM E (S i) ltac:(lia)) as (b1 & W1 & A1 & C1 & M1 & N1). destruct (run_books _ _ _ _ SM E (S (S i)) ltac:(lia)) as (b2 & W2 & A2 & C2 & M2 & N2).
  destruct path as [|p0 path]; [congruence|]. cbn [tl List.length] in *. change (nth (S (S i)) (p0 :: path) 0) with (nth (S i) path 0) in Eq. change (nth (S i) (p0 :: path) 0) with (nth i path 0) in Eq.
  inversion PP as [|? ? Pp Pt]; subst. rewrite (firstn_snoc 0 path i) in W1 by lia. rewrite (firstn_snoc 0 path (S i)), (firstn_snoc 0 path i), Eq, <- app_assoc in W2 by lia. cbn [app] in W2.
  assert (B : b2 = b1). { assert (W3 : mapm (fun s => let* b := enter s in after b (firstn i path ++ [nth i path 0; nth i path 0])) (r_strat r) = Ret b1).
    { apply mapm_after_again; try assumption. - apply Forall_forall. intros x Hx. assert (Hx2 : In x path) by (rewrite <- (firstn_skipn i path); apply in_or_app; left; exact Hx). rewrite Forall_forall in Pt. apply Pt. exact Hx2. - rewrite Forall_forall in Pt. apply Pt. apply nth_In. lia. }
    rewrite W2 in W3. congruence. }
  subst b2. rewrite A1, A2, C1, C2. rewrite M1 in M2. rewrite N1 in N2. split; [reflexivity|]. split; [reflexivity|]. split; congruence.
Qed.
