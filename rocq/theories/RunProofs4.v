(** Results of simulations. *)
From Coq Require Import Reals Lra Lia Bool String List Arith.
From Verif Require Import CurveModel CurveSpec CurveProofs CurveProofs2 CurveProofs3 OrderModel StrategyModel RunModel RunSpec RunProofs RunProofs2 RunProofs3.
Import ListNotations.
Local Open Scope R_scope.

Lemma simulable_shape strats path shift : simulable strats path shift ->
  exists l bs pt pts, run_sim strats path shift = Ret (mkResults l path (map pt_rsk (pt :: pts)) (map pt_csh (pt :: pts)) (values (pt :: pts) path) (map (fun p => pt_rsk pt * p + pt_csh pt) path)
      (splice (map pt_mbuy (pt :: pts))) (splice (map pt_msell (pt :: pts)))) /\
    Forall2 (fun s s' => rescale_strat s (hd 0 path * (1 + amount shift)) 100 false = Ret s' /\ ready s' /\ (separated s -> separated s')) strats l /\
    mapm enter l = Ret bs /\ Forall2 fits l bs /\ observe bs = Ret pt /\ pt_rsk pt = all_rsk l /\ pt_csh pt = all_csh l /\ List.length (pt_mbuy pt) = List.length l /\ List.length (pt_msell pt) = List.length l /\
    follow bs (tl path) = Ret pts /\ chain (stepped l) pt pts (tl path).
Proof.
  intros (N & SP & NP & P & Hs & T). apply run_shape; try assumption. apply Forall_forall. intros s H. destruct strats as [|s0 strats]; [contradiction|]. cbn [hd]. destruct (SP s s0 H (or_introl eq_refl)) as [A B]. unfold slashpair. rewrite A, B. reflexivity.
Qed.
Lemma rescale_moved s q s' : rescale_strat s q 100 false = Ret s' -> moved (if rescale s then q / 100 else 1) s s'.
Proof.
  unfold rescale_strat, moved. destruct (rescale s); cbn [negb andb].
  - rewrite rdiv_ok by lra. cbn [rbind]. intros [= <-]. unfold construct. cbn [p_sell_a p_sell_b p_buy_a p_buy_b amt_rsk amt_csh]. do 5 (split; [reflexivity|]).
    unfold is_zero, req. destruct (amt_csh s) as [c|]; [|reflexivity]. destruct (Req_EM_T c 0); reflexivity.
  - intros [= <-]. rewrite !Rmult_1_r. do 5 (split; [reflexivity|]). destruct (amt_csh s) as [c|]; [|reflexivity]. destruct (Req_EM_T c 0) as [->|]; reflexivity.
Qed.
Lemma shortest_same n : forall rows : list (list (option R)), rows <> [] -> Forall (fun r => List.length r = n) rows -> shortest rows = n.
Proof.
  intros [|r rows] N F; [congruence|]. inversion F as [|? ? H Hs]; subst. cbn [shortest]. clear N F. induction Hs as [|q rows Hq _ IH]; [reflexivity|]. cbn [fold_right]. rewrite IH, Hq. apply Nat.min_id.
Qed.
Lemma splice_rows n m rows : rows <> [] -> List.length rows = m -> Forall (fun r => List.length r = n) rows -> List.length (splice rows) = n /\ Forall (fun r => List.length r = m) (splice rows) /\
  forall i j, (i < n)%nat -> (j < m)%nat -> nth j (nth i (splice rows) []) None = nth i (nth j rows []) None.
Proof.
  intros N L F. pose proof (shortest_same n rows N F) as S. unfold splice. rewrite S. split; [rewrite map_length, seq_length; reflexivity|]. split.
  - apply Forall_forall. intros r H. apply in_map_iff in H. destruct H as (i & <- & _). rewrite map_length. exact L.
  - intros i j Hi Hj. rewrite (nth_indep _ [] (map (fun r => nth 0 r None) rows)) by (rewrite map_length, seq_length; exact Hi).
    rewrite (map_nth (fun i => map (fun r => nth i r None) rows)). rewrite seq_nth by exact Hi. cbn [plus].
    rewrite (nth_indep _ None (nth i (@nil (option R)) None)) by (rewrite map_length; lia). rewrite (map_nth (fun r => nth i r None)). reflexivity.
Qed.
Lemma chain_all (Rel : point -> R -> point -> Prop) (P : point -> Prop) : (forall a p b, Rel a p b -> P b) -> forall pts pt path, chain Rel pt pts path -> Forall P pts.
Proof. intros H. induction pts as [|q pts IH]; intros pt [|p path]; cbn [chain]; try tauto; intros C; constructor; [apply (H pt p q); apply C|]. eapply IH. apply C. Qed.
Lemma amounts_pos l : Forall ready l -> 0 <= all_rsk l /\ 0 <= all_csh l.
Proof. induction 1 as [|s l (_ & _ & _ & _ & A & B & _) _ IH]; unfold all_rsk, all_csh in *; cbn [fold_right]; lra. Qed.
Lemma f2_ready (Q : strategy -> strategy -> Prop) strats l : Forall2 (fun s s' => Q s s' /\ ready s' /\ (separated s -> separated s')) strats l -> Forall ready l.
Proof. induction 1 as [|s s' a b (_ & H & _) _ IH]; constructor; assumption. Qed.

Lemma run_result strats path shift : simulable strats path shift -> exists r, run_sim strats path shift = Ret r /\ spot_r r = path /\
  Forall2 (fun s s' => ready s' /\ moved (if rescale s then hd 0 path * (1 + amount shift) / 100 else 1) s s') strats (r_strat r) /\
  (let n := List.length path in List.length (rskamt_r r) = n /\ List.length (cshamt_r r) = n /\ List.length (value_r r) = n /\ List.length (hodl_r r) = n /\
    Forall (fun row => List.length row = n) (margpbuy_r r) /\ Forall (fun row => List.length row = n) (margpsell_r r)) /\
  List.length (margpbuy_r r) = List.length strats /\ List.length (margpsell_r r) = List.length strats /\
  nth 0 (rskamt_r r) 0 = all_rsk (r_strat r) /\ nth 0 (cshamt_r r) 0 = all_csh (r_strat r) /\
  forall i, (i < List.length path)%nat -> let p := nth i path 0 in let a := nth i (rskamt_r r) 0 in let c := nth i (cshamt_r r) 0 in
    0 <= a /\ 0 <= c /\ nth i (value_r r) 0 = a * p + c /\ nth i (hodl_r r) 0 = all_rsk (r_strat r) * p + all_csh (r_strat r).
Proof.
  intros SM. destruct (simulable_shape _ _ _ SM) as (l & bs & pt & pts & E & F & _ & _ & _ & Y1 & Y2 & L1 & L2 & _ & C). eexists. split; [exact E|]. cbn [spot_r r_strat rskamt_r cshamt_r value_r hodl_r margpbuy_r margpsell_r].
  split; [reflexivity|]. split. { clear -F. induction F as [|s s' a b (H1 & H2 & _) _ IH]; constructor; [|assumption]. split; [exact H2|apply rescale_moved; exact H1]. }
  assert (NP : path <> []) by apply SM. assert (LEN : List.length (pt :: pts) = List.length path). { pose proof (chain_length _ _ _ _ C) as X. destruct path; [congruence|]. cbn in *. lia. }
  assert (LL : List.length l = List.length strats) by (clear -F; induction F; cbn; congruence).
  assert (R1 : Forall (fun q => 0 <= pt_rsk q /\ 0 <= pt_csh q /\ List.length (pt_mbuy q) = List.length l /\ List.length (pt_msell q) = List.length l) (pt :: pts)).
  { constructor; [|eapply chain_all; [|exact C]; intros a p b (H1 & H2 & _ & _ & _ & _ & H3 & H4); auto]. rewrite Y1, Y2. destruct (amounts_pos l (f2_ready _ _ _ F)). auto. }
  destruct (splice_rows (List.length l) (List.length path) (map pt_mbuy (pt :: pts))) as (M1 & M2 & _); [discriminate|rewrite map_length; exact LEN|apply Forall_map; eapply Forall_impl; [|exact R1]; intros q H; apply H|].
  destruct (splice_rows (List.length l) (List.length path) (map pt_msell (pt :: pts))) as (M3 & M4 & _); [discriminate|rewrite map_length; exact LEN|apply Forall_map; eapply Forall_impl; [|exact R1]; intros q H; apply H|].
  split. { cbv zeta. rewrite values_length, !map_length by exact LEN. auto 8. }
  split; [lia|]. split; [lia|]. split; [exact Y1|]. split; [exact Y2|]. intros i Hi. cbv zeta.
  assert (D : Forall (fun q => 0 <= pt_rsk q /\ 0 <= pt_csh q) (pt :: pts)) by (eapply Forall_impl; [|exact R1]; intros q (H1 & H2 & _); auto). rewrite Forall_forall in D.
  rewrite (nth_indep (map pt_rsk (pt :: pts)) 0 (pt_rsk pt)) by (rewrite map_length, LEN; exact Hi). rewrite (nth_indep (map pt_csh (pt :: pts)) 0 (pt_csh pt)) by (rewrite map_length, LEN; exact Hi). rewrite !map_nth.
  destruct (D (nth i (pt :: pts) pt)) as [D1 D2]; [apply nth_In; rewrite LEN; exact Hi|]. split; [exact D1|]. split; [exact D2|]. split; [apply values_nth; [exact LEN|rewrite LEN; exact Hi]|].
  rewrite (nth_indep _ 0 ((fun p => pt_rsk pt * p + pt_csh pt) 0)) by (rewrite map_length; exact Hi). rewrite (map_nth (fun p => pt_rsk pt * p + pt_csh pt)). rewrite Y1, Y2. reflexivity.
Qed.
(** step by step *)
Lemma run_steps strats path shift r i : simulable strats path shift -> run_sim strats path shift = Ret r -> (S i < List.length path)%nat ->
  let p := nth (S i) path 0 in let a := nth i (rskamt_r r) 0 in let c := nth i (cshamt_r r) 0 in let a' := nth (S i) (rskamt_r r) 0 in let c' := nth (S i) (cshamt_r r) 0 in
  p * a' + c' <= p * a + c /\
  (forall m, Forall (fun s => buy_hi s <= m <= sell_lo s) (r_strat r) -> m * a + c <= m * a' + c') /\
  (Forall (fun s => p <= sell_lo s) (r_strat r) -> a <= a' /\ c' <= c) /\ (Forall (fun s => buy_hi s <= p) (r_strat r) -> a' <= a /\ c <= c').
Proof.
  intros SM E Hi. destruct (simulable_shape _ _ _ SM) as (l & bs & pt & pts & E' & F & _ & _ & _ & Y1 & Y2 & L1 & L2 & _ & C). rewrite E in E'. assert (X : forall a b : simresults, Ret a = Ret b -> a = b) by congruence. apply X in E'. subst r. cbn [rskamt_r cshamt_r r_strat]. cbv zeta.
  pose proof (chain_length _ _ _ _ C) as Lc. assert (NP : path <> []) by apply SM. destruct path as [|p0 path]; [congruence|]. cbn [tl List.length] in *.
  pose proof (chain_nth _ pt pts pt path i C ltac:(lia)) as (_ & _ & S1 & S2 & S3 & S4 & _).
  assert (N : forall f : point -> R, forall j, (j <= List.length path)%nat -> nth j (map f (pt :: pts)) 0 = f (nth j (pt :: pts) pt)). { intros f j Hj. rewrite (nth_indep _ 0 (f pt)) by (rewrite map_length; cbn; lia). apply map_nth. }
  rewrite !N by lia. cbn [nth] in *. auto.
Qed.
