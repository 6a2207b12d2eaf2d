(** Proofs for BenchProps.v (4): greedy against optimal matching. *)
From Coq Require Import ZArith QArith Qround Lia List Bool Permutation.
From Verif Require Import TradeModel TradeSpec TradeProofs TradeProofs2 TradeProofs3 MatchModel MatchSpec MatchProofs MatchProofs3 BenchSpec.
Import ListNotations.
Local Open Scope Z_scope.

Lemma sort_one (sort : sorter) : (forall c l, Permutation (sort c l) l) -> forall c q, sort c [q] = [q].
Proof. intros H c q. apply Permutation_length_1_inv. symmetry. apply H. Qed.

(** ** books of one order *)
Section one.
Variables (trade : Z -> order -> option rate) (equalize : order -> Z -> Z) (o : order) (amount : Z) (r : rate).
Hypotheses (T1 : forall x, exists r, trade x o = Some r) (T2 : forall x r, trade x o = Some r -> trade (r_input r) o = Some r)
  (T3 : forall x r, trade x o = Some r -> r_input r <= x) (TR : trade amount o = Some r).

Lemma one_fast : matchFast amount [o] [mkQuote 0 r] default_filter trade = Some (if default_filter r then [mkAction 0 (r_input r) (r_output r)] else []).
Proof.
  cbn [matchFast q_rate q_id]. pose proof (T3 _ _ TR) as L. destruct (r_input r <? amount) eqn:E.
  - destruct (default_filter r); reflexivity.
  - replace (amount =? r_input r) with true by (symmetry; apply Z.eqb_eq; apply Z.ltb_ge in E; lia). reflexivity.
Qed.
Lemma one_best : matchBest amount [o] [mkQuote 0 r] default_filter trade equalize = Some (if default_filter r then [mkAction 0 (r_input r) (r_output r)] else []).
Proof.
  assert (K : matchBestRates amount [o] [mkQuote 0 r] trade equalize = Some [r]).
  2:{ unfold matchBest. rewrite K. cbn [bind combine List.filter snd]. destruct (default_filter r); reflexivity. }
  unfold matchBestRates. cbn [mapM q_id nth_error bind app]. cbn [find_n rates_at]. unfold rates_at. cbn [mapM].
  destruct (T1 (equalize o (getLimit zero_order))) as (r1 & E1). rewrite E1. cbn [bind].
  set (d := sum_inputs [r1] - amount).
  replace (if 0 <=? d then Some ([o], getLimit zero_order, [r1], d) else Some ([o], getLimit zero_order, [r1], d)) with (Some ([o], getLimit zero_order, [r1], d)) by (destruct (0 <=? d); reflexivity).
  cbn [bind].
  assert (G : exists r2 d2, (if 0 <? d then bisect amount [o] trade equalize (getLimit zero_order) (getLimit (last [o] zero_order)) [r1] d else Some ([r1], d)) = Some ([r2], d2) /\
     genuine trade o r2 /\ d2 = r_input r2 - amount).
  { assert (G1 : genuine trade o r1) by (eexists; exact E1). destruct (0 <? d) eqn:Ed.
    - destruct (bisect_total trade equalize amount [o] (getLimit zero_order) (getLimit (last [o] zero_order)) [r1] d) as ([rs d2] & B).
      { intros o' x [<-|[]]. apply T1. }
      rewrite B. destruct (bisect_spec trade equalize amount [o] _ _ [r1] d (rs, d2) ltac:(constructor; [exact G1|constructor]) eq_refl B) as [B1 B2]. cbn [fst snd] in B1, B2.
      inversion B1 as [|? r2 ? rs' Gr Fr]; subst. inversion Fr; subst. exists r2, (sum_inputs [r2] - amount). cbn. split; [reflexivity|]. split; [exact Gr|lia].
    - exists r1, d. split; [reflexivity|]. split; [exact G1|]. subst d. cbn. lia. }
  destruct G as (r2 & d2 & -> & (w & Gw) & ->). cbn [bind].
  destruct (0 <? r_input r2 - amount) eqn:P.
  - cbn [combine rev app correct_down]. replace (r_input r2 - (r_input r2 - amount)) with amount by lia. rewrite TR. cbn [bind map].
    destruct (_ <=? 0); reflexivity.
  - destruct (r_input r2 - amount <? 0) eqn:N.
    + cbn [combine correct_up]. replace (r_input r2 - (r_input r2 - amount)) with amount by lia. rewrite TR. cbn [bind map].
      pose proof (T3 _ _ TR). destruct (0 <? r_input r2 - amount + (r_input r - r_input r2)) eqn:C; [apply Z.ltb_lt in C; lia|]. reflexivity.
    + apply Z.ltb_ge in P, N. assert (E : r_input r2 = amount) by lia. pose proof (T2 _ _ Gw) as Q. rewrite E, TR in Q. injection Q as ->. reflexivity.
Qed.
End one.

Lemma single_target (sort : sorter) o amount : (forall c l, Permutation (sort c l) l) ->
  let x := Z.min amount (o_y o) in let out := tradeByTargetAmount x o in
  let acts := if (0 <? x) && (0 <? out) then [mkAction 0 x out] else [] in
  matchByTargetFast sort amount [o] = Some acts /\ matchByTargetBest sort amount [o] = Some acts.
Proof.
  intros Hs x out acts. unfold matchByTargetFast, matchByTargetBest, quotes_of. cbn [length seq combine mapM fst snd].
  change (rateByTargetAmount amount o) with (Some (mkRate x out)). cbn [bind]. rewrite !sort_one by assumption.
  assert (T3 : forall x r, rateByTargetAmount x o = Some r -> r_input r <= x) by (intros z r E; injection E as <-; cbn; lia).
  assert (T2 : forall x r, rateByTargetAmount x o = Some r -> rateByTargetAmount (r_input r) o = Some r).
  { intros z r E; injection E as <-. unfold rateByTargetAmount. cbn [r_input]. rewrite <- Z.min_assoc, Z.min_id. reflexivity. }
  split; [rewrite (one_fast rateByTargetAmount o amount (mkRate x out) T3 eq_refl)|rewrite (one_best rateByTargetAmount equalizeByTargetAmount o amount (mkRate x out) ltac:(intros; eexists; reflexivity) T2 T3 eq_refl)]; reflexivity.
Qed.
Lemma single_source (sort : sorter) o amount : (forall c l, Permutation (sort c l) l) -> clamp_safe o ->
  exists r, rateBySourceAmount amount o = Some r /\
  let acts := if (0 <? r_input r) && (0 <? r_output r) then [mkAction 0 (r_input r) (r_output r)] else [] in
  matchBySourceFast sort amount [o] = Some acts /\ matchBySourceBest sort amount [o] = Some acts.
Proof.
  intros Hs C. pose proof C as (Ho & _). destruct (rateBySource_total o amount Ho) as (r & E). exists r. split; [exact E|]. cbv zeta.
  unfold matchBySourceFast, matchBySourceBest, quotes_of. cbn [length seq combine mapM fst snd]. rewrite E. cbn [bind]. rewrite !sort_one by assumption.
  assert (T3 : forall x r, rateBySourceAmount x o = Some r -> r_input r <= x) by (intros; eapply clamp_input_le; eassumption).
  assert (T2 : forall x r, rateBySourceAmount x o = Some r -> rateBySourceAmount (r_input r) o = Some r) by (intros; eapply rateBySource_props; eassumption).
  split; [rewrite (one_fast _ o amount _ T3 E)|rewrite (one_best rateBySourceAmount equalizeBySourceAmount o amount r ltac:(intros; apply rateBySource_total; assumption) T2 T3 E)]; reflexivity.
Qed.

(** ** books of fixed prices, by target *)
Definition full (o : order) : rate := mkRate (o_y o) (tradeByTargetAmount (o_y o) o).
Definition part (a : Z) (o : order) : rate := mkRate a (tradeByTargetAmount a o).
Fixpoint fill (amount : Z) (os : list order) : list rate :=
  match os with
  | [] => []
  | o :: os => if o_y o <? amount then full o :: fill (amount - o_y o) os else [part amount o]
  end.
Definition sumy (os : list order) : Z := fold_right (fun o s => o_y o + s) 0 os.
Lemma sumy_app a b : sumy (a ++ b) = sumy a + sumy b.
Proof. induction a as [|o a IH]; cbn; [reflexivity|]. fold (sumy (a ++ b)) (sumy a). lia. Qed.
Lemma sumy_nonneg os : Forall fixed os -> 0 <= sumy os.
Proof. induction 1 as [|o os ((Hy & _) & _) _ IH]; cbn; [lia|]. fold (sumy os). lia. Qed.
Lemma sum_full os : sum_inputs (map full os) = sumy os.
Proof. induction os as [|o os IH]; cbn; [reflexivity|]. fold (sum_inputs (map full os)) (sumy os). lia. Qed.
Lemma trade_full o a : o_y o <= a -> rateByTargetAmount a o = Some (full o).
Proof. intros H. unfold rateByTargetAmount. rewrite Z.min_r by assumption. reflexivity. Qed.
Lemma trade_part o a : a <= o_y o -> rateByTargetAmount a o = Some (part a o).
Proof. intros H. unfold rateByTargetAmount. rewrite Z.min_l by assumption. reflexivity. Qed.
Lemma fixed_rates os limit : Forall fixed os -> rates_at os limit rateByTargetAmount equalizeByTargetAmount = Some (map full os).
Proof.
  unfold rates_at. induction 1 as [|o os (Hn & HA) _ IH]; [reflexivity|]. cbn [mapM map].
  rewrite equalize_flat by (destruct Hn as (_ & _ & A & _); rewrite decodeFloat_denoted by assumption; lia). rewrite trade_full by lia. rewrite IH. reflexivity.
Qed.
Lemma fixed_bisect amount os lo hi d : Forall fixed os -> d = sumy os - amount -> 0 < d ->
  bisect amount os rateByTargetAmount equalizeByTargetAmount lo hi (map full os) d = Some (map full os, d).
Proof.
  intros HF Hd Hp. destruct (bisect_total rateByTargetAmount equalizeByTargetAmount amount os lo hi (map full os) d) as (res & B).
  { intros. unfold rateByTargetAmount. eauto. }
  rewrite B. f_equal. unfold bisect in B. destruct (iterp _ _ _) as [|r] eqn:E; [discriminate|]. subst r.
  pose (I := fun s : Z * Z * list rate * Z => let '(l, h, rs, dd) := s in rs = map full os /\ dd = d).
  destruct (iterp_inr (bisect_step amount os rateByTargetAmount equalizeByTargetAmount) I) with (p := Z.to_pos (hi - lo + 1)) (s := (lo, hi, map full os, d)) as [_ Q].
  - intros [[[l h] rs] dd] [[[l' h'] rs'] dd'] [-> ->] Hs. unfold bisect_step in Hs. destruct (l + 1 <? h); [|discriminate].
    rewrite fixed_rates in Hs by assumption. rewrite sum_full in Hs. rewrite <- Hd in Hs. destruct (0 <? d) eqn:P; [|apply Z.ltb_ge in P; lia].
    injection Hs as <- <- <- <-. split; reflexivity.
  - split; reflexivity.
  - destruct (Q _ E) as ([[[l h] rs] dd] & [-> ->] & Hs). unfold bisect_step in Hs. destruct (l + 1 <? h); [|injection Hs; congruence].
    rewrite fixed_rates in Hs by assumption. rewrite sum_full in Hs. rewrite <- Hd in Hs. destruct (0 <? d) eqn:P; [discriminate|apply Z.ltb_ge in P; lia].
Qed.
Lemma fill_app amount p0 rest : Forall fixed p0 -> sumy p0 < amount -> fill amount (p0 ++ rest) = map full p0 ++ fill (amount - sumy p0) rest.
Proof.
  intros HF. revert amount. induction HF as [|o p0 (Hn & _) HF IH]; intros amount H.
  - cbn. rewrite Z.sub_0_r. reflexivity.
  - cbn [sumy fold_right] in *. fold (sumy p0) in *. pose proof (sumy_nonneg _ HF). destruct Hn as (Hy & _). cbn [app fill map].
    replace (o_y o <? amount) with true by (symmetry; apply Z.ltb_lt; lia). rewrite IH by lia. rewrite Z.sub_add_distr. reflexivity.
Qed.
Lemma correct_up_full os d : d <= 0 -> correct_up (combine (map full os) os) d rateByTargetAmount = Some (map full os).
Proof.
  intros Hd. induction os as [|o os IH]; [reflexivity|]. cbn [map combine correct_up]. rewrite trade_full by (cbn; lia). cbn [bind].
  replace (d + (r_input (full o) - r_input (full o))) with d by lia. destruct (0 <? d) eqn:P; [apply Z.ltb_lt in P; lia|]. rewrite IH. reflexivity.
Qed.
(** the search stops at the first orders which together hold the amount *)
Lemma find_fixed amount rest : rest <> [] -> Forall fixed (removelast rest) -> forall p0 o, Forall fixed (p0 ++ [o]) -> sumy p0 < amount ->
  exists q0 o' l rest', find_n amount (p0 ++ [o]) rest rateByTargetAmount equalizeByTargetAmount =
    Some (q0 ++ [o'], l, map full (q0 ++ [o']), sumy (q0 ++ [o']) - amount) /\
    p0 ++ o :: rest = q0 ++ o' :: rest' /\ rest' <> [] /\ sumy q0 < amount /\ (amount <= sumy (q0 ++ [o']) \/ length rest' = 1%nat) /\ Forall fixed (q0 ++ [o']).
Proof.
  induction rest as [|o1 rest IH]; intros Hne Hf p0 o HF HS; [contradiction|]. cbn [find_n]. rewrite fixed_rates by assumption. cbn [bind]. rewrite sum_full.
  destruct (0 <=? sumy (p0 ++ [o]) - amount) eqn:E.
  - apply Z.leb_le in E. exists p0, o, (getLimit o1), (o1 :: rest). repeat split; try assumption; try discriminate. left. lia.
  - apply Z.leb_gt in E. destruct rest as [|o2 rest].
    + exists p0, o, (getLimit o1), [o1]. repeat split; try assumption; try discriminate. right. reflexivity.
    + inversion Hf as [|? ? F1 F2]; subst. destruct (IH ltac:(discriminate) F2 (p0 ++ [o]) o1) as (q0 & o' & l & rest' & E1 & E2 & E3).
      { apply Forall_app. split; [assumption|]. constructor; [assumption|constructor]. }
      { lia. }
      exists q0, o', l, rest'. rewrite E1. split; [reflexivity|]. rewrite <- E2. rewrite <- app_assoc. split; [reflexivity|exact E3].
Qed.
Lemma fixed_best_rates amount orders quotes os : 0 < amount -> quotes <> [] -> mapM (fun q => nth_error orders (q_id q)) quotes = Some os -> Forall fixed os ->
  matchBestRates amount orders quotes rateByTargetAmount equalizeByTargetAmount = Some (fill amount os).
Proof.
  intros Ha Hq Eos HF. unfold matchBestRates. rewrite Eos. cbn [bind].
  destruct os as [|o0 os]; [destruct quotes as [|q quotes]; [contradiction|]; cbn [mapM] in Eos; destruct (nth_error orders (q_id q)); [|discriminate]; cbn [bind] in Eos; destruct (mapM _ quotes); discriminate|].
  cbn [app]. inversion HF as [|? ? F0 Fs]; subst.
  destruct (find_fixed amount (os ++ [zero_order])) with (p0 := @nil order) (o := o0) as (q0 & o' & l & rest' & E1 & E2 & E3 & E4 & E5 & E6).
  { destruct os; discriminate. }
  { rewrite removelast_last. exact Fs. }
  { constructor; [exact F0|constructor]. }
  { cbn. exact Ha. }
  cbn [app] in E1, E2. rewrite E1. cbn [bind].
  assert (OS : exists tl, o0 :: os = q0 ++ o' :: tl /\ rest' = tl ++ [zero_order]).
  { destruct (exists_last E3) as (tl & zz & ->). exists tl. replace (o0 :: os ++ [zero_order]) with ((o0 :: os) ++ [zero_order]) in E2 by reflexivity.
    replace (q0 ++ o' :: tl ++ [zz]) with ((q0 ++ o' :: tl) ++ [zz]) in E2 by (rewrite <- app_assoc; reflexivity). apply app_inj_tail in E2 as [-> <-]. split; reflexivity. }
  destruct OS as (tl & OS & ->). rewrite OS.
  apply Forall_app in E6 as [F6 F7]. rewrite fill_app by assumption. cbn [fill].
  set (d := sumy (q0 ++ [o']) - amount). assert (Ed : d = sumy q0 + o_y o' - amount) by (unfold d; rewrite sumy_app; cbn; lia).
  destruct (0 <? d) eqn:P.
  - apply Z.ltb_lt in P. rewrite fixed_bisect; [|apply Forall_app; split; assumption|reflexivity|exact P]. cbn [bind]. replace (0 <? d) with true by (symmetry; apply Z.ltb_lt; lia).
    destruct (o_y o' <? amount - sumy q0) eqn:C; [apply Z.ltb_lt in C; lia|].
    rewrite map_app. cbn [map]. assert (CB : forall a b, combine (map full a ++ [full b]) (a ++ [b]) = combine (map full a) a ++ [(full b, b)]).
    { intros a b. induction a as [|z a IHa]; [reflexivity|]. cbn. rewrite IHa. reflexivity. }
    rewrite CB, rev_app_distr. cbn [rev app correct_down]. rewrite trade_part by (cbn; lia). cbn [bind part r_input full].
    replace (d + (o_y o' - d - o_y o') <=? 0) with true by (symmetry; apply Z.leb_le; lia). cbn [bind].
    cbn [rev]. rewrite <- map_rev, rev_involutive, map_fst_combine by (rewrite map_length; reflexivity). unfold part. replace (o_y o' - d) with (amount - sumy q0) by lia. reflexivity.
  - apply Z.ltb_ge in P. cbn [bind]. replace (0 <? d) with false by (symmetry; apply Z.ltb_ge; lia).
    destruct (d <? 0) eqn:N.
    + apply Z.ltb_lt in N. destruct (o_y o' <? amount - sumy q0) eqn:C; [|apply Z.ltb_ge in C; lia].
      assert (tl = []) as -> by (destruct E5 as [E5|E5]; [rewrite sumy_app in E5; cbn in E5; lia|]; rewrite app_length in E5; cbn in E5; destruct tl; [reflexivity|cbn in E5; lia]).
      rewrite correct_up_full by lia. rewrite map_app. cbn. reflexivity.
    + apply Z.ltb_ge in N. destruct (o_y o' <? amount - sumy q0) eqn:C; [apply Z.ltb_lt in C; lia|].
      rewrite map_app. cbn [map]. replace (part (amount - sumy q0) o') with (full o'); [reflexivity|]. unfold part, full. replace (amount - sumy q0) with (o_y o') by lia. reflexivity.
Qed.
Lemma fixed_positive o x : fixed o -> 0 < x -> 0 < tradeByTargetAmount x o.
Proof.
  intros [Ho HA] Hx. destruct (Z.eq_dec (tradeByTargetAmount x o) (2 ^ 128 - 1)) as [->|N]; [reflexivity|].
  destruct (by_target_never_undercharges o x Ho N) as [D B]. rewrite HA in *. destruct D as [(_ & PB)|(A & _)]; [|lia].
  rewrite exact_in_A0 in B by lia.
  assert (P : (0 < inject_Z (tradeByTargetAmount x o))%Q).
  { eapply Qlt_le_trans; [|exact B]. apply Qlt_shift_div_l; [replace 0%Q with (inject_Z 0) by reflexivity; rewrite <- Zlt_Qlt; apply Z.mul_pos_pos; assumption|].
    rewrite Qmult_0_l. replace 0%Q with (inject_Z 0) by reflexivity. rewrite <- Zlt_Qlt. repeat apply Z.mul_pos_pos; try assumption; reflexivity. }
  replace 0%Q with (inject_Z 0) in P by reflexivity. rewrite <- Zlt_Qlt in P. exact P.
Qed.
Definition acts_of (quotes : list quote) (rates : list rate) : list action :=
  map (fun qr : quote * rate => mkAction (q_id (fst qr)) (r_input (snd qr)) (r_output (snd qr)))
    (List.filter (fun qr => default_filter (snd qr)) (combine quotes rates)).
Lemma fixed_fast orders amount quotes os : Forall2 (fun q o => nth_error orders (q_id q) = Some o /\ fixed o /\ rateByTargetAmount amount o = Some (q_rate q)) quotes os ->
  forall a, 0 < a <= amount -> matchFast a orders quotes default_filter rateByTargetAmount = Some (acts_of quotes (fill a os)).
Proof.
  unfold acts_of. induction 1 as [|q o quotes os (En & Hf & Er) HF IH]; intros a Ha; [reflexivity|].
  pose proof Hf as ((Hy & _) & _). cbn [matchFast fill]. injection Er as Er. rewrite <- Er. cbn [r_input r_output].
  destruct (Z.ltb_spec (o_y o) a) as [C|C].
  - rewrite Z.min_r by lia. replace (o_y o <? a) with true by (symmetry; apply Z.ltb_lt; exact C). fold (full o). cbn [combine List.filter snd].
    destruct (default_filter (full o)) eqn:F.
    + rewrite IH by lia. cbn [bind map fst snd full r_input r_output]. reflexivity.
    + assert (o_y o = 0).
      { destruct (Z.eq_dec (o_y o) 0) as [Y0|Y0]; [exact Y0|]. exfalso. unfold default_filter, full in F. cbn in F.
        pose proof (fixed_positive o (o_y o) Hf ltac:(lia)) as P. apply Z.ltb_lt in P. rewrite P in F. assert (P2 : 0 < o_y o) by lia. apply Z.ltb_lt in P2. rewrite P2 in F. discriminate. }
      rewrite IH by lia. replace (a - o_y o) with a by lia. reflexivity.
  - replace (Z.min amount (o_y o) <? a) with false by (symmetry; apply Z.ltb_ge; lia). cbn [combine List.filter snd].
    destruct (a =? Z.min amount (o_y o)) eqn:E.
    + apply Z.eqb_eq in E. rewrite <- E. fold (part a o). destruct (default_filter (part a o)); destruct quotes; reflexivity.
    + rewrite En. cbn [bind]. rewrite trade_part by lia. cbn [bind r_output part]. fold (part a o). destruct (default_filter (part a o)); destruct quotes; reflexivity.
Qed.
Lemma fixed_same (sort : sorter) orders amount : (forall c l, Permutation (sort c l) l) -> orders <> [] -> Forall fixed orders -> 0 < amount ->
  matchByTargetBest sort amount orders = matchByTargetFast sort amount orders.
Proof.
  intros Hs Hne HF Ha. unfold matchByTargetBest, matchByTargetFast.
  destruct (quotes_of_total amount orders rateByTargetAmount) as (qs & Eqs); [intros; unfold rateByTargetAmount; eauto|]. rewrite Eqs. cbn [bind].
  destruct (quotes_of_spec _ _ _ _ Eqs) as [Hids Hgood]. set (sq := sort sortByMaxRate qs).
  assert (Hg : Forall (good_quote orders rateByTargetAmount amount) sq) by (eapply Permutation_Forall'; [apply Hs|assumption]).
  assert (Hsq : sq <> []).
  { intros G. assert (Permutation [] qs) by (rewrite <- G; apply Hs). apply Permutation_nil in H. rewrite H in Hids. cbn in Hids. destruct orders; [contradiction|discriminate]. }
  assert (O : exists os, mapM (fun q => nth_error orders (q_id q)) sq = Some os /\ Forall fixed os /\
     Forall2 (fun q o => nth_error orders (q_id q) = Some o /\ fixed o /\ rateByTargetAmount amount o = Some (q_rate q)) sq os).
  { clear Hsq. clearbody sq. rewrite Forall_forall in HF. induction Hg as [|q sq (o & Eo & Er) _ (os & I1 & I2 & I3)]; [exists []; repeat split; constructor|].
    exists (o :: os). cbn [mapM]. rewrite Eo. cbn [bind]. rewrite I1. cbn [bind]. assert (Fo : fixed o) by (apply HF; eapply nth_error_In; exact Eo).
    split; [reflexivity|]. split; [constructor; assumption|]. constructor; [exact (conj Eo (conj Fo Er))|assumption]. }
  destruct O as (os & O1 & O2 & O3). unfold matchBest. rewrite (fixed_best_rates amount orders sq os Ha Hsq O1 O2). cbn [bind].
  rewrite (fixed_fast orders amount sq os O3 amount ltac:(lia)). reflexivity.
Qed.
