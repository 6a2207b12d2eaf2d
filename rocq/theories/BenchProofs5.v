(** Proofs for BenchProps.v (5): the checks of test_match.py. *)
From Coq Require Import Reals ZArith QArith Qround Lia List Bool Permutation.
From Verif Require Import CurveModel TradeModel TradeSpec TradeProofs TradeProofs2 TradeProofs3 MatchModel MatchSpec MatchProofs BenchModel BenchSpec BenchProofs4.
Import ListNotations.
Local Open Scope Z_scope.

Lemma total_is l : total a_input l = total_in l /\ total a_output l = total_out l.
Proof. induction l as [|a l [I1 I2]]; [split; reflexivity|]. unfold total, total_in, total_out in *. cbn. rewrite I1, I2. split; reflexivity. Qed.
Lemma encode_liq o e : encode o = Some e -> o_y e = liquidity o.
Proof.
  unfold encode, encodeOrder, liquidity. intros H.
  repeat match type of H with
  | bind ?m _ = Some _ => let E := fresh in destruct m eqn:E; cbn [bind] in H; [|discriminate]
  | (if ?c then _ else _) = Some _ => destruct c
  end; injection H as <-; reflexivity.
Qed.
Lemma mapM_nth {A B} (f : A -> option B) l bs i b : mapM f l = Some bs -> nth_error bs i = Some b -> exists a, nth_error l i = Some a /\ f a = Some b.
Proof.
  intros H. apply mapM_Forall2 in H. revert i. induction H as [|a c l bs H _ IH]; intros i Hi; [destruct i; discriminate|].
  destruct i as [|i]; cbn in *; [injection Hi as ->; eauto|apply IH; exact Hi].
Qed.
Lemma check_actions_ok m os es l : mapM encode os = Some es ->
  (forall a, In a l -> exists e, nth_error es (a_id a) = Some e /\ (match m with BySource => a_output a | ByTarget => a_input a end) <= o_y e /\ a_output a = quote_by m (a_input a) e) ->
  check_actions m os l = Ret tt.
Proof.
  intros HM H. induction l as [|a l IH]; [reflexivity|]. cbn [check_actions].
  destruct (H a (or_introl eq_refl)) as (e & En & Hl & Hq). destruct (mapM_nth _ _ _ _ _ HM En) as (o & Eo & Ee).
  unfold check_action. rewrite Eo. unfold impl_execute. rewrite Ee. rewrite <- (encode_liq _ _ Ee).
  replace ((match m with BySource => a_output a | ByTarget => a_input a end) <=? o_y e) with true by (symmetry; apply Z.leb_le; exact Hl).
  cbn [negb rbind]. replace (a_output a =? quote_by m (a_input a) e) with true by (symmetry; apply Z.eqb_eq; exact Hq). cbn [rbind].
  apply IH. intros a' Ha. apply H. right. exact Ha.
Qed.
Lemma book_nonneg os es : Forall sane os -> mapM encode os = Some es -> nonneg_book es.
Proof.
  intros HS HM. apply mapM_Forall2 in HM. unfold nonneg_book. induction HM as [|o e os es H _ IH]; [constructor|]. inversion HS as [|? ? (S1 & S2 & S3) S4]; subst.
  constructor; [|apply IH; assumption]. destruct (encodeOrder_relations _ _ _ _ _ S1 S2 S3 H) as (_ & _ & N & _). exact N.
Qed.
Lemma mapM_nonnil {A B} (f : A -> option B) l bs : l <> [] -> mapM f l = Some bs -> bs <> [].
Proof. intros Hl H. apply mapM_Forall2 in H. inversion H; subst; [contradiction|discriminate]. Qed.
Lemma execute_inv sort m amount os f b : match_execute sort m amount os = Ret (f, b) ->
  exists es, mapM encode os = Some es /\ match_fast sort m amount es = Some f /\ match_best sort m amount es = Some b.
Proof.
  unfold match_execute. destruct (mapM encode os) as [es|]; [|discriminate]. destruct (match_fast sort m amount es) eqn:E1, (match_best sort m amount es) eqn:E2; try discriminate.
  intros H. injection H as -> ->. exists es. auto.
Qed.
Lemma best_checks sort m amount os f b : (forall c l, Permutation (sort c l) l) -> os <> [] -> Forall sane os ->
  match_execute sort m amount os = Ret (f, b) -> check_actions m os b = Ret tt.
Proof.
  intros Hs Hne HS HX. destruct (execute_inv _ _ _ _ _ _ HX) as (es & HM & _ & HB). apply (check_actions_ok m os es b HM).
  pose proof (mapM_nonnil _ _ _ Hne HM) as Hne'. destruct m; cbn [match_best] in HB.
  - destruct (best_by_source sort es amount Hs Hne' (book_nonneg _ _ HS HM)) as (acts & E & _ & P). rewrite E in HB. injection HB as <-.
    intros a Ha. destruct (P a Ha) as (_ & _ & o & En & L & Q). exists o. cbn. auto.
  - destruct (best_by_target sort es amount Hs Hne') as (acts & E & _ & P). rewrite E in HB. injection HB as <-.
    intros a Ha. destruct (P a Ha) as (_ & _ & o & En & L & Q). exists o. cbn. auto.
Qed.
Lemma fast_checks sort amount os f b : (forall c l, Permutation (sort c l) l) -> 0 <= amount ->
  match_execute sort ByTarget amount os = Ret (f, b) -> check_matching ByTarget amount os f = Ret tt.
Proof.
  intros Hs Ha HX. destruct (execute_inv _ _ _ _ _ _ HX) as (es & HM & HF & _). cbn [match_fast] in HF.
  destruct (fast_by_target sort es amount Hs Ha) as (acts & E & _ & S & P & _). rewrite E in HF. injection HF as <-.
  unfold check_matching. destruct (total_is acts) as [-> _]. replace (total_in acts <=? amount) with true by (symmetry; apply Z.leb_le; lia).
  apply (check_actions_ok ByTarget os es acts HM). intros a Hin. destruct (P a Hin) as (_ & _ & o & En & L & Q). exists o. cbn. auto.
Qed.
Lemma fast_checks_source sort amount os f b : (forall c l, Permutation (sort c l) l) -> 0 <= amount -> Forall sane os ->
  match_execute sort BySource amount os = Ret (f, b) ->
  total_in f <= amount /\ forall a, In a f -> exists o q, nth_error os (a_id a) = Some o /\ a_output a <= liquidity o /\ impl_execute BySource (a_input a) o = Ret q /\ a_output a <= q.
Proof.
  intros Hs Ha HS HX. destruct (execute_inv _ _ _ _ _ _ HX) as (es & HM & HF & _). cbn [match_fast] in HF.
  destruct (fast_by_source sort es amount Hs (book_nonneg _ _ HS HM) Ha) as (acts & E & _ & S & P & _). rewrite E in HF. injection HF as <-.
  split; [lia|]. intros a Hin. destruct (P a Hin) as (_ & _ & e & En & L & Q). destruct (mapM_nth _ _ _ _ _ HM En) as (o & Eo & Ee).
  exists o, (quote_by BySource (a_input a) e). split; [exact Eo|]. rewrite <- (encode_liq _ _ Ee). split; [exact L|]. unfold impl_execute. rewrite Ee. split; [reflexivity|exact Q].
Qed.
(** ** the whole test where both matchings agree *)
Lemma same_test sort amount os f : (forall c l, Permutation (sort c l) l) -> 0 <= amount -> f <> [] ->
  match_execute sort ByTarget amount os = Ret (f, f) -> match_test sort ByTarget amount os = Ret tt.
Proof.
  intros Hs Ha Hf HX. pose proof (fast_checks sort amount os f f Hs Ha HX) as C. unfold match_test. rewrite HX. cbn [rbind].
  destruct f as [|a f]; [contradiction|]. rewrite C. cbn [rbind]. rewrite !Z.leb_refl. reflexivity.
Qed.
Lemma single_test sort amount o e : (forall c l, Permutation (sort c l) l) -> 0 <= amount -> encode o = Some e ->
  match_test sort ByTarget amount [o] =
  if (0 <? Z.min amount (liquidity o)) && (0 <? tradeByTargetAmount (Z.min amount (liquidity o)) e) then Ret tt else Raise ValueError.
Proof.
  intros Hs Ha He. destruct (single_target sort e amount Hs) as [F B]. rewrite (encode_liq _ _ He) in F, B.
  set (c := (0 <? Z.min amount (liquidity o)) && (0 <? tradeByTargetAmount (Z.min amount (liquidity o)) e)) in *.
  assert (X : match_execute sort ByTarget amount [o] = Ret (let acts := if c then [mkAction 0 (Z.min amount (liquidity o)) (tradeByTargetAmount (Z.min amount (liquidity o)) e)] else [] in (acts, acts))).
  { unfold match_execute. cbn [mapM]. rewrite He. cbn [bind match_fast match_best]. rewrite F, B. reflexivity. }
  destruct c; cbv zeta in X.
  - eapply same_test; [exact Hs|exact Ha| |exact X]; discriminate.
  - unfold match_test. rewrite X. reflexivity.
Qed.
Lemma fixed_test sort amount os es : (forall c l, Permutation (sort c l) l) -> 0 < amount -> os <> [] -> mapM encode os = Some es -> Forall fixed es ->
  exists f, match_execute sort ByTarget amount os = Ret (f, f) /\ match_test sort ByTarget amount os = match f with [] => Raise ValueError | _ => Ret tt end.
Proof.
  intros Hs Ha Hne HM HF. pose proof (fixed_same sort es amount Hs (mapM_nonnil _ _ _ Hne HM) HF Ha) as S.
  destruct (fast_by_target sort es amount Hs ltac:(lia)) as (f & E & _). exists f.
  assert (X : match_execute sort ByTarget amount os = Ret (f, f)) by (unfold match_execute; rewrite HM; cbn [match_fast match_best]; rewrite S, E; reflexivity).
  split; [exact X|]. destruct f as [|a f].
  - unfold match_test. rewrite X. reflexivity.
  - eapply same_test; [exact Hs|lia| |exact X]; discriminate.
Qed.
