From Coq Require Import ZArith QArith Qabs Qround List Bool Lia Lqa Permutation Setoid Sorted.
From Verif Require Import TradeModel PairModel PairProofs SimModel MatchModel SimSpec SimProofs SimProofs7 SimProofs8 FastModel FastSpec FastProofs FastProofs2.
Import ListNotations.
Local Open Scope Q_scope.

(** ** The fast router meets the simulator's router assumptions *)
Lemma qsum_one {A} (f : A -> Q) (key : A -> nat) i (b : Q) l : 0 <= b -> NoDup (map key l) -> (forall a, In a l -> key a = i -> f a <= b) ->
  qsum (fun a => if Nat.eqb (key a) i then f a else 0) l <= b.
Proof.
  intros Hb. assert (Z : forall l, ~ In i (map key l) -> qsum (fun a => if Nat.eqb (key a) i then f a else 0) l == 0).
  { clear. induction l as [|a l IH]; intros H; cbn; [reflexivity|]. destruct (Nat.eqb (key a) i) eqn:E.
    - apply Nat.eqb_eq in E. destruct H. left. assumption.
    - rewrite IH; [ring|]. intros I. apply H. right. assumption. }
  induction l as [|a l IH]; intros N H; cbn; [assumption|]. inversion N as [|? ? N1 N2]; subst.
  destruct (Nat.eqb (key a) i) eqn:E.
  - apply Nat.eqb_eq in E. subst i. rewrite Z by assumption. pose proof (H a (or_introl eq_refl) eq_refl). lra.
  - specialize (IH N2 ltac:(intros; apply H; [right|]; assumption)). lra.
Qed.

Lemma fast_sane sort ab apps rq routes : perm_sort sort -> fast_router sort ab apps rq = Some routes ->
  sane_routes (match rq_by rq with ByTarget => true | BySource => false end) (map (fun o => mkForder (so_y o) (so_yint o) (fst (ab o)) (snd (ab o))) apps) routes.
Proof.
  intros Hs H. unfold fast_router in H. cbv zeta in H. destruct (rq_by rq); [eapply source_sane|eapply target_sane]; eassumption.
Qed.
Lemma qsum_pos {A} (f : A -> Q) l : l <> [] -> (forall a, In a l -> 0 < f a) -> 0 < qsum f l.
Proof.
  induction l as [|a l IH]; intros H Hf; [contradiction|]. cbn. pose proof (Hf a (or_introl eq_refl)). destruct l as [|b l]; [cbn; lra|].
  assert (0 < qsum f (b :: l)) by (apply IH; [discriminate|intros c Hc; apply Hf; right; assumption]). lra.
Qed.
Lemma fast_signs e : runs_fast e -> router_signs e.
Proof.
  intros (_ & sort & ab & Hs & Hr) apps rq r0 rs H. rewrite Hr in H. destruct (fast_sane _ _ _ _ _ Hs H) as (Hne & Hnd & Hi & Ht).
  destruct (Ht r0) as [-> E2]. rewrite E2. split.
  - apply qsum_pos; [assumption|]. intros r I. destruct (Hi r I) as (o & _ & P & _). assumption.
  - assert (0 < qsum rt_output (r0 :: rs)); [|lra]. apply qsum_pos; [assumption|]. intros r I. destruct (Hi r I) as (o & _ & _ & P & _). assumption.
Qed.
Lemma fast_valid e : runs_fast e -> router_valid e.
Proof.
  intros (_ & sort & ab & Hs & Hr) apps rq routes r H I. rewrite Hr in H. destruct (fast_sane _ _ _ _ _ Hs H) as (Hne & Hnd & Hi & Ht).
  destruct (Hi r I) as (o & E & _). assert (L : nth_error (map (fun o => mkForder (so_y o) (so_yint o) (fst (ab o)) (snd (ab o))) apps) (rt_index r) <> None) by congruence.
  apply nth_error_Some in L. rewrite map_length in L. exact L.
Qed.
Lemma fast_bounded e : runs_fast e -> router_bounded e.
Proof.
  intros (Hf & sort & ab & Hs & Hr) apps rq routes i o Ha H Ho. rewrite Hr in H. destruct (fast_sane _ _ _ _ _ Hs H) as (Hne & Hnd & Hi & Ht).
  assert (Hy : 0 < so_y o) by (apply Ha; eapply nth_error_In; eassumption).
  apply (qsum_one (sold_of e (rq_by rq)) rt_index); [lra|assumption|]. intros r I <-. destruct (Hi r I) as (fo & E & P1 & P2 & B).
  rewrite nth_error_map, Ho in E. cbn in E. injection E as <-. cbn [fo_y] in B. unfold sold_of. rewrite Hf. destruct (rq_by rq); rewrite Qabs_pos; lra.
Qed.

(** ** How much is filled *)
Definition cap_of (cap : forder -> Q) (orders : list forder) (q : fquote) : Q :=
  match nth_error orders (fq_index q) with Some o => cap o | None => 0 end.

Lemma loop_fill trade (cap : forder -> Q) (f : forder -> Q -> Q) orders x0 :
  (forall o a b, a == b -> f o a == f o b) -> (forall o, In o orders -> 0 <= cap o) ->
  (forall o a, In o orders -> 0 < a -> a <= cap o -> 0 < f o a) ->
  (forall o x, In o orders -> 0 <= x -> exists r, trade x o = Some r /\ fr_input r == qmin x (cap o) /\ fr_output r == f o (fr_input r)) ->
  forall quotes x, 0 < x -> x <= x0 -> (forall q, In q quotes -> exists o, nth_error orders (fq_index q) = Some o /\ trade x0 o = Some (fq_rate q)) ->
  exists acts, fast_loop trade orders x quotes = Some acts /\
    (forall a, In a acts -> exists o, nth_error orders (fa_index a) = Some o /\ 0 < fa_input a /\ fa_input a <= cap o /\ fa_output a == f o (fa_input a)) /\
    qsum fa_input acts == qmin x (qsum (cap_of cap orders) quotes).
Proof.
  intros Pf Hcap Hf Ht. induction quotes as [|q qs IH]; intros x Hx Hx0 Hq.
  - exists []. cbn. split; [reflexivity|]. split; [intros a []|]. destruct (qmin_cases x 0) as [[-> H]|[-> H]]; lra.
  - destruct (Hq q (or_introl eq_refl)) as (o & Eo & Et). assert (Io : In o orders) by (eapply nth_error_In; eassumption).
    destruct (Ht o x0 Io ltac:(lra)) as (r' & Er & Rin & Rout). rewrite Et in Er. injection Er as <-.
    assert (Ec : cap_of cap orders q = cap o) by (unfold cap_of; rewrite Eo; reflexivity).
    pose proof (Hcap o Io) as Hc.
    assert (Hcs : 0 <= qsum (cap_of cap orders) qs).
    { apply qsum_nonneg. intros q'. unfold cap_of. destruct (nth_error orders (fq_index q')) eqn:E; [|lra]. apply Hcap. eapply nth_error_In; eassumption. }
    assert (Hq' : forall q, In q qs -> exists o, nth_error orders (fq_index q) = Some o /\ trade x0 o = Some (fq_rate q)) by (intros; apply Hq; right; assumption).
    pose proof (qmin_l x0 (cap o)) as M1. pose proof (qmin_r x0 (cap o)) as M2.
    assert (Hpos : 0 < fr_input (fq_rate q) -> fast_filter (fq_rate q) = true).
    { intros P. apply filter_pos. split; [assumption|]. rewrite Rout. apply Hf; [assumption|assumption|]. rewrite Rin. assumption. }
    cbn [fast_loop qsum]. rewrite Ec. destruct (Qlt_bool (fr_input (fq_rate q)) x) eqn:E1.
    + apply Qlt_bool_iff in E1. assert (Rc : fr_input (fq_rate q) == cap o) by (destruct (qmin_cases x0 (cap o)) as [[K1 K2]|[K1 K2]]; rewrite K1 in *; lra).
      destruct (fast_filter (fq_rate q)) eqn:F.
      * apply filter_pos in F. destruct F as [F1 F2]. destruct (IH (x - fr_input (fq_rate q)) ltac:(lra) ltac:(lra) Hq') as (acts & -> & A1 & A2). cbv beta iota delta [bind].
        eexists. split; [reflexivity|]. split.
        { intros a [<-|Ia]; [|apply A1; assumption]. cbn. exists o. split; [assumption|]. split; [assumption|]. split; [lra|assumption]. }
        cbn [qsum fa_input]. rewrite A2. destruct (qmin_cases (x - fr_input (fq_rate q)) (qsum (cap_of cap orders) qs)) as [[-> K]|[-> K]];
          destruct (qmin_cases x (cap o + qsum (cap_of cap orders) qs)) as [[-> L]|[-> L]]; lra.
      * assert (R0 : cap o == 0). { destruct (Qlt_le_dec 0 (fr_input (fq_rate q))) as [L|L]; [pose proof (Hpos L); congruence|lra]. }
        destruct (IH x Hx Hx0 Hq') as (acts & -> & A1 & A2). exists acts. split; [reflexivity|]. split; [assumption|]. rewrite A2.
        destruct (qmin_cases x (qsum (cap_of cap orders) qs)) as [[-> K]|[-> K]]; destruct (qmin_cases x (cap o + qsum (cap_of cap orders) qs)) as [[-> L]|[-> L]]; lra.
    + apply Qlt_bool_false in E1. rewrite Hpos by lra.
      assert (Ex : qmin x (cap o + qsum (cap_of cap orders) qs) == x) by (destruct (qmin_cases x (cap o + qsum (cap_of cap orders) qs)) as [[-> L]|[-> L]]; lra).
      destruct (Qeq_bool x (fr_input (fq_rate q))) eqn:E2.
      * apply Qeq_bool_iff in E2. eexists. split; [reflexivity|]. split.
        { intros a [<-|[]]. cbn. exists o. split; [assumption|]. split; [lra|]. split; [lra|assumption]. }
        rewrite Ex. cbn. lra.
      * rewrite Eo. cbv beta iota delta [bind]. destruct (Ht o x Io ltac:(lra)) as (t & -> & Tin & Tout). eexists. split; [reflexivity|].
        assert (Tx : fr_input t == x) by (rewrite Tin; destruct (qmin_cases x (cap o)) as [[-> L]|[-> L]]; lra). split.
        { intros a [<-|[]]. cbn. exists o. split; [assumption|]. split; [lra|]. split; [lra|]. rewrite Tout. apply Pf. assumption. }
        rewrite Ex. cbn. lra.
Qed.

Lemma qsum_perm {A} (f : A -> Q) l l' : Permutation l l' -> qsum f l == qsum f l'.
Proof. induction 1; cbn; [reflexivity|rewrite IHPermutation; reflexivity|ring|rewrite IHPermutation1; assumption]. Qed.
Lemma qsum_nth (cap : forder -> Q) orders qs : map fq_index qs = seq 0 (length orders) -> qsum (cap_of cap orders) qs = qsum cap orders.
Proof.
  intros H. assert (E : qsum (cap_of cap orders) qs = qsum (fun i => match nth_error orders i with Some o => cap o | None => 0 end) (map fq_index qs)).
  { clear. induction qs as [|q qs IH]; [reflexivity|]. cbn. rewrite IH. reflexivity. }
  rewrite E, H. clear E H. assert (G : forall l n pre, length pre = n -> qsum (fun i => match nth_error (pre ++ l) i with Some o => cap o | None => 0 end) (seq n (length l)) = qsum cap l).
  { clear. induction l as [|o l IH]; intros n pre Hn; [reflexivity|]. cbn [length seq qsum].
    rewrite nth_error_app2 by lia. rewrite <- Hn at 1. rewrite Nat.sub_diag. cbn [nth_error]. f_equal.
    specialize (IH (S n) (pre ++ [o])). rewrite <- app_assoc in IH. cbn in IH. apply IH. rewrite app_length. cbn. lia. }
  apply (G orders 0%nat []). reflexivity.
Qed.

(** the whole match *)
Lemma match_fill sort trade cmp (cap : forder -> Q) (f : forder -> Q -> Q) orders x : perm_sort sort ->
  (forall o a b, a == b -> f o a == f o b) -> (forall o, In o orders -> 0 <= cap o) ->
  (forall o a, In o orders -> 0 < a -> a <= cap o -> 0 < f o a) ->
  (forall o x, In o orders -> 0 <= x -> exists r, trade x o = Some r /\ fr_input r == qmin x (cap o) /\ fr_output r == f o (fr_input r)) ->
  ~ x == 0 -> 
  match fast_match sort trade cmp orders x with
  | None => qsum cap orders == 0
  | Some routes => NoDup (map rt_index routes) /\ qsum rt_input routes == qmin (Qabs x) (qsum cap orders) /\ 0 < qsum cap orders /\
      forall r, In r routes -> exists o, nth_error orders (rt_index r) = Some o /\ 0 < rt_input r /\ rt_input r <= cap o /\ rt_output r == f o (rt_input r)
  end.
Proof.
  intros Hs Pf Hcap Hf Ht Hx. unfold fast_match. cbv zeta. set (X := Qabs x). 
  assert (HX : 0 < X). { unfold X. apply Qabs_case; intros H; apply Qle_lteq in H as [H|H]; try lra; destruct Hx; lra. }
  destruct (quotes_total trade X orders) as [qs Eq]; [intros o Io; destruct (Ht o X Io ltac:(lra)) as (r & E & _); eauto|]. rewrite Eq. cbv beta iota delta [bind].
  destruct (quotes_spec _ _ _ _ Eq) as [Qi Qt].
  destruct (loop_fill trade cap f orders X Pf Hcap Hf Ht (sort cmp qs) X HX (Qle_refl _)) as (acts & El & A1 & A2).
  { intros q Hq. apply (Permutation_in q (Hs cmp qs)) in Hq. destruct (Qt q Hq) as (o & E1 & E2). eauto. }
  rewrite El. rewrite (qsum_perm _ _ _ (Hs cmp qs)), (qsum_nth _ _ _ Qi) in A2.
  assert (Hc : 0 <= qsum cap orders).
  { clear -Hcap. induction orders as [|o l IH]; cbn; [lra|]. pose proof (Hcap o (or_introl eq_refl)). specialize (IH ltac:(intros; apply Hcap; right; assumption)). lra. }
  destruct (loop_acts _ _ X _ _ _ HX (Qle_refl _) El) as [(l & P) _].
  destruct acts as [|a0 acts0].
  - cbn in A2. destruct (qmin_cases X (qsum cap orders)) as [[K L]|[K L]]; rewrite K in A2; lra.
  - set (acts := a0 :: acts0) in *. assert (Hne : acts <> []) by discriminate. clearbody acts. split; [|split; [|split]].
    + rewrite totals_index. apply (NoDup_app_l _ l). eapply Permutation_NoDup; [symmetry; exact P|].
      eapply Permutation_NoDup; [apply Permutation_map; symmetry; apply Hs|]. rewrite Qi. apply seq_NoDup.
    + pose proof (totals_sum fa_input 0 0 acts) as F1. cbn [fa_input] in F1. change (fun r => rt_input r) with rt_input in F1. rewrite F1. assumption.
    + assert (S : 0 < qsum fa_input acts) by (apply qsum_pos; [assumption|intros a Ia; destruct (A1 a Ia) as (o & _ & K & _); assumption]).
      rewrite A2 in S. pose proof (qmin_r X (qsum cap orders)). lra.
    + intros r Hr. apply totals_In in Hr. exact (A1 _ Hr).
Qed.
Lemma target_fill sort orders x : perm_sort sort -> Forall good_order orders -> ~ x == 0 ->
  match match_by_target sort false orders x with
  | None => qsum fo_y orders == 0
  | Some routes => NoDup (map rt_index routes) /\ qsum rt_input routes == qmin (Qabs x) (qsum fo_y orders) /\ 0 < qsum fo_y orders /\
      forall r, In r routes -> exists o, nth_error orders (rt_index r) = Some o /\ 0 < rt_input r /\ rt_input r <= fo_y o /\ rt_output r == curve_cost o (rt_input r)
  end.
Proof.
  intros Hs Hg Hx. rewrite Forall_forall in Hg. unfold match_by_target. apply (match_fill sort _ _ fo_y curve_cost); try assumption.
  - intros o a b E. rewrite E. reflexivity.
  - intros o Io. apply (Hg o Io).
  - intros o a Io. apply cost_pos, Hg, Io.
  - intros o x' Io Hx'. destruct (quote_target_value o x' (Hg o Io) Hx') as (r & E & E1 & E2). eauto.
Qed.
Lemma source_fill sort orders x : perm_sort sort -> Forall good_order orders -> ~ x == 0 ->
  match match_by_src sort false orders x with
  | None => qsum (fun o => curve_cost o (fo_y o)) orders == 0
  | Some routes => NoDup (map rt_index routes) /\ qsum rt_input routes == qmin (Qabs x) (qsum (fun o => curve_cost o (fo_y o)) orders) /\
      0 < qsum (fun o => curve_cost o (fo_y o)) orders /\
      forall r, In r routes -> exists o, nth_error orders (rt_index r) = Some o /\ 0 < rt_input r /\ rt_input r <= curve_cost o (fo_y o) /\ rt_output r == curve_gain o (rt_input r)
  end.
Proof.
  intros Hs Hg Hx. rewrite Forall_forall in Hg. unfold match_by_src. apply (match_fill sort _ _ (fun o => curve_cost o (fo_y o)) curve_gain); try assumption.
  - intros o a b E. rewrite E. reflexivity.
  - intros o Io. apply cost_nonneg; [apply Hg; assumption|apply (Hg o Io)|apply Qle_refl].
  - intros o a Io Ha _. apply gain_pos; [apply Hg; assumption|assumption].
  - intros o x' Io Hx'. destruct (quote_source_value o x' (Hg o Io) Hx') as (r & E & E1 & E2 & _). eauto.
Qed.
(** a zero request raises *)
Lemma zero_raises sort trade cmp orders x : perm_sort sort -> (forall x o r, x == 0 -> trade x o = Some r -> ~ positive r) -> x == 0 ->
  fast_match sort trade cmp orders x = None.
Proof.
  intros Hs Hz Hx. destruct (fast_match sort trade cmp orders x) eqn:E; [|reflexivity]. exfalso.
  destruct (match_acts _ _ _ _ _ _ Hs Hz E) as (_ & _ & _ & _ & H & _). rewrite Hx in H. cbn in H. lra.
Qed.
Lemma totals_of sort trade cmp orders x routes r0 : fast_match sort trade cmp orders x = Some routes ->
  rt_total_input (last routes r0) == qsum rt_input routes /\ rt_total_output (last routes r0) == - qsum rt_output routes.
Proof.
  unfold fast_match. cbv zeta. destruct (fast_quotes _ _ _); [|discriminate]. cbv beta iota delta [bind]. destruct (fast_loop _ _ _ _) as [acts|]; [|discriminate].
  destruct acts as [|a0 acts0]; [discriminate|]. set (acts := a0 :: acts0). assert (Hne : acts <> []) by discriminate. clearbody acts.
  intros H. injection H as <-. destruct (totals_last acts 0 0 r0 Hne) as [E1 E2].
  rewrite E1, E2. pose proof (totals_sum fa_input 0 0 acts) as F1. pose proof (totals_sum fa_output 0 0 acts) as F2. cbn [fa_input fa_output] in F1, F2.
  change (fun r => rt_input r) with rt_input in F1. change (fun r => rt_output r) with rt_output in F2. rewrite F1, F2. split; ring.
Qed.

(** ** Ranking *)
Definition proper_quote (r : frate) : Prop := positive r \/ (fr_input r == 0 /\ fr_output r == 0).
Lemma unit_lt a b : positive a -> positive b -> (unit_out a < unit_out b <-> fr_output a * fr_input b < fr_output b * fr_input a).
Proof.
  intros [A1 A2] [B1 B2]. unfold unit_out. split; intros H.
  - apply (Qmult_lt_r _ _ (fr_input a * fr_input b)) in H; [|apply qmul_pos; assumption].
    setoid_replace (fr_output a / fr_input a * (fr_input a * fr_input b)) with (fr_output a * fr_input b) in H by (field; apply pos_nz; assumption).
    setoid_replace (fr_output b / fr_input b * (fr_input a * fr_input b)) with (fr_output b * fr_input a) in H by (field; apply pos_nz; assumption). assumption.
  - apply (Qmult_lt_r _ _ (fr_input a * fr_input b)); [apply qmul_pos; assumption|].
    setoid_replace (fr_output a / fr_input a * (fr_input a * fr_input b)) with (fr_output a * fr_input b) by (field; apply pos_nz; assumption).
    setoid_replace (fr_output b / fr_input b * (fr_input a * fr_input b)) with (fr_output b * fr_input a) by (field; apply pos_nz; assumption). assumption.
Qed.
(** the comparator, on positive quotes *)
Lemma cmp_spec a b : positive (fq_rate a) -> positive (fq_rate b) ->
  ((cmp_min a b < 0)%Z <-> ranks_before (fq_rate a) (fq_rate b)) /\ ((cmp_min a b > 0)%Z <-> ranks_before (fq_rate b) (fq_rate a)).
Proof.
  intros Pa Pb. unfold cmp_min, ranks_before. cbv zeta. pose proof (unit_lt _ _ Pa Pb) as U1. pose proof (unit_lt _ _ Pb Pa) as U2.
  set (ra := fq_rate a) in *. set (rb := fq_rate b) in *. clearbody ra rb. set (lhs := fr_output ra * fr_input rb) in *. set (rhs := fr_output rb * fr_input ra) in *.
  destruct (Qlt_bool lhs rhs) eqn:E1; [apply Qlt_bool_iff in E1|apply Qlt_bool_false in E1];
  (destruct (Qlt_bool rhs lhs) eqn:E2; [apply Qlt_bool_iff in E2|apply Qlt_bool_false in E2]); cbn [negb andb orb];
  try (exfalso; lra).
  - apply U1 in E1. split; split; intros H; try lia; lra.
  - apply U2 in E2. split; split; intros H; try lia; lra.
  - assert (E : unit_out ra == unit_out rb).
    { destruct (Q_dec (unit_out ra) (unit_out rb)) as [[K|K]|K]; [apply U1 in K; lra|apply U2 in K; lra|assumption]. }
    destruct (Qlt_bool (fr_output ra) (fr_output rb)) eqn:E3; [apply Qlt_bool_iff in E3|apply Qlt_bool_false in E3];
    (destruct (Qlt_bool (fr_output rb) (fr_output ra)) eqn:E4; [apply Qlt_bool_iff in E4|apply Qlt_bool_false in E4]);
    split; split; intros H; try lia; try lra.
Qed.
Lemma cmp_zero a b : proper_quote (fq_rate a) -> fr_input (fq_rate b) == 0 -> fr_output (fq_rate b) == 0 -> (cmp_min a b <= 0)%Z.
Proof.
  intros Pa B1 B2. unfold cmp_min. cbv zeta. set (ra := fq_rate a) in *. set (rb := fq_rate b) in *. clearbody ra rb.
  assert (L : fr_output ra * fr_input rb == 0) by (rewrite B1; ring). assert (R : fr_output rb * fr_input ra == 0) by (rewrite B2; ring).
  assert (Ao : 0 <= fr_output ra) by (destruct Pa as [[_ P]|[_ P]]; lra).
  destruct (Qlt_bool (fr_output ra * fr_input rb) _) eqn:E1; [apply Qlt_bool_iff in E1; lra|].
  destruct (Qlt_bool (fr_output ra) (fr_output rb)) eqn:E3; [apply Qlt_bool_iff in E3; lra|]. cbn. rewrite andb_false_r. 
  match goal with |- context [if ?b then _ else _] => destruct b end; lia.
Qed.
Lemma cmp_zero' a b : proper_quote (fq_rate a) -> fr_input (fq_rate b) == 0 -> fr_output (fq_rate b) == 0 -> positive (fq_rate a) -> (cmp_min b a > 0)%Z.
Proof.
  intros Pa B1 B2 [P1 P2]. unfold cmp_min. cbv zeta. set (ra := fq_rate a) in *. set (rb := fq_rate b) in *. clearbody ra rb.
  assert (L : fr_output ra * fr_input rb == 0) by (rewrite B1; ring). assert (R : fr_output rb * fr_input ra == 0) by (rewrite B2; ring).
  destruct (Qlt_bool (fr_output rb * fr_input ra) _) eqn:E1; [apply Qlt_bool_iff in E1; lra|].
  destruct (Qlt_bool (fr_output ra * fr_input rb) _) eqn:E2; [apply Qlt_bool_iff in E2; lra|].
  destruct (Qlt_bool (fr_output rb) (fr_output ra)) eqn:E3; [|apply Qlt_bool_false in E3; lra].
  destruct (Qlt_bool (fr_output ra) (fr_output rb)) eqn:E4; [apply Qlt_bool_iff in E4; lra|]. cbn. lia.
Qed.
Lemma ranks_trans a b c : ~ ranks_before b a -> ~ ranks_before c b -> ~ ranks_before c a.
Proof. unfold ranks_before. intros H1 H2 H3. 
  destruct (Qlt_le_dec (unit_out a) (unit_out b)) as [K|K]; [apply H1; left; assumption|].
  destruct (Qlt_le_dec (unit_out b) (unit_out c)) as [L|L]; [apply H2; left; assumption|].
  destruct H3 as [H3|[H3 H4]]; [lra|].
  destruct (Qlt_le_dec (fr_output a) (fr_output b)) as [M|M]; [apply H1; right; split; [lra|assumption]|].
  destruct (Qlt_le_dec (fr_output b) (fr_output c)) as [N|N]; [apply H2; right; split; [lra|assumption]|]. lra.
Qed.
Lemma cmp_anti a b : cmp_min b a = (- cmp_min a b)%Z.
Proof.
  unfold cmp_min. cbv zeta. set (ra := fq_rate a) in *. set (rb := fq_rate b) in *. clearbody ra rb. set (lhs := fr_output ra * fr_input rb) in *. set (rhs := fr_output rb * fr_input ra) in *.
  rewrite (andb_comm (negb (Qlt_bool lhs rhs))). 
  repeat match goal with |- context [if ?b then _ else _] => destruct b end; reflexivity.
Qed.


Lemma cmp_trans a b c : proper_quote (fq_rate a) -> proper_quote (fq_rate b) -> proper_quote (fq_rate c) ->
  (cmp_min a b <= 0 -> cmp_min b c <= 0 -> cmp_min a c <= 0)%Z.
Proof.
  intros Pa Pb Pc Hab Hbc. destruct Pc as [Pc|[C1 C2]]; [|apply cmp_zero; assumption].
  destruct Pb as [Pb|[B1 B2]].
  2:{ pose proof (cmp_zero' c b (or_introl Pc) B1 B2 Pc). lia. }
  destruct Pa as [Pa|[A1 A2]].
  2:{ pose proof (cmp_zero' b a (or_introl Pb) A1 A2 Pb). lia. }
  destruct (cmp_spec a b Pa Pb) as [_ S1]. destruct (cmp_spec b c Pb Pc) as [_ S2]. destruct (cmp_spec a c Pa Pc) as [_ S3].
  destruct (Z_lt_le_dec 0 (cmp_min a c)) as [K|K]; [|assumption]. exfalso. apply Z.lt_gt in K. apply S3 in K. revert K.
  apply (ranks_trans _ (fq_rate b)); intros X; [apply S1 in X|apply S2 in X]; lia.
Qed.
Lemma cmp_fit l : (forall q, In q l -> proper_quote (fq_rate q)) -> fit cmp_min l /\ fit cmp_max l.
Proof.
  intros H. unfold cmp_max. split; (split; [|split]).
  - intros a b _ _. rewrite (cmp_anti a b). lia.
  - intros a b _ _. rewrite (cmp_anti a b). lia.
  - intros a b c Ha Hb Hc. apply cmp_trans; apply H; assumption.
  - intros a b _ _. rewrite (cmp_anti a b). lia.
  - intros a b _ _. rewrite (cmp_anti a b). lia.
  - intros a b c Ha Hb Hc H1 H2. apply (cmp_trans c b a); try (apply H; assumption); assumption.
Qed.

(** the actions follow the order of the quotes *)
Lemma loop_order trade orders x0 : forall quotes x acts, 0 < x -> x <= x0 -> fast_loop trade orders x quotes = Some acts ->
  forall R : fquote -> fquote -> Prop, StronglySorted R quotes ->
  exists used, map fa_index acts = map fq_index used /\ StronglySorted R used /\ (forall q, In q used -> In q quotes /\ positive (fq_rate q)).
Proof.
  induction quotes as [|q qs IH]; intros x acts Hx Hx0 H R HR; cbn [fast_loop] in H.
  - injection H as <-. exists []. split; [reflexivity|]. split; [constructor|]. intros q [].
  - inversion HR as [|? ? HR1 HR2]; subst.
    destruct (Qlt_bool (fr_input (fq_rate q)) x) eqn:E1; [|destruct (Qeq_bool x (fr_input (fq_rate q))) eqn:E2]; destruct (fast_filter (fq_rate q)) eqn:F.
    all: try (destruct (IH x acts Hx Hx0 H R HR1) as (used & U1 & U2 & U3); exists used; split; [assumption|]; split; [assumption|];
      intros q' Hq'; destruct (U3 q' Hq'); split; [right; assumption|assumption]; fail).
    + apply Qlt_bool_iff in E1. apply filter_pos in F. destruct (fast_loop _ _ _ qs) as [rest|] eqn:El; [|discriminate]. injection H as <-.
      destruct (IH (x - fr_input (fq_rate q)) rest) with (R := R) as (used & U1 & U2 & U3); [lra|destruct F; lra|assumption|assumption|].
      exists (q :: used). split; [cbn; f_equal; assumption|]. split.
      * constructor; [assumption|]. rewrite Forall_forall in *. intros q' Hq'. apply HR2. apply (U3 q' Hq').
      * intros q' [<-|Hq']; [split; [left; reflexivity|assumption]|]. destruct (U3 q' Hq'). split; [right; assumption|assumption].
    + injection H as <-. exists [q]. split; [reflexivity|]. split; [repeat constructor|]. intros q' [<-|[]]. split; [left; reflexivity|apply filter_pos; assumption].
    + destruct (nth_error orders (fq_index q)) as [o|] eqn:Eo; [|discriminate]. cbv beta iota delta [bind] in H. destruct (trade x o); [|discriminate].
      injection H as <-. exists [q]. split; [reflexivity|]. split; [repeat constructor|]. intros q' [<-|[]]. split; [left; reflexivity|apply filter_pos; assumption].
Qed.
Lemma sorted_nth {A} (R : A -> A -> Prop) l i j a b : StronglySorted R l -> (i < j)%nat -> nth_error l i = Some a -> nth_error l j = Some b -> R a b.
Proof.
  intros S. revert i j. induction S as [|c l S IH F]; intros i j L Hi Hj; [destruct i; discriminate|].
  destruct i as [|i]; destruct j as [|j]; try lia; cbn in *.
  - injection Hi as ->. rewrite Forall_forall in F. apply F. eapply nth_error_In; eassumption.
  - apply (IH i j); [lia|assumption|assumption].
Qed.
Lemma match_ranked sort trade cmp orders x routes i j a b : perm_sort sort -> sorts sort -> (forall x o r, x == 0 -> trade x o = Some r -> ~ positive r) ->
  (forall l, (forall q, In q l -> proper_quote (fq_rate q)) -> fit cmp l) ->
  (forall o r, In o orders -> trade (Qabs x) o = Some r -> proper_quote r) ->
  fast_match sort trade cmp orders x = Some routes -> (i < j)%nat -> nth_error routes i = Some a -> nth_error routes j = Some b ->
  exists oa ob qa qb, nth_error orders (rt_index a) = Some oa /\ nth_error orders (rt_index b) = Some ob /\
    trade (Qabs x) oa = Some (fq_rate qa) /\ trade (Qabs x) ob = Some (fq_rate qb) /\ positive (fq_rate qa) /\ positive (fq_rate qb) /\ (cmp qa qb <= 0)%Z.
Proof.
  intros Hs Hso Hz Hfit Hp H Hij Hi Hj. destruct (match_acts _ _ _ _ _ _ Hs Hz H) as (_ & _ & _ & _ & HX & _).
  unfold fast_match in H. cbv zeta in H. set (X := Qabs x) in *.
  destruct (fast_quotes trade X orders) as [qs|] eqn:Eq; [|discriminate]. cbv beta iota delta [bind] in H.
  destruct (quotes_spec _ _ _ _ Eq) as [Qi Qt].
  destruct (fast_loop trade orders X (sort cmp qs)) as [acts|] eqn:El; [|discriminate].
  assert (Er : routes = fast_totals 0 0 acts) by (destruct acts; [discriminate|injection H as <-; reflexivity]).
  destruct (loop_order _ _ X _ _ _ HX (Qle_refl _) El _ (Hso cmp qs (Hfit qs ltac:(intros q Hq; destruct (Qt q Hq) as (o & Eo & Et); eapply Hp; [eapply nth_error_In|]; eassumption)))) as (used & U1 & U2 & U3).
  assert (Ei : map rt_index routes = map fq_index used) by (rewrite Er, totals_index; assumption).
  assert (K : forall k r, nth_error routes k = Some r -> exists q, nth_error used k = Some q /\ fq_index q = rt_index r).
  { intros k r Hk. assert (M : nth_error (map rt_index routes) k = Some (rt_index r)) by (rewrite nth_error_map, Hk; reflexivity).
    rewrite Ei, nth_error_map in M. destruct (nth_error used k) as [q|]; [|discriminate]. injection M as M. eauto. }
  destruct (K i a Hi) as (qa & Ha1 & Ha2). destruct (K j b Hj) as (qb & Hb1 & Hb2).
  destruct (U3 qa ltac:(eapply nth_error_In; eassumption)) as [Ia Pa]. destruct (U3 qb ltac:(eapply nth_error_In; eassumption)) as [Ib Pb].
  apply (Permutation_in _ (Hs cmp qs)) in Ia. apply (Permutation_in _ (Hs cmp qs)) in Ib.
  destruct (Qt qa Ia) as (oa & Eoa & Eta). destruct (Qt qb Ib) as (ob & Eob & Etb).
  exists oa, ob, qa, qb. rewrite <- Ha2, <- Hb2. repeat (split; [assumption|]). apply (sorted_nth _ _ i j _ _ U2 Hij Ha1 Hb1).
Qed.
