From Coq Require Import ZArith QArith Qabs Qround List Bool Lia Lqa Permutation Setoid.
From Verif Require Import TradeModel PairModel PairProofs SimModel MatchModel SimSpec SimProofs SimProofs7 SimProofs8 FastModel FastSpec FastProofs.
Import ListNotations.
Local Open Scope Q_scope.

(** ** The quotes *)
Lemma mapM_spec {A B} (f : A -> option B) l bs : mapM f l = Some bs <-> Forall2 (fun a b => f a = Some b) l bs.
Proof.
  revert bs. induction l as [|a l IH]; intros bs; cbn.
  - split; [intros H; injection H as <-; constructor|intros H; inversion H; reflexivity].
  - split.
    + destruct (f a) as [b|] eqn:E; [|discriminate]. cbv beta iota delta [bind]. destruct (mapM f l) as [bs'|] eqn:E2; [|discriminate].
      intros H. injection H as <-. constructor; [assumption|]. apply IH. reflexivity.
    + intros H. inversion H as [|? b ? bs' H1 H2]; subst. rewrite H1. cbv beta iota delta [bind]. apply IH in H2. rewrite H2. reflexivity.
Qed.
Lemma combine_seq_nth {A} (l : list A) n i a : In (i, a) (combine (seq n (length l)) l) -> (n <= i)%nat /\ nth_error l (i - n) = Some a.
Proof.
  revert n. induction l as [|b l IH]; intros n H; cbn in H; [contradiction|]. destruct H as [H|H].
  - injection H as -> ->. split; [lia|]. rewrite Nat.sub_diag. reflexivity.
  - apply IH in H as [H1 H2]. split; [lia|]. replace (i - n)%nat with (S (i - S n)) by lia. exact H2.
Qed.
Lemma quotes_spec trade x orders qs : fast_quotes trade x orders = Some qs ->
  map fq_index qs = seq 0 (length orders) /\
  forall q, In q qs -> exists o, nth_error orders (fq_index q) = Some o /\ trade x o = Some (fq_rate q).
Proof.
  unfold fast_quotes. rewrite mapM_spec. intros H. split.
  - assert (G : forall (l : list (nat * forder)) qs, Forall2 (fun a b => (do r <- trade x (snd a); Some (mkFquote (fst a) r)) = Some b) l qs -> map fq_index qs = map fst l).
    { induction 1 as [|io q l qs' H1 H2 IH]; [reflexivity|]. cbn. rewrite IH. f_equal. destruct (trade x (snd io)); [|discriminate]. injection H1 as <-. reflexivity. }
    rewrite (G _ _ H). clear. generalize 0%nat. induction orders as [|o l IH]; intros n; [reflexivity|]. cbn. rewrite IH. reflexivity.
  - intros q Hq. assert (K : exists io, In io (combine (seq 0 (length orders)) orders) /\ (do r <- trade x (snd io); Some (mkFquote (fst io) r)) = Some q).
    { clear -H Hq. induction H as [|io q' l qs' H1 H2 IH]; [contradiction|]. destruct Hq as [->|Hq]; [exists io; split; [left; reflexivity|assumption]|].
      destruct (IH Hq) as (io' & I1 & I2). exists io'. split; [right; assumption|assumption]. }
    destruct K as ((i & o) & Hin & E). cbn in E. destruct (trade x o) as [r|] eqn:Et; [|discriminate]. injection E as <-. cbn.
    apply combine_seq_nth in Hin as [_ Hn]. rewrite Nat.sub_0_r in Hn. eauto.
Qed.
Lemma quotes_total trade x orders : (forall o, In o orders -> exists r, trade x o = Some r) -> exists qs, fast_quotes trade x orders = Some qs.
Proof.
  intros H. unfold fast_quotes. assert (G : forall l n, (forall o, In o l -> exists r, trade x o = Some r) ->
    exists qs, Forall2 (fun (a : nat * forder) b => (do r <- trade x (snd a); Some (mkFquote (fst a) r)) = Some b) (combine (seq n (length l)) l) qs).
  { clear. induction l as [|o l IH]; intros n H; [exists []; constructor|]. destruct (H o (or_introl eq_refl)) as [r E].
    destruct (IH (S n)) as [qs Q]; [intros o' Ho'; apply H; right; assumption|]. exists (mkFquote n r :: qs).
    cbn [length seq combine]. constructor; [|assumption]. cbn [fst snd]. rewrite E. reflexivity. }
  destruct (G orders 0%nat H) as [qs Q]. exists qs. apply mapM_spec. exact Q.
Qed.

(** ** The loop: facts that need nothing about the orders *)
Lemma filter_pos r : fast_filter r = true <-> positive r.
Proof. unfold fast_filter, positive. rewrite andb_true_iff, !Qlt_bool_iff. reflexivity. Qed.
(** every action is a quote in full, or the last one is a smaller trade on a positive quote *)
Lemma loop_acts trade orders x0 : forall quotes x acts, 0 < x -> x <= x0 -> fast_loop trade orders x quotes = Some acts ->
  (exists l, Permutation (map fa_index acts ++ l) (map fq_index quotes)) /\
  forall a, In a acts -> exists q, In q quotes /\ fq_index q = fa_index a /\ positive (fq_rate q) /\
    (fa_input a = fr_input (fq_rate q) /\ fa_output a = fr_output (fq_rate q) \/
     0 < fa_input a /\ fa_input a < fr_input (fq_rate q) /\ fa_input a <= x0 /\
     exists o t, nth_error orders (fq_index q) = Some o /\ trade (fa_input a) o = Some t /\ fa_output a = fr_output t).
Proof.
  induction quotes as [|q qs IH]; intros x acts Hx Hx0 H; cbn [fast_loop] in H.
  - injection H as <-. split; [exists []; constructor|]. intros a [].
  - destruct (Qlt_bool (fr_input (fq_rate q)) x) eqn:E1; [|destruct (Qeq_bool x (fr_input (fq_rate q))) eqn:E2]; destruct (fast_filter (fq_rate q)) eqn:F.
    all: try (destruct (IH x acts Hx Hx0 H) as [(l & P) Q]; split;
      [exists (fq_index q :: l); cbn; rewrite <- P; symmetry; apply Permutation_middle|
       intros a Ha; destruct (Q a Ha) as (q' & I & R); exists q'; split; [right; assumption|assumption]]; fail).
    + apply Qlt_bool_iff in E1. apply filter_pos in F. destruct (fast_loop _ _ _ qs) as [rest|] eqn:El; [|discriminate]. injection H as <-.
      destruct (IH (x - fr_input (fq_rate q)) rest) as [(l & P) Q]; [lra|destruct F; lra|assumption|]. split.
      * exists l. cbn. apply perm_skip. assumption.
      * intros a [<-|Ha]; [exists q; cbn; split; [left; reflexivity|]; auto|].
        destruct (Q a Ha) as (q' & I & R). exists q'. split; [right; assumption|assumption].
    + injection H as <-. apply filter_pos in F. split.
      * exists (map fq_index qs). cbn. reflexivity.
      * intros a [<-|[]]. exists q. cbn. split; [left; reflexivity|]. auto.
    + apply filter_pos in F. apply Qlt_bool_false in E1.
      destruct (nth_error orders (fq_index q)) as [o|] eqn:Eo; [|discriminate]. cbv beta iota delta [bind] in H.
      destruct (trade x o) as [t|] eqn:Et; [|discriminate]. injection H as <-. split.
      * exists (map fq_index qs). cbn. reflexivity.
      * intros a [<-|[]]. exists q. cbn. split; [left; reflexivity|]. split; [reflexivity|]. split; [assumption|]. right.
        split; [assumption|]. split.
        { destruct (Qlt_le_dec x (fr_input (fq_rate q))) as [L|L]; [assumption|]. exfalso.
          assert (X : x == fr_input (fq_rate q)) by lra. apply Qeq_bool_iff in X. congruence. }
        split; [assumption|]. eauto 6.
Qed.
(** nothing happens for x = 0 *)
Lemma loop_zero trade orders : forall quotes x acts, x <= 0 -> (forall q, In q quotes -> ~ positive (fq_rate q)) ->
  fast_loop trade orders x quotes = Some acts -> acts = [].
Proof.
  induction quotes as [|q qs IH]; intros x acts Hx Hq H; cbn [fast_loop] in H; [injection H as <-; reflexivity|].
  assert (F : fast_filter (fq_rate q) = false). { destruct (fast_filter _) eqn:F; [|reflexivity]. apply filter_pos in F. destruct (Hq q (or_introl eq_refl) F). }
  rewrite F in H. assert (R : fast_loop trade orders x qs = Some acts) by (destruct (Qlt_bool _ _); [|destruct (Qeq_bool _ _)]; assumption).
  apply (IH x acts Hx); [|assumption]. intros q' Hq'. apply Hq. right. assumption.
Qed.

(** ** The totals *)
Lemma totals_routes tin tout acts : map (fun r => mkFaction (rt_index r) (rt_input r) (rt_output r)) (fast_totals tin tout acts) = acts.
Proof. revert tin tout. induction acts as [|a acts IH]; intros tin tout; [reflexivity|]. cbn. rewrite IH. destruct a; reflexivity. Qed.
Lemma totals_last acts : forall tin tout r0, acts <> [] ->
  rt_total_input (last (fast_totals tin tout acts) r0) == tin + qsum fa_input acts /\
  rt_total_output (last (fast_totals tin tout acts) r0) == - (tout + qsum fa_output acts).
Proof.
  induction acts as [|a acts IH]; intros tin tout r0 H; [contradiction|]. destruct acts as [|b acts].
  - cbn. split; ring.
  - specialize (IH (tin + fa_input a) (tout + fa_output a) r0). destruct IH as [I1 I2]; [discriminate|].
    change (last (fast_totals tin tout (a :: b :: acts)) r0) with (last (fast_totals (tin + fa_input a) (tout + fa_output a) (b :: acts)) r0).
    rewrite I1, I2. cbn [qsum]. split; ring.
Qed.
Lemma totals_index tin tout acts : map rt_index (fast_totals tin tout acts) = map fa_index acts.
Proof. revert tin tout. induction acts as [|a acts IH]; intros; [reflexivity|]. cbn. rewrite IH. reflexivity. Qed.
Lemma totals_In tin tout acts r : In r (fast_totals tin tout acts) -> In (mkFaction (rt_index r) (rt_input r) (rt_output r)) acts.
Proof. intros H. rewrite <- (totals_routes tin tout acts). apply (in_map (fun r => mkFaction (rt_index r) (rt_input r) (rt_output r))) in H. exact H. Qed.
Lemma totals_sum (f : faction -> Q) tin tout acts : qsum (fun r => f (mkFaction (rt_index r) (rt_input r) (rt_output r))) (fast_totals tin tout acts) = qsum f acts.
Proof. revert tin tout. induction acts as [|a acts IH]; intros; [reflexivity|]. cbn. rewrite IH. destruct a; reflexivity. Qed.

Lemma NoDup_app_l {A} (l l' : list A) : NoDup (l ++ l') -> NoDup l.
Proof.
  induction l as [|a l IH]; intros H; [constructor|]. inversion H as [|? ? N H']; subst. constructor; [|apply IH; assumption].
  intros I. apply N. apply in_or_app. left. assumption.
Qed.

(** ** Facts about every routing, whatever the orders *)


Lemma match_acts sort trade cmp orders x routes : perm_sort sort -> (forall x o r, x == 0 -> trade x o = Some r -> ~ positive r) ->
  fast_match sort trade cmp orders x = Some routes ->
  exists acts, acts <> [] /\ routes = fast_totals 0 0 acts /\ NoDup (map fa_index acts) /\ 0 < Qabs x /\
  forall a, In a acts -> exists o r, nth_error orders (fa_index a) = Some o /\ trade (Qabs x) o = Some r /\ positive r /\
    (fa_input a = fr_input r /\ fa_output a = fr_output r \/
     0 < fa_input a /\ fa_input a < fr_input r /\ fa_input a <= Qabs x /\ exists t, trade (fa_input a) o = Some t /\ fa_output a = fr_output t).
Proof.
  intros Hs Hz H. unfold fast_match in H. cbv zeta in H. set (X := Qabs x) in *.
  destruct (fast_quotes trade X orders) as [qs|] eqn:Eq; [|discriminate]. cbv beta iota delta [bind] in H.
  destruct (quotes_spec _ _ _ _ Eq) as [Qi Qt].
  destruct (fast_loop trade orders X (sort cmp qs)) as [acts|] eqn:El; [|discriminate].
  destruct acts as [|a0 acts0]; [discriminate|]. set (acts := a0 :: acts0) in *. injection H as <-.
  assert (Hin : forall q, In q (sort cmp qs) <-> In q qs) by (intros q; split; apply Permutation_in; [|symmetry]; apply Hs).
  assert (HX : 0 < X).
  { destruct (Qlt_le_dec 0 X) as [L|L]; [assumption|]. exfalso. assert (E : acts = []).
    { apply (loop_zero trade orders (sort cmp qs) X acts L); [|assumption]. intros q Hq. apply Hin in Hq. destruct (Qt q Hq) as (o & _ & E).
      apply (Hz X o _ ltac:(pose proof (Qabs_nonneg x); unfold X in *; lra) E). }
    discriminate E. }
  destruct (loop_acts trade orders X (sort cmp qs) X acts HX (Qle_refl _) El) as [(l & P) Q].
  exists acts. split; [discriminate|]. split; [reflexivity|]. split; [|split; [assumption|]].
  - assert (N : NoDup (map fa_index acts ++ l)).
    { apply (Permutation_NoDup (l := map fq_index qs)); [|rewrite Qi; apply seq_NoDup].
      symmetry. rewrite P. apply Permutation_map. apply Hs. }
    apply NoDup_app_l in N. exact N.
  - intros a Ha. destruct (Q a Ha) as (q & Hq & Ei & Hp & D). apply Hin in Hq. destruct (Qt q Hq) as (o & Eo & Et).
    exists o, (fq_rate q). rewrite <- Ei. split; [assumption|]. split; [assumption|]. split; [assumption|].
    destruct D as [D|(D1 & D2 & D3 & o' & t & Eo' & D4 & D5)]; [left; assumption|right].
    assert (o' = o) by congruence. subst o'. eauto 6.
Qed.

(** ** Positive outputs, whatever the parameters of the orders *)
Lemma quote_target_zero x o r : x == 0 -> quote_by_target false x o = Some r -> ~ positive r.
Proof.
  intros Hx H. unfold quote_by_target in H. cbv zeta in H. destruct (amt_by_src _ _ _); [|discriminate]. injection H as <-. intros [P _]. cbn in P.
  rewrite pymin_qmin in P. pose proof (qmin_l x (fo_y o)). lra.
Qed.
Lemma target_inv o x t : amt_by_target false o x = Some t ->
  ~ fo_A o * x * rate_at o (fo_y o) + fo_z o * fo_z o == 0 /\ t == x * (rate_at o (fo_y o) * rate_at o (fo_y o)) / (fo_A o * x * rate_at o (fo_y o) + fo_z o * fo_z o).
Proof.
  unfold amt_by_target, mul_div_f, fast_one. rewrite (qdiv_some _ 1) by discriminate. cbv beta iota delta [bind]. cbv zeta.
  intros H. apply qdiv_inv in H as [-> D]. unfold rate_at. destruct o as [y z A B]; cbn [fo_y fo_z fo_A fo_B] in *.
  assert (E : (y * A + z * B) * x / 1 * A + z * z * 1 == A * x * (A * y + B * z) + z * z) by field.
  rewrite E in D. split; [assumption|]. rewrite E. field. assumption.
Qed.
Lemma src_inv o x t : amt_by_src false o x = Some t ->
  ~ rate_at o (fo_y o) * rate_at o (fo_y o - x) == 0 /\ t == x * (fo_z o * fo_z o) / (rate_at o (fo_y o) * rate_at o (fo_y o - x)).
Proof.
  unfold amt_by_src, mul_div_c, fast_one. cbv zeta.
  intros H. apply qdiv_inv in H as [-> D]. unfold rate_at. destruct o as [y z A B]; cbn [fo_y fo_z fo_A fo_B] in *.
  assert (E : (y * A + z * B) * (y * A + z * B - x * A) == (A * y + B * z) * (A * (y - x) + B * z)) by ring.
  rewrite E in D. split; [assumption|]. rewrite E. apply Qdiv_comp; [ring|reflexivity].
Qed.
Lemma quote_source_zero x o r : x == 0 -> quote_by_source false x o = Some r -> ~ positive r.
Proof.
  intros Hx H. unfold quote_by_source in H. destruct (amt_by_target false o x) as [t|] eqn:E; [|discriminate]. cbv beta iota delta [bind] in H.
  destruct (amt_by_src _ _ _); [|discriminate]. injection H as <-. intros [_ P]. cbn in P.
  apply target_inv in E as [D E]. assert (T : t == 0).
  { assert (N : x * (rate_at o (fo_y o) * rate_at o (fo_y o)) == 0) by (rewrite Hx; ring). rewrite E, N. unfold Qdiv. apply Qmult_0_l. }
  rewrite pymin_qmin in P. pose proof (qmin_l t (fo_y o)). lra.
Qed.
Lemma div_pos_iff a b : 0 < a -> ~ b == 0 -> (0 < a / b <-> 0 < b).
Proof.
  intros Ha Hb. split; intros H; [|apply qdiv_pos_pos; assumption].
  destruct (Qlt_le_dec 0 b) as [L|L]; [assumption|]. exfalso. assert (N : b < 0) by (apply Qle_lteq in L as [L|L]; [assumption|contradiction]).
  assert (M : 0 < a / b * (a / b) * b) .
  { setoid_replace (a / b * (a / b) * b) with (a * (a / b)) by (field; assumption). apply qmul_pos; assumption. }
  pose proof (qmul_pos _ _ (qmul_pos _ _ H H) ltac:(instantiate (1 := -b); lra)). lra.
Qed.
(** by target: a smaller trade on an order that quotes a positive rate has positive output *)
Lemma target_partial o X r x t : 0 < x -> x <= X -> quote_by_target false X o = Some r -> positive r -> x < fr_input r ->
  quote_by_target false x o = Some t -> fr_input t = x /\ 0 < fr_output t /\ fr_input r <= fo_y o.
Proof.
  intros Hx HX H P L H'. unfold quote_by_target in H, H'. cbv zeta in H, H'.
  destruct (amt_by_src false o (pymin X (fo_y o))) as [v|] eqn:E; [|discriminate]. injection H as <-.
  destruct (amt_by_src false o (pymin x (fo_y o))) as [v'|] eqn:E'; [|discriminate]. injection H' as <-. destruct P as [P1 P2]. cbn [fr_input fr_output] in *.
  set (m := pymin X (fo_y o)) in *. assert (Hm : m <= fo_y o) by (unfold m; rewrite pymin_qmin; apply qmin_r).
  assert (Ex : pymin x (fo_y o) = x). { unfold pymin. destruct (Qlt_bool (fo_y o) x) eqn:Q; [|reflexivity]. apply Qlt_bool_iff in Q. lra. }
  rewrite Ex in *. split; [reflexivity|]. split; [|assumption].
  apply src_inv in E as [D E]. apply src_inv in E' as [D' E']. rewrite E in P2. rewrite E'.
  assert (Z2 : ~ fo_z o == 0). { intros Z0. assert (Y : m * (fo_z o * fo_z o) / (rate_at o (fo_y o) * rate_at o (fo_y o - m)) == 0). { assert (N : m * (fo_z o * fo_z o) == 0) by (rewrite Z0; ring). rewrite N. unfold Qdiv. apply Qmult_0_l. } lra. }
  assert (ZZ : 0 < fo_z o * fo_z o). { destruct (Qlt_le_dec 0 (fo_z o)) as [K|K]; [apply qmul_pos; assumption|]. pose proof (qmul_pos (- fo_z o) (- fo_z o)) as M.
    assert (N : fo_z o < 0) by (apply Qle_lteq in K as [K|K]; [assumption|contradiction]). specialize (M ltac:(lra) ltac:(lra)). lra. }
  apply (proj1 (div_pos_iff _ _ (qmul_pos _ _ P1 ZZ) D)) in P2. apply (proj2 (div_pos_iff _ _ (qmul_pos _ _ Hx ZZ) D')).
  (* T * (T - A m) > 0 and x < m give T * (T - A x) > 0 *)
  assert (X1 : forall d, rate_at o (fo_y o - d) == rate_at o (fo_y o) - fo_A o * d) by (intros d; unfold rate_at; ring).
  rewrite X1 in *. set (T := rate_at o (fo_y o)) in *. clearbody T.
  assert (TT : 0 <= T * T) by (destruct (Qlt_le_dec 0 T); [apply qmul_nonneg; lra|pose proof (qmul_nonneg (-T) (-T) ltac:(lra) ltac:(lra)); lra]).
  (* m * (T (T - A x)) = x (T (T - A m)) + (m - x) T^2 *)
  pose proof (qmul_pos _ _ Hx P2). pose proof (qmul_nonneg (m - x) _ ltac:(lra) TT).
  destruct (Qlt_le_dec 0 (T * (T - fo_A o * x))) as [K|K]; [assumption|]. pose proof (qmul_nonneg m (- (T * (T - fo_A o * x))) ltac:(lra) ltac:(lra)). lra.
Qed.

Lemma sq_nonneg a : 0 <= a * a.
Proof. destruct (Qlt_le_dec 0 a); [apply qmul_nonneg; lra|pose proof (qmul_nonneg (-a) (-a) ltac:(lra) ltac:(lra)); lra]. Qed.
Lemma pymin_r a b : pymin a b <= b.
Proof. rewrite pymin_qmin. apply qmin_r. Qed.
Lemma source_partial o X r x t : 0 < x -> x <= X -> quote_by_source false X o = Some r -> positive r -> 
  quote_by_source false x o = Some t -> 0 < fr_output t.
Proof.
  intros Hx HX H P H'. unfold quote_by_source in H, H'.
  destruct (amt_by_target false o X) as [u|] eqn:E; [|discriminate]. destruct (amt_by_target false o x) as [v|] eqn:E'; [|discriminate].
  cbv beta iota zeta delta [bind] in H, H'. destruct (amt_by_src false o (pymin u (fo_y o))); [|discriminate]. injection H as <-.
  destruct (amt_by_src false o (pymin v (fo_y o))); [|discriminate]. injection H' as <-. destruct P as [_ P]. cbn [fr_output] in *.
  assert (U : 0 < u) by (rewrite pymin_qmin in P; pose proof (qmin_l u (fo_y o)); lra).
  assert (Y : 0 < fo_y o) by (rewrite pymin_qmin in P; pose proof (qmin_r u (fo_y o)); lra).
  enough (V : 0 < v) by (rewrite pymin_qmin; destruct (qmin_cases v (fo_y o)) as [[-> _]|[-> _]]; assumption).
  apply target_inv in E as [D E]. apply target_inv in E' as [D' E']. rewrite E in U. rewrite E'. set (T := rate_at o (fo_y o)) in *. clearbody T.
  pose proof (sq_nonneg T) as TT. apply Qle_lteq in TT as [TT|TT].
  2:{ exfalso. assert (Z0 : T * T == 0) by lra. assert (N : X * (T * T) == 0) by (rewrite Z0; ring). rewrite N in U. unfold Qdiv in U. rewrite Qmult_0_l in U. lra. }
  assert (X0 : 0 < X) by lra.
  apply (proj1 (div_pos_iff _ _ (qmul_pos _ _ X0 TT) D)) in U. apply (proj2 (div_pos_iff _ _ (qmul_pos _ _ Hx TT) D')).
  pose proof (qmul_pos _ _ Hx U). pose proof (qmul_nonneg (X - x) _ ltac:(lra) (sq_nonneg (fo_z o))).
  destruct (Qlt_le_dec 0 (fo_A o * x * T + fo_z o * fo_z o)) as [K|K]; [assumption|]. pose proof (qmul_nonneg X (- (fo_A o * x * T + fo_z o * fo_z o)) ltac:(lra) ltac:(lra)). lra.
Qed.
Lemma source_out o x r : quote_by_source false x o = Some r -> fr_output r <= fo_y o.
Proof.
  intros H. unfold quote_by_source in H. destruct (amt_by_target _ _ _); [|discriminate]. cbv beta iota zeta delta [bind] in H.
  destruct (amt_by_src _ _ _); [|discriminate]. injection H as <-. apply pymin_r.
Qed.
Lemma target_in o x r : quote_by_target false x o = Some r -> fr_input r <= fo_y o.
Proof. intros H. unfold quote_by_target in H. cbv zeta in H. destruct (amt_by_src _ _ _); [|discriminate]. injection H as <-. apply pymin_r. Qed.

(** what holds of the routes for any orders at all *)
Definition sane_routes (by_target : bool) (orders : list forder) (routes : list route) : Prop :=
  routes <> [] /\ NoDup (map rt_index routes) /\
  (forall r, In r routes -> exists o, nth_error orders (rt_index r) = Some o /\ 0 < rt_input r /\ 0 < rt_output r /\
    (if by_target then rt_input r else rt_output r) <= fo_y o) /\
  (forall r0, rt_total_input (last routes r0) == qsum rt_input routes /\ rt_total_output (last routes r0) == - qsum rt_output routes).

Lemma totals_sane b orders acts : acts <> [] -> NoDup (map fa_index acts) ->
  (forall a, In a acts -> exists o, nth_error orders (fa_index a) = Some o /\ 0 < fa_input a /\ 0 < fa_output a /\ (if b : bool then fa_input a else fa_output a) <= fo_y o) ->
  sane_routes b orders (fast_totals 0 0 acts).
Proof.
  intros H1 H2 H3. split; [|split; [|split]].
  - destruct acts; [contradiction|discriminate].
  - rewrite totals_index. assumption.
  - intros r Hr. apply totals_In in Hr. exact (H3 _ Hr).
  - intros r0. destruct (totals_last acts 0 0 r0 H1) as [E1 E2]. rewrite E1, E2.
    pose proof (totals_sum fa_input 0 0 acts) as F1. pose proof (totals_sum fa_output 0 0 acts) as F2. cbn [fa_input fa_output] in F1, F2.
    change (fun r => rt_input r) with rt_input in F1. change (fun r => rt_output r) with rt_output in F2. rewrite F1, F2. split; ring.
Qed.
Lemma source_sane sort orders x routes : perm_sort sort -> match_by_src sort false orders x = Some routes -> sane_routes false orders routes.
Proof.
  intros Hs H. unfold match_by_src in H. destruct (match_acts _ _ _ _ _ _ Hs quote_source_zero H) as (acts & Hne & -> & Hnd & Hx & Ha).
  apply totals_sane; [assumption|assumption|]. intros a Hin. destruct (Ha a Hin) as (o & r & Eo & Et & Hp & D). exists o. split; [assumption|].
  destruct D as [[E1 E2]|(D1 & D2 & D3 & t & Et' & E2)].
  - rewrite E1, E2. destruct Hp as [Hp1 Hp2]. split; [assumption|]. split; [assumption|]. apply (source_out _ _ _ Et).
  - rewrite E2. split; [assumption|]. split; [|apply (source_out _ _ _ Et')]. eapply source_partial; [| |exact Et|assumption|exact Et']; assumption.
Qed.
Lemma target_sane sort orders x routes : perm_sort sort -> match_by_target sort false orders x = Some routes -> sane_routes true orders routes.
Proof.
  intros Hs H. unfold match_by_target in H. destruct (match_acts _ _ _ _ _ _ Hs quote_target_zero H) as (acts & Hne & -> & Hnd & Hx & Ha).
  apply totals_sane; [assumption|assumption|]. intros a Hin. destruct (Ha a Hin) as (o & r & Eo & Et & Hp & D). exists o. split; [assumption|].
  destruct D as [[E1 E2]|(D1 & D2 & D3 & t & Et' & E2)].
  - rewrite E1, E2. destruct Hp as [Hp1 Hp2]. split; [assumption|]. split; [assumption|]. apply (target_in _ _ _ Et).
  - rewrite E2. destruct (target_partial _ _ _ _ _ D1 D3 Et Hp D2 Et') as (P1 & P2 & P3). split; [assumption|]. split; [assumption|]. lra.
Qed.
