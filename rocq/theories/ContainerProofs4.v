(** Growth of containers, the token table and concentration measures. *)
From Coq Require Import Reals Lra Bool List String Arith Lia.
From Verif Require Import CurveModel CurveProofs CpcModel CpcProofs ContainerModel ContainerSpec ContainerProofs ContainerProofs2 ContainerProofs3.
Import ListNotations.
Local Open Scope R_scope.

Lemma run_snoc l a : run (l ++ [a]) = act (run l) a.
Proof. unfold run. rewrite fold_left_app. reflexivity. Qed.
Lemma nth_put {A} (l : list A) i a j : nth_error (put l i a) j = if Nat.eqb j i then match nth_error l i with Some _ => Some a | None => None end else nth_error l j.
Proof.
  revert i j. induction l as [|b l IH]; intros i j.
  - cbn [put]. destruct i, j; cbn [nth_error Nat.eqb]; try reflexivity. destruct (Nat.eqb j i); reflexivity.
  - destruct i, j; cbn [put nth_error Nat.eqb]; try reflexivity. apply IH.
Qed.
Lemma grows_deref h h' r : grows h h' -> named h r -> deref h' r = deref h r.
Proof. intros [_ G] [L N]. apply (G r L), N. Qed.
Lemma run_append l a i cc : nth_error (w_ccs (run l)) i = Some cc ->
  exists cc' more, nth_error (w_ccs (run (l ++ [a]))) i = Some cc' /\ curves cc' = (curves cc ++ more)%list /\
    forall r, In r (curves cc) -> deref (w_heap (run (l ++ [a]))) r = deref (w_heap (run l)) r.
Proof.
  intros H. rewrite run_snoc. assert (G := run_good l cc (nth_error_In _ _ H)). assert (AG : forall dd, In dd (w_ccs (run l)) -> good (w_heap (run l)) dd) by (intros dd; apply run_good).
  assert (SAME : exists cc' more, nth_error (w_ccs (run l)) i = Some cc' /\ curves cc' = (curves cc ++ more)%list /\ forall r, In r (curves cc) -> deref (w_heap (run l)) r = deref (w_heap (run l)) r).
  { exists cc, []. rewrite app_nil_r. repeat split. exact H. }
  set (w := run l) in *. clearbody w. destruct G as [N _].
  assert (ADD : forall j dd m, nth_error (w_ccs w) j = Some dd -> (forall r, In r m -> (r < List.length (w_heap w))%nat) ->
    let '(h, dd') := add_curves (w_heap w) dd m in
    exists cc' more, nth_error (put (w_ccs w) j dd') i = Some cc' /\ curves cc' = (curves cc ++ more)%list /\ forall r, In r (curves cc) -> deref h r = deref (w_heap w) r).
  { intros j dd m Hj V. pose proof (adds_good m (w_heap w) dd (AG dd (nth_error_In _ _ Hj)) V) as A. destruct (add_curves (w_heap w) dd m) as [h dd']. destruct A as (Gr & Gd & C & _).
    rewrite nth_put, Hj. destruct (Nat.eqb i j) eqn:E.
    - apply Nat.eqb_eq in E. subst j. rewrite H in Hj. injection Hj as <-. exists dd', m. split; [reflexivity|]. split; [exact C|]. intros r I1. apply grows_deref; [exact Gr|apply N, I1].
    - exists cc, []. rewrite app_nil_r. split; [exact H|]. split; [reflexivity|]. intros r I1. apply grows_deref; [exact Gr|apply N, I1]. }
  destruct a as [c|m|j m|j j']; cbn [act].
  - destruct (constructible c); [|exact SAME]. cbn [w_heap w_ccs]. exists cc, []. rewrite app_nil_r. split; [exact H|]. split; [reflexivity|]. intros r I1. unfold deref. apply app_nth1. apply N, I1.
  - destruct (valid_refs (w_heap w) m) eqn:V; [|exact SAME]. pose proof (new_good (w_heap w) m V) as A. destruct (new_container (w_heap w) m) as [h dd]. destruct A as (Gr & _).
    cbn [w_heap w_ccs]. exists cc, []. rewrite app_nil_r. split; [rewrite nth_error_app1; [exact H|apply nth_error_Some; congruence]|]. split; [reflexivity|]. intros r I1. apply grows_deref; [exact Gr|apply N, I1].
  - destruct (nth_error (w_ccs w) j) as [dd|] eqn:Hj; [|exact SAME]. destruct (valid_refs (w_heap w) m) eqn:V; [|exact SAME].
    specialize (ADD j dd m Hj (proj1 (valid_iff _ _) V)). destruct (add_curves (w_heap w) dd m) as [h dd']. exact ADD.
  - destruct (nth_error (w_ccs w) j) as [dd|] eqn:Hj; [|exact SAME]. destruct (nth_error (w_ccs w) j') as [ee|] eqn:Hj'; [|exact SAME]. destruct (Nat.eqb j j'); [exact SAME|].
    specialize (ADD j dd (curves ee) Hj ltac:(intros r I1; apply (AG ee (nth_error_In _ _ Hj')), I1)). destruct (add_curves (w_heap w) dd (curves ee)) as [h dd']. exact ADD.
Qed.
Lemma add_other l i j cc dd : nth_error (w_ccs (run l)) i = Some cc -> nth_error (w_ccs (run l)) j = Some dd -> i <> j ->
  exists cc', nth_error (w_ccs (run (l ++ [AddCont i j]))) i = Some cc' /\ curves cc' = (curves cc ++ curves dd)%list.
Proof.
  intros Hi Hj Ne. rewrite run_snoc. cbn [act]. rewrite Hi, Hj. apply Nat.eqb_neq in Ne. rewrite Ne.
  pose proof (adds_good (curves dd) (w_heap (run l)) cc (run_good l cc (nth_error_In _ _ Hi)) ltac:(intros r I1; apply (run_good l dd (nth_error_In _ _ Hj)), I1)) as A.
  destruct (add_curves (w_heap (run l)) cc (curves dd)) as [h cc']. destruct A as (_ & _ & C & _). exists cc'. cbn [w_ccs]. rewrite nth_put, Nat.eqb_refl, Hi. split; [reflexivity|exact C].
Qed.
Lemma nodup_parts {A} (l m : list A) : NoDup (l ++ m) -> NoDup l /\ NoDup m /\ forall a, In a l -> ~ In a m.
Proof.
  induction l as [|a l IH]; cbn [app]; intros H; [split; [constructor|split; [exact H|intros a []]]|]. inversion H as [|? ? Na N']. subst. destruct (IH N') as (A1 & A2 & A3).
  split; [constructor; [intros X; apply Na, in_app_iff; left; exact X|exact A1]|]. split; [exact A2|]. intros b [<-|I1]; [intros X; apply Na, in_app_iff; right; exact X|apply A3, I1].
Qed.
Lemma numbered_program h l more : NoDup (l ++ more) -> (forall r, In r (l ++ more) -> exists o, nth_error h r = Some o /\ c_cid o = None) ->
  let '(h1, cc1) := new_container h l in let '(h2, cc2) := add_curves h1 cc1 more in
  curves cc2 = (l ++ more)%list /\ forall i r, nth_error (l ++ more) i = Some r -> has_cid h2 (CInt i) r /\ bycid cc2 (CInt i) = Some r.
Proof.
  intros ND V. destruct (nodup_parts l more ND) as (N1 & N2 & N3).
  assert (V' : forall r, In r (l ++ more) -> (r < List.length h)%nat /\ c_cid (deref h r) = None).
  { intros r I1. destruct (V r I1) as (o & E & C). assert (L : (r < List.length h)%nat) by (apply nth_error_Some; congruence). split; [exact L|]. rewrite (deref_nth h r L) in E. congruence. }
  assert (V1 : forall r, In r l -> (r < List.length h)%nat /\ c_cid (deref h r) = None) by (intros r I1; apply V', in_app_iff; left; exact I1).
  assert (VV : valid_refs h l = true) by (apply valid_iff; intros r I1; apply V1, I1).
  pose proof (new_good h l VV) as G. pose proof (new_numbered h l N1 V1) as M. destruct (new_container h l) as [h1 cc1]. destruct G as (_ & G1 & C1 & L1). destruct M as [M1 M2].
  assert (V2 : forall r, In r more -> (r < List.length h1)%nat /\ c_cid (deref h1 r) = None).
  { intros r I1. assert (Nl : ~ In r l) by (intros X; exact (N3 r X I1)). rewrite L1, (M2 r Nl). apply V', in_app_iff. right. exact I1. }
  pose proof (adds_good more h1 cc1 G1 (fun r I1 => proj1 (V2 r I1))) as G2. pose proof (adds_numbered more h1 cc1 G1 M1 N2 V2) as M3. destruct (add_curves h1 cc1 more) as [h2 cc2].
  destruct G2 as (_ & G2 & C2 & _). rewrite C1 in C2. split; [exact C2|]. intros i r Hi. rewrite <- C2 in Hi. split; [apply M3, Hi|eapply numbered_bycid; eassumption].
Qed.

(** ** the token table *)
Lemma positions_in h cc f t i : In i (positions h cc f t) <-> exists r, nth_error (curves cc) i = Some r /\ f (obj h r) = t.
Proof.
  unfold positions. rewrite in_map_iff.
  assert (X : forall (l : list nat) s j r, In (j, r) (combine (seq s (List.length l)) l) <-> (s <= j)%nat /\ nth_error l (j - s) = Some r).
  { induction l as [|a l IH]; intros s j r; cbn [List.length seq combine In].
    - split; [intros []|intros [_ H]; destruct (j - s)%nat; discriminate].
    - rewrite IH. split.
      + intros [E|[H1 H2]]; [injection E as <- <-; split; [lia|]; rewrite Nat.sub_diag; reflexivity|]. split; [lia|]. replace (j - s)%nat with (S (j - S s)) by lia. exact H2.
      + intros [H1 H2]. destruct (Nat.eq_dec j s) as [->|Ne].
        * rewrite Nat.sub_diag in H2. cbn [nth_error] in H2. left. congruence.
        * right. split; [lia|]. replace (j - s)%nat with (S (j - S s)) in H2 by lia. exact H2. }
  split.
  - intros ([j r] & <- & I1). apply filter_In in I1. destruct I1 as [I1 E]. cbn [fst snd] in *. apply X in I1. rewrite Nat.sub_0_r in I1. exists r. split; [apply I1|apply String.eqb_eq, E].
  - intros (r & Hr & E). exists (i, r). split; [reflexivity|]. apply filter_In. split; [apply X; rewrite Nat.sub_0_r; split; [lia|exact Hr]|]. cbn [snd]. apply String.eqb_eq, E.
Qed.
Lemma table_rows h cc t xs ys : In (t, (xs, ys)) (tokentable h cc) <-> In t (tkns h cc) /\ xs = positions h cc tknx t /\ ys = positions h cc tkny t.
Proof.
  unfold tokentable. rewrite filter_In, in_map_iff. cbn [fst snd]. split.
  - intros [(t' & E & I1) _]. injection E as <- <- <-. repeat split. exact I1.
  - intros (I1 & -> & ->). split; [exists t; split; [reflexivity|exact I1]|]. apply Nat.ltb_lt.
    unfold tkns in I1. rewrite as_set_in, in_app_iff, !in_map_iff in I1.
    assert (P : forall (m : list nat) i, In i m -> (0 < List.length m)%nat) by (intros [|a m] i H; [destruct H|cbn [List.length]; lia]).
    destruct I1 as [(r & E & I1)|(r & E & I1)]; destruct (In_nth_error _ _ I1) as [i Hi].
    + assert (H : In i (positions h cc tknx t)) by (apply positions_in; exists r; split; assumption). apply P in H. lia.
    + assert (H : In i (positions h cc tkny t)) by (apply positions_in; exists r; split; assumption). apply P in H. lia.
Qed.

(** ** concentration *)
Lemma total_scale a l : total (map (fun v => a * v) l) = a * total l.
Proof. induction l as [|b l IH]; cbn [map]; [rewrite total_nil; ring|]. rewrite !total_cons, IH. ring. Qed.
Lemma herf_scale l a : a <> 0 -> herfindahl (map (fun v => a * v) l) = herfindahl l.
Proof.
  intros H. unfold herfindahl. rewrite !rsum_total, map_map, total_scale.
  assert (E : total (map (fun v => (a * v) ^ 2) l) = a ^ 2 * total (map (fun v => v ^ 2) l)).
  { induction l as [|b l IH]; cbn [map]; [rewrite total_nil; ring|]. rewrite !total_cons, IH. ring. }
  rewrite E. set (s := total l). set (s2 := total (map (fun v => v ^ 2) l)). clearbody s s2. unfold rdiv.
  assert (A2 : a ^ 2 <> 0) by (apply pow_nonzero, H). 
  destruct (req ((a * s) ^ 2) 0) eqn:E1; destruct (req (s ^ 2) 0) eqn:E2; try reflexivity.
  - apply req_iff in E1. exfalso. assert (X : s ^ 2 = 0) by (apply (Rmult_eq_reg_l (a ^ 2)); [rewrite <- Rpow_mult_distr, E1; ring|exact A2]). apply req_iff in X. congruence.
  - apply req_iff in E2. exfalso. assert (X : (a * s) ^ 2 = 0) by (rewrite Rpow_mult_distr, E2; ring). apply req_iff in X. congruence.
  - f_equal. assert (S1 : s <> 0). { intros ->. assert (X : 0 ^ 2 = 0) by ring. apply req_iff in X. congruence. } field. split; assumption.
Qed.
Lemma total_repeat v n : total (repeat v n) = INR n * v.
Proof. induction n as [|n IH]; cbn [repeat]; [rewrite total_nil; cbn; ring|]. rewrite total_cons, IH, S_INR. ring. Qed.
Lemma herf_equal v n : 0 < v -> (0 < n)%nat -> herfindahl (repeat v n) = Ret (/ INR n).
Proof.
  intros Hv Hn. unfold herfindahl. assert (M : map (fun v => v ^ 2) (repeat v n) = repeat (v ^ 2) n) by (clear; induction n as [|n IH]; cbn [repeat map]; [reflexivity|rewrite IH; reflexivity]).
  rewrite M, !rsum_total, !total_repeat. apply lt_0_INR in Hn. set (m := INR n) in *. clearbody m. assert (0 < m * v) by (apply Rmult_lt_0_compat; assumption). assert (0 < (m * v) ^ 2) by (apply pow_lt; assumption).
  rewrite rdiv_ok by lra. f_equal. field. lra.
Qed.
Lemma total_zeros l : (forall u, In u l -> u = 0) -> total l = 0 /\ total (map (fun v => v ^ 2) l) = 0.
Proof.
  induction l as [|a l IH]; intros H; cbn [map]; [rewrite total_nil; split; reflexivity|]. rewrite !total_cons. destruct IH as [A B]; [intros u I1; apply H; right; exact I1|].
  rewrite A, B, (H a (or_introl eq_refl)). split; ring.
Qed.
Lemma herf_one v l1 l2 : 0 < v -> (forall u, In u (l1 ++ l2) -> u = 0) -> herfindahl (l1 ++ v :: l2) = Ret 1.
Proof.
  intros Hv H. unfold herfindahl. rewrite !rsum_total, map_app, !total_app. cbn [map]. rewrite !total_cons.
  destruct (total_zeros l1) as [A B]; [intros u I1; apply H, in_app_iff; left; exact I1|]. destruct (total_zeros l2) as [C D]; [intros u I1; apply H, in_app_iff; right; exact I1|].
  rewrite A, B, C, D, !Rplus_0_l, !Rplus_0_r. assert (0 < v ^ 2) by (apply pow_lt, Hv). rewrite rdiv_ok by lra. f_equal. field. lra.
Qed.
Lemma range_value l : l <> [] -> (forall v, In v l -> 0 <= v) -> 0 <= rangepc l <= 1 /\ (rangepc l = 0 <-> forall u v, In u l -> In v l -> u = v).
Proof.
  intros N P. destruct (maxl_iff l N) as [IM M], (minl_iff l N) as [Im m]. unfold rangepc. specialize (P _ Im) as Pm. specialize (m _ IM) as mm. 
  destruct (req (maxl l) 0) eqn:E.
  - apply req_iff in E. split; [lra|]. split; [|reflexivity]. intros _ u v I1 I2. pose proof (P u I1). pose proof (P v I2). pose proof (M u I1). pose proof (M v I2). lra.
  - assert (Z : maxl l <> 0) by (intros X; apply req_iff in X; congruence). assert (Q : 0 < maxl l) by lra. split.
    + split; [apply le_div; lra|apply div_le; lra].
    + split.
      * intros X u v I1 I2. assert (X' : maxl l - minl l = 0) by (replace (maxl l - minl l) with ((maxl l - minl l) / maxl l * maxl l) by (field; exact Z); rewrite X; ring).
        pose proof (M u I1). pose proof (M v I2). pose proof (m u I1). pose proof (m v I2). lra.
      * intros AE. rewrite (AE _ _ IM Im). unfold Rdiv. ring.
Qed.
