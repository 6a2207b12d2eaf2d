(** The dictionaries of a container: invariant of all programs, lookups. *)
From Coq Require Import Reals Bool List String Arith Lia Permutation Ascii.
From Verif Require Import CurveModel CurveProofs PairModel PairProofs HelperModel CpcModel CpcProofs ContainerModel ContainerSpec.
Import ListNotations.
Local Open Scope R_scope.

Lemma cid_eqb_iff a b : cid_eqb a b = true <-> a = b.
Proof.
  destruct a as [m|s], b as [n|t]; cbn [cid_eqb]; try (split; discriminate).
  - rewrite Nat.eqb_eq. split; congruence.
  - rewrite String.eqb_eq. split; congruence.
Qed.
Lemma cid_eqb_refl a : cid_eqb a a = true. Proof. apply cid_eqb_iff. reflexivity. Qed.
Lemma ocid_eqb_iff a b : ocid_eqb a b = true <-> a = b.
Proof. destruct a, b; cbn [ocid_eqb]; try rewrite cid_eqb_iff; split; congruence. Qed.
Lemma req_iff a b : req a b = true <-> a = b.
Proof. unfold req. destruct (Req_EM_T a b); split; congruence. Qed.
Lemma same_iff a b : same a b = true <-> a = b.
Proof.
  unfold same. rewrite !andb_true_iff, !req_iff, !String.eqb_eq, ocid_eqb_iff.
  destruct a as [[k1 x1 xa1 ya1 tx1 ty1] i1 t1], b as [[k2 x2 xa2 ya2 tx2 ty2] i2 t2].
  cbn [body k x x_act y_act tknx tkny c_cid c_tag]. split.
  - intros H. decompose [and] H. subst. reflexivity.
  - intros H. injection H. intros. subst. repeat split.
Qed.
Lemma same_refl a : same a a = true. Proof. apply same_iff. reflexivity. Qed.

(** ** dictionaries *)
Lemma cget_cset d c r c' : cget (cset d c r) c' = if cid_eqb c c' then Some r else cget d c'.
Proof.
  induction d as [|[c1 r1] d IH]; cbn [cset cget]; [reflexivity|].
  destruct (cid_eqb c1 c) eqn:E; cbn [cget].
  - apply cid_eqb_iff in E. subst c1. destruct (cid_eqb c c'); reflexivity.
  - destruct (cid_eqb c1 c') eqn:E'; [|exact IH].
    apply cid_eqb_iff in E'. subst c'. destruct (cid_eqb c c1) eqn:E2; [|reflexivity].
    apply cid_eqb_iff in E2. subst. rewrite cid_eqb_refl in E. discriminate.
Qed.
Lemma xget_xset h d r i r' : xget h (xset h d r i) r' = if same (deref h r) (deref h r') then Some i else xget h d r'.
Proof.
  induction d as [|[r1 i1] d IH]; cbn [xset xget]; [reflexivity|].
  destruct (same (deref h r1) (deref h r)) eqn:E; cbn [xget].
  - apply same_iff in E. rewrite E. destruct (same (deref h r) (deref h r')); reflexivity.
  - destruct (same (deref h r1) (deref h r')) eqn:E'; [|exact IH].
    apply same_iff in E'. rewrite <- E'. destruct (same (deref h r) (deref h r1)) eqn:E2; [|reflexivity].
    apply same_iff in E2. rewrite E2, same_refl in E. discriminate.
Qed.
Lemma pget_pappend d p r p' : pget (pappend d p r) p' = if String.eqb p p' then Some (match pget d p' with Some l => l ++ [r] | None => [r] end)%list else pget d p'.
Proof.
  induction d as [|[p1 l1] d IH]; cbn [pappend pget]; [destruct (String.eqb p p'); reflexivity|].
  destruct (String.eqb p1 p) eqn:E; cbn [pget].
  - apply String.eqb_eq in E. subst p1. destruct (String.eqb p p'); reflexivity.
  - destruct (String.eqb p1 p') eqn:E'; [|exact IH].
    apply String.eqb_eq in E'. subst p'. rewrite String.eqb_sym in E. rewrite E. reflexivity.
Qed.

(** ** the container that a list of curves makes *)
Definition build (h : heap) (l : list nat) : container := fold_left (record h) l no_curves.
Lemma build_snoc h l r : build h (l ++ [r]) = record h (build h l) r.
Proof. unfold build. rewrite fold_left_app. reflexivity. Qed.
Lemma build_curves h l : curves (build h l) = l.
Proof.
  induction l as [|r l IH] using rev_ind; [reflexivity|]. rewrite build_snoc. unfold record. cbn [curves]. rewrite IH. reflexivity.
Qed.
Lemma find_app {A} (f : A -> bool) l m : find f (l ++ m) = match find f l with Some a => Some a | None => find f m end.
Proof. induction l as [|a l IH]; [reflexivity|]. cbn [app find]. destruct (f a); [reflexivity|exact IH]. Qed.
Lemma bycid_build h l c : bycid (build h l) c = find (fun r => cid_eqb (cid_of h r) c) (rev l).
Proof.
  unfold bycid. induction l as [|r l IH] using rev_ind; [reflexivity|].
  rewrite build_snoc, rev_app_distr. cbn [rev app find]. unfold record. cbn [by_cid]. rewrite cget_cset, IH. reflexivity.
Qed.
Lemma price_build h l p : pget (by_primary (build h l)) p =
  match filter (fun r => String.eqb (primary_of (obj h r)) p) l with [] => None | f => Some f end.
Proof.
  induction l as [|r l IH] using rev_ind; [reflexivity|].
  rewrite build_snoc, filter_app. unfold record. cbn [by_primary]. rewrite pget_pappend, IH. cbn [filter].
  destruct (String.eqb (primary_of (obj h r)) p); [|rewrite app_nil_r; reflexivity].
  destruct (filter _ l); reflexivity.
Qed.

(** the last element with a property *)
Lemma find_rev_last {A} (f : A -> bool) (P : A -> Prop) l : (forall a, In a l -> f a = true <-> P a) ->
  (forall a, find f (rev l) = Some a <-> last_such P l a) /\ (find f (rev l) = None <-> forall a, In a l -> ~ P a).
Proof.
  intros H. induction l as [|a l IH] using rev_ind.
  - cbn [rev find]. split; [|split; [intros _ a []|reflexivity]].
    intros a. split; [discriminate|]. intros (l1 & l2 & E & _). destruct l1; discriminate.
  - destruct IH as [IH1 IH2]; [intros b Hb; apply H, in_or_app; left; exact Hb|].
    assert (Ha : f a = true <-> P a) by (apply H, in_or_app; right; left; reflexivity).
    rewrite rev_app_distr. cbn [rev app find]. destruct (f a) eqn:E.
    + assert (Pa : P a) by (apply Ha; reflexivity). split.
      * intros b. split.
        { intros X. injection X as <-. exists l, []. split; [reflexivity|]. split; [exact Pa|]. intros r' []. }
        { intros (l1 & l2 & El & Pb & N). destruct l2 as [|c l2 _] using rev_ind.
          - apply app_inj_tail in El. destruct El as [_ ->]. reflexivity.
          - exfalso. change (l1 ++ b :: l2 ++ [c]) with (l1 ++ (b :: l2) ++ [c]) in El. rewrite app_assoc in El. apply app_inj_tail in El. destruct El as [_ ->].
            apply (N c); [apply in_or_app; right; left; reflexivity|exact Pa]. }
      * split; [discriminate|]. intros N. exfalso. apply (N a); [apply in_or_app; right; left; reflexivity|exact Pa].
    + assert (Pa : ~ P a) by (intros X; apply Ha in X; congruence). split.
      * intros b. rewrite IH1. split.
        { intros (l1 & l2 & El & Pb & N). exists l1, (l2 ++ [a]). split; [rewrite El, <- app_assoc; reflexivity|]. split; [exact Pb|].
          intros r' I1. apply in_app_or in I1. destruct I1 as [I1|[<-|[]]]; [apply N; exact I1|exact Pa]. }
        { intros (l1 & l2 & El & Pb & N). destruct l2 as [|c l2 _] using rev_ind.
          - exfalso. apply app_inj_tail in El. destruct El as [_ ->]. exact (Pa Pb).
          - change (l1 ++ b :: l2 ++ [c]) with (l1 ++ (b :: l2) ++ [c]) in El. rewrite app_assoc in El. apply app_inj_tail in El. destruct El as [El ->].
            exists l1, l2. split; [exact El|]. split; [exact Pb|]. intros r' I1. apply N, in_or_app. left. exact I1. }
      * rewrite IH2. split.
        { intros N b I1. apply in_app_or in I1. destruct I1 as [I1|[<-|[]]]; [apply N; exact I1|exact Pa]. }
        { intros N b I1. apply N, in_or_app. left. exact I1. }
Qed.
Lemma curveix_build h l r : (forall i, xget h (ix_by_curve (build h l)) r = Some i <-> last_position (fun r' => deref h r' = deref h r) l i)
  /\ (xget h (ix_by_curve (build h l)) r = None <-> forall r', In r' l -> deref h r' <> deref h r).
Proof.
  induction l as [|a l [IH1 IH2]] using rev_ind.
  - cbn [build fold_left no_curves ix_by_curve xget]. split; [|split; [intros _ r' []|reflexivity]].
    intros i. split; [discriminate|]. intros [(r' & E & _) _]. destruct i; discriminate.
  - rewrite build_snoc. unfold record. cbn [ix_by_curve]. rewrite build_curves, xget_xset.
    destruct (same (deref h a) (deref h r)) eqn:E.
    + apply same_iff in E. split.
      * intros i. split.
        { intros X. injection X as <-. split; [exists a; split; [rewrite nth_error_app2, Nat.sub_diag by lia; reflexivity|exact E]|].
          intros j r' Hj N. assert (nth_error (l ++ [a]) j = None) by (apply nth_error_None; rewrite app_length; cbn [List.length]; lia). congruence. }
        { intros [(r' & N & Pr) M]. f_equal.
          assert (L : (i < List.length (l ++ [a]))%nat) by (apply nth_error_Some; congruence). rewrite app_length in L. cbn [List.length] in L.
          destruct (Nat.eq_dec i (List.length l)) as [->|Ne]; [reflexivity|]. exfalso.
          apply (M (List.length l) a); [lia|rewrite nth_error_app2, Nat.sub_diag by lia; reflexivity|exact E]. }
      * split; [discriminate|]. intros N. exfalso. apply (N a); [apply in_or_app; right; left; reflexivity|exact E].
    + assert (E' : deref h a <> deref h r) by (intros X; apply same_iff in X; congruence). split.
      * intros i. rewrite IH1. split.
        { intros [(r' & N & Pr) M]. assert (L : (i < List.length l)%nat) by (apply nth_error_Some; congruence).
          split; [exists r'; split; [rewrite nth_error_app1 by exact L; exact N|exact Pr]|].
          intros j r1 Hj Nj. destruct (Nat.lt_ge_cases j (List.length l)) as [Lj|Lj].
          - rewrite nth_error_app1 in Nj by exact Lj. apply (M j); assumption.
          - rewrite nth_error_app2 in Nj by exact Lj. destruct (j - List.length l)%nat as [|[|n]] eqn:D; cbn [nth_error] in Nj; try discriminate.
            injection Nj as <-. exact E'. }
        { intros [(r' & N & Pr) M]. assert (L : (i < List.length l)%nat).
          { assert (L : (i < List.length (l ++ [a]))%nat) by (apply nth_error_Some; congruence). rewrite app_length in L. cbn [List.length] in L.
            destruct (Nat.eq_dec i (List.length l)) as [->|Ne]; [|lia]. exfalso. rewrite nth_error_app2, Nat.sub_diag in N by lia. injection N as <-. exact (E' Pr). }
          rewrite nth_error_app1 in N by exact L. split; [exists r'; split; assumption|].
          intros j r1 Hj Nj. apply (M j); [exact Hj|]. rewrite nth_error_app1; [exact Nj|]. apply nth_error_Some. congruence. }
      * rewrite IH2. split.
        { intros N b I1. apply in_app_or in I1. destruct I1 as [I1|[<-|[]]]; [apply N; exact I1|exact E']. }
        { intros N b I1. apply N, in_or_app. left. exact I1. }
Qed.

(** ** heaps that only grow and only gain ids *)
Definition grows (h h' : heap) : Prop := (List.length h <= List.length h')%nat /\
  forall r, (r < List.length h)%nat -> (c_cid (deref h r) <> None -> deref h' r = deref h r) /\ body (deref h' r) = body (deref h r) /\ c_tag (deref h' r) = c_tag (deref h r).
Lemma grows_refl h : grows h h. Proof. split; [lia|]. intros r _. repeat split. Qed.
Lemma grows_trans a b c : grows a b -> grows b c -> grows a c.
Proof.
  intros [L1 G1] [L2 G2]. split; [lia|]. intros r Hr. destruct (G1 r Hr) as (A1 & A2 & A3). destruct (G2 r ltac:(lia)) as (B1 & B2 & B3).
  split; [|split; congruence]. intros N. rewrite B1; [apply A1, N|]. rewrite (A1 N). exact N.
Qed.
Lemma setcid_length h r c : List.length (setcid h r c) = List.length h.
Proof. revert r. induction h as [|o h IH]; intros [|r]; cbn [setcid List.length]; try reflexivity. rewrite IH. reflexivity. Qed.
Lemma setcid_deref h r c r' : (r < List.length h)%nat -> deref (setcid h r c) r' = if Nat.eqb r' r then mkCC (body (deref h r)) (Some c) (c_tag (deref h r)) else deref h r'.
Proof.
  revert r r'. induction h as [|o h IH]; intros r r' L; cbn [List.length] in L; [lia|].
  destruct r as [|r], r' as [|r']; try reflexivity. unfold deref in *. cbn [setcid nth Nat.eqb]. apply IH. lia.
Qed.
Lemma setcid_grows h r c : (r < List.length h)%nat -> c_cid (deref h r) = None -> grows h (setcid h r c).
Proof.
  intros L N. split; [rewrite setcid_length; lia|]. intros r' _. rewrite setcid_deref by exact L.
  destruct (Nat.eqb r' r) eqn:E; [|repeat split]. apply Nat.eqb_eq in E. subst r'. cbn [body c_tag]. split; [congruence|split; reflexivity].
Qed.
Lemma valid_iff h l : valid_refs h l = true <-> forall r, In r l -> (r < List.length h)%nat.
Proof. unfold valid_refs. rewrite forallb_forall. split; intros H r I1; specialize (H r I1); apply Nat.ltb_lt; exact H. Qed.
Definition ident (h : heap) (r : nat) (i : nat) : heap := match c_cid (deref h r) with None => setcid h r (CInt i) | Some _ => h end.
Lemma ident_grows h r i : (r < List.length h)%nat -> grows h (ident h r i) /\ c_cid (deref (ident h r i) r) <> None /\ List.length (ident h r i) = List.length h.
Proof.
  intros L. unfold ident. destruct (c_cid (deref h r)) eqn:E; [split; [apply grows_refl|split; [congruence|reflexivity]]|].
  split; [apply setcid_grows; assumption|]. split; [|apply setcid_length]. rewrite setcid_deref, Nat.eqb_refl by exact L. cbn [c_cid]. discriminate.
Qed.
Definition named (h : heap) (r : nat) : Prop := (r < List.length h)%nat /\ c_cid (deref h r) <> None.
Lemma named_grows h h' r : grows h h' -> named h r -> named h' r.
Proof. intros [L G] [Hr N]. destruct (G r Hr) as (A & _). split; [lia|]. rewrite (A N). exact N. Qed.
Lemma number_grows l : forall h i, (forall r, In r l -> (r < List.length h)%nat) ->
  grows h (number h l i) /\ (forall r, In r l -> named (number h l i) r) /\ List.length (number h l i) = List.length h.
Proof.
  induction l as [|r l IH]; intros h i V; cbn [number]; [split; [apply grows_refl|split; [intros r []|reflexivity]]|].
  fold (ident h r i). destruct (ident_grows h r i (V r (or_introl eq_refl))) as (G & N & L).
  destruct (IH (ident h r i) (S i)) as (G' & N' & L').
  { intros r' I1. rewrite L. apply V. right. exact I1. }
  split; [eapply grows_trans; eassumption|]. split; [|congruence].
  intros r' [<-|I1]; [|apply N'; exact I1]. eapply named_grows; [exact G'|]. split; [rewrite L; apply V; left; reflexivity|exact N].
Qed.
Lemma fold_record h h' l : forall cc, (forall r, In r l \/ In r (map fst (ix_by_curve cc)) -> deref h r = deref h' r) -> fold_left (record h) l cc = fold_left (record h') l cc.
Proof.
  induction l as [|r l IH]; intros cc E; [reflexivity|]. cbn [fold_left].
  assert (Er : deref h r = deref h' r) by (apply E; left; left; reflexivity).
  assert (X : forall d, (forall r', In r' (map fst d) -> deref h r' = deref h' r') -> xset h d r (List.length (curves cc)) = xset h' d r (List.length (curves cc))).
  { induction d as [|[r1 i1] d IHd]; intros Ed; [reflexivity|]. cbn [xset]. rewrite Er, (Ed r1) by (left; reflexivity).
    destruct (same (deref h' r1) (deref h' r)); [reflexivity|]. f_equal. apply IHd. intros r' I1. apply Ed. right. exact I1. }
  assert (EX : record h cc r = record h' cc r).
  { unfold record, cid_of, obj. rewrite Er. f_equal. apply X. intros r' I1. apply E. right. exact I1. }
  rewrite EX. apply IH. intros r' [I1|I1]; [apply E; left; right; exact I1|].
  unfold record in I1. cbn [ix_by_curve] in I1.
  assert (Sub : forall d, In r' (map fst (xset h' d r (List.length (curves cc)))) -> r' = r \/ In r' (map fst d)).
  { induction d as [|[r1 i1] d IHd]; cbn [xset map fst]; [intros [<-|[]]; left; reflexivity|].
    destruct (same (deref h' r1) (deref h' r)); cbn [map fst]; [intros I2; right; exact I2|].
    intros [<-|I2]; [right; left; reflexivity|]. destruct (IHd I2) as [->|I3]; [left; reflexivity|right; right; exact I3]. }
  destruct (Sub _ I1) as [->|I2]; [exact Er|]. apply E. right. exact I2.
Qed.
Lemma build_grows h h' l : grows h h' -> (forall r, In r l -> named h r) -> build h' l = build h l.
Proof.
  intros [L G] N. unfold build. apply fold_record. intros r [I1|[]]. destruct (N r I1) as [Lr Nr]. apply (G r Lr), Nr.
Qed.

(** ** the invariant of programs *)
Definition good (h : heap) (cc : container) : Prop := (forall r, In r (curves cc) -> named h r) /\ cc = build h (curves cc).
Lemma good_grows h h' cc : grows h h' -> good h cc -> good h' cc.
Proof.
  intros G [N E]. split; [intros r I1; eapply named_grows; [exact G|apply N; exact I1]|]. rewrite (build_grows h h' _ G N). exact E.
Qed.
Lemma new_good h l : valid_refs h l = true -> let '(h', cc) := new_container h l in grows h h' /\ good h' cc /\ curves cc = l /\ List.length h' = List.length h.
Proof.
  intros V. unfold new_container. destruct (number_grows l h 0 (proj1 (valid_iff h l) V)) as (G & N & L).
  change (fold_left (record (number h l 0)) l no_curves) with (build (number h l 0) l).
  split; [exact G|]. split; [|split; [apply build_curves|exact L]]. split; rewrite build_curves; [exact N|reflexivity].
Qed.
Lemma add_good h cc r : good h cc -> (r < List.length h)%nat -> let '(h', cc') := add_curve h cc r in grows h h' /\ good h' cc' /\ curves cc' = (curves cc ++ [r])%list /\ List.length h' = List.length h.
Proof.
  intros [N E] L. unfold add_curve. fold (ident h r (List.length (curves cc))). cbv zeta.
  destruct (ident_grows h r (List.length (curves cc)) L) as (G & N' & L'). split; [exact G|].
  assert (C : curves (record (ident h r (List.length (curves cc))) cc r) = (curves cc ++ [r])%list) by reflexivity.
  split; [|split; [exact C|exact L']]. split; rewrite C.
  - intros r' I1. apply in_app_or in I1. destruct I1 as [I1|[<-|[]]]; [eapply named_grows; [exact G|apply N; exact I1]|]. split; [lia|exact N'].
  - rewrite build_snoc. f_equal. rewrite (build_grows h _ _ G N). exact E.
Qed.
Lemma adds_good l : forall h cc, good h cc -> (forall r, In r l -> (r < List.length h)%nat) ->
  let '(h', cc') := add_curves h cc l in grows h h' /\ good h' cc' /\ curves cc' = (curves cc ++ l)%list /\ List.length h' = List.length h.
Proof.
  induction l as [|r l IH]; intros h cc G V; cbn [add_curves]; [rewrite app_nil_r; split; [apply grows_refl|split; [exact G|split; reflexivity]]|].
  pose proof (add_good h cc r G (V r (or_introl eq_refl))) as A. destruct (add_curve h cc r) as [h1 cc1]. destruct A as (G1 & G2 & C1 & L1).
  specialize (IH h1 cc1 G2). destruct (add_curves h1 cc1 l) as [h2 cc2].
  destruct IH as (G3 & G4 & C2 & L2); [intros r' I1; rewrite L1; apply V; right; exact I1|].
  split; [eapply grows_trans; eassumption|]. split; [exact G4|]. split; [rewrite C2, C1, <- app_assoc; reflexivity|congruence].
Qed.
Lemma split_nonempty s : split_slash s <> [].
Proof.
  destruct s as [|c s]; [discriminate|]. cbn [split_slash]. destruct (Ascii.eqb c "/"); [discriminate|]. destruct (split_slash s); discriminate.
Qed.
Lemma constructible_parts c : constructible c = true -> no_slash (tknx (body c)) = true /\ no_slash (tkny (body c)) = true /\ x (body c) <> 0.
Proof.
  unfold constructible, parse_pair, pair_of, pair_str. destruct (split_slash _) as [|a [|b [|d l]]] eqn:E; try discriminate.
  intros H. apply negb_true_iff in H. assert (X : x (body c) <> 0) by (intros X; apply req_iff in X; congruence).
  assert (NS : forall s t a b, split_slash (s ++ String "/" t) = [a; b] -> no_slash s = true /\ no_slash t = true).
  { clear. intros s. induction s as [|ch s IH]; intros t a b E.
    - cbn in E. injection E as <- E. apply split_inv_1 in E. destruct E as [-> E]. split; [reflexivity|exact E].
    - cbn [append split_slash] in E. destruct (Ascii.eqb ch "/") eqn:Ec.
      + injection E as <- E. exfalso. revert E. clear. revert b. induction s as [|c' s IH]; intros b E.
        * cbn in E. injection E as _ E. exact (split_nonempty _ E).
        * cbn [append split_slash] in E. destruct (Ascii.eqb c' "/"); [injection E as _ E; exact (split_nonempty _ E)|].
          destruct (split_slash (s ++ String "/" t)) as [|w ws] eqn:Es; [exact (split_nonempty _ Es)|].
          injection E as <- ->. apply (IH w). reflexivity.
      + destruct (split_slash (s ++ String "/" t)) as [|w ws] eqn:Es; [discriminate|]. injection E as <- ->.
        destruct (IH t w b Es) as [A B]. split; [cbn [no_slash]; rewrite Ec; exact A|exact B]. }
  destruct (NS _ _ _ _ E) as [A B]. repeat split; assumption.
Qed.
Lemma put_forall {A} (P : A -> Prop) l i a : Forall P l -> P a -> Forall P (put l i a).
Proof. intros F Pa. revert i. induction F as [|b l Pb F IH]; intros [|i]; cbn [put]; constructor; auto. Qed.
Definition world_ok (w : world) : Prop := Forall (good (w_heap w)) (w_ccs w) /\ Forall (fun o => constructible o = true) (w_heap w).
Lemma constructible_body a b : body a = body b -> constructible a = constructible b.
Proof. intros E. unfold constructible. rewrite E. reflexivity. Qed.
Lemma constructible_grows h h' : grows h h' -> List.length h' = List.length h -> Forall (fun o => constructible o = true) h -> Forall (fun o => constructible o = true) h'.
Proof.
  intros [_ G] L F. apply Forall_forall. intros o I1. destruct (In_nth _ _ no_curve I1) as (r & Lr & E).
  rewrite L in Lr. destruct (G r Lr) as (_ & B & _). unfold deref in B. rewrite E in B. rewrite (constructible_body _ _ B).
  rewrite Forall_forall in F. apply F, nth_In, Lr.
Qed.
Lemma act_ok w a : world_ok w -> world_ok (act w a).
Proof.
  intros [F C]. destruct a as [c|l|i l|i j]; cbn [act].
  - destruct (constructible c) eqn:E; [|split; assumption]. split; cbn [w_heap w_ccs].
    + eapply Forall_impl; [|exact F]. intros cc. apply good_grows. split; [rewrite app_length; lia|].
      intros r Lr. unfold deref. rewrite app_nth1 by exact Lr. repeat split.
    + apply Forall_app. split; [exact C|]. constructor; [exact E|constructor].
  - destruct (valid_refs (w_heap w) l) eqn:V; [|split; assumption].
    pose proof (new_good _ _ V) as N. destruct (new_container (w_heap w) l) as [h cc]. destruct N as (G & G' & _ & L). split; cbn [w_heap w_ccs].
    + apply Forall_app. split; [|constructor; [exact G'|constructor]]. eapply Forall_impl; [|exact F]. intros dd. apply good_grows, G.
    + eapply constructible_grows; eassumption.
  - destruct (nth_error (w_ccs w) i) as [cc|] eqn:E; [|split; assumption].
    destruct (valid_refs (w_heap w) l) eqn:V; [|split; assumption].
    assert (Gc : good (w_heap w) cc) by (rewrite Forall_forall in F; apply F; eapply nth_error_In; exact E).
    pose proof (adds_good l _ _ Gc (proj1 (valid_iff _ _) V)) as A. destruct (add_curves (w_heap w) cc l) as [h cc']. destruct A as (G & G' & _ & L). split; cbn [w_heap w_ccs].
    + apply put_forall; [|exact G']. eapply Forall_impl; [|exact F]. intros dd. apply good_grows, G.
    + eapply constructible_grows; eassumption.
  - destruct (nth_error (w_ccs w) i) as [cc|] eqn:E; [|split; assumption].
    destruct (nth_error (w_ccs w) j) as [dd|] eqn:E'; [|split; assumption].
    destruct (Nat.eqb i j); [split; assumption|].
    assert (Gc : good (w_heap w) cc) by (rewrite Forall_forall in F; apply F; eapply nth_error_In; exact E).
    assert (Gd : good (w_heap w) dd) by (rewrite Forall_forall in F; apply F; eapply nth_error_In; exact E').
    pose proof (adds_good (curves dd) _ _ Gc) as A. destruct (add_curves (w_heap w) cc (curves dd)) as [h cc']. destruct A as (G & G' & _ & L).
    { intros r I1. apply (proj1 Gd), I1. }
    split; cbn [w_heap w_ccs].
    + apply put_forall; [|exact G']. eapply Forall_impl; [|exact F]. intros ee. apply good_grows, G.
    + eapply constructible_grows; eassumption.
Qed.
Lemma run_ok l : world_ok (run l).
Proof.
  unfold run. assert (X : forall l w, world_ok w -> world_ok (fold_left act l w)).
  { clear l. induction l as [|a l IH]; intros w H; [exact H|]. cbn [fold_left]. apply IH, act_ok, H. }
  apply X. split; constructor.
Qed.
Lemma run_good l cc : In cc (w_ccs (run l)) -> good (w_heap (run l)) cc.
Proof. intros I1. destruct (run_ok l) as [F _]. rewrite Forall_forall in F. apply F, I1. Qed.
Lemma run_curve l cc r : In cc (w_ccs (run l)) -> In r (curves cc) ->
  no_slash (tknx (obj (w_heap (run l)) r)) = true /\ no_slash (tkny (obj (w_heap (run l)) r)) = true /\ x (obj (w_heap (run l)) r) <> 0.
Proof.
  intros I1 I2. destruct (run_good l cc I1) as [N _]. destruct (N r I2) as [L _]. destruct (run_ok l) as [_ C]. rewrite Forall_forall in C.
  apply constructible_parts, C, nth_In, L.
Qed.

(** ** C82 *)
Lemma deref_nth h r : (r < List.length h)%nat -> nth_error h r = Some (deref h r).
Proof. intros L. apply nth_error_nth'. exact L. Qed.
Lemma named_cid h r c : named h r -> cid_eqb (cid_of h r) c = true <-> has_cid h c r.
Proof.
  intros [L N]. rewrite cid_eqb_iff. unfold cid_of, has_cid. rewrite (deref_nth h r L). destruct (c_cid (deref h r)) as [i|] eqn:E; [|congruence]. split.
  - intros <-. exists (deref h r). split; [reflexivity|exact E].
  - intros (o & X & Y). injection X as <-. congruence.
Qed.
Lemma named_has h r : named h r -> exists c, has_cid h c r.
Proof. intros [L N]. destruct (c_cid (deref h r)) as [c|] eqn:E; [|congruence]. exists c, (deref h r). split; [apply deref_nth, L|exact E]. Qed.
Lemma bycid_good h cc c : good h cc -> (forall r, bycid cc c = Some r <-> last_such (has_cid h c) (curves cc) r) /\ (bycid cc c = None <-> forall r, In r (curves cc) -> ~ has_cid h c r).
Proof.
  intros [N E]. assert (B : bycid cc c = find (fun r => cid_eqb (cid_of h r) c) (rev (curves cc))) by (rewrite E at 1; apply bycid_build). rewrite B.
  apply find_rev_last. intros r I1. apply named_cid, N, I1.
Qed.
Lemma equal_deref h r r' : (r < List.length h)%nat -> (r' < List.length h)%nat -> deref h r = deref h r' <-> equal_curves h r r'.
Proof.
  intros L L'. unfold equal_curves. rewrite (deref_nth h r L), (deref_nth h r' L'). split.
  - intros E. exists (deref h r). rewrite <- E. split; reflexivity.
  - intros (o & A & B). congruence.
Qed.
Lemma last_position_impl {A} (P Q : A -> Prop) l i : (forall a, In a l -> P a <-> Q a) -> last_position P l i <-> last_position Q l i.
Proof.
  intros H. unfold last_position. split; intros [(r & N & Pr) M].
  - split; [exists r; split; [exact N|apply H; [eapply nth_error_In; exact N|exact Pr]]|]. intros j r' Hj Nj X. apply (M j r' Hj Nj), H; [eapply nth_error_In; exact Nj|exact X].
  - split; [exists r; split; [exact N|apply H; [eapply nth_error_In; exact N|exact Pr]]|]. intros j r' Hj Nj X. apply (M j r' Hj Nj), H; [eapply nth_error_In; exact Nj|exact X].
Qed.
Lemma curveix_good h cc r : good h cc -> (r < List.length h)%nat ->
  (forall i, curveix h cc r = Some i <-> last_position (fun r' => equal_curves h r' r) (curves cc) i) /\ (contains h cc r = true <-> exists r', In r' (curves cc) /\ equal_curves h r' r).
Proof.
  intros [N E] L. destruct (curveix_build h (curves cc) r) as [A B]. unfold contains, curveix. rewrite <- E in A, B. split.
  - intros i. rewrite A. apply last_position_impl. intros r' I1. apply equal_deref; [apply N, I1|exact L].
  - destruct (xget h (ix_by_curve cc) r) as [i|] eqn:X.
    + split; [intros _|reflexivity]. destruct (proj1 (A i) eq_refl) as [(r' & Nr & Pr) _]. exists r'. split; [eapply nth_error_In; exact Nr|].
      apply equal_deref; [apply N; eapply nth_error_In; exact Nr|exact L|exact Pr].
    + split; [discriminate|]. intros (r' & I1 & Eq). exfalso. apply (proj1 B eq_refl r' I1). apply equal_deref; [apply N, I1|exact L|exact Eq].
Qed.

(** ** C83: automatic ids *)
Lemma number_fresh l : forall h i, NoDup l -> (forall r, In r l -> (r < List.length h)%nat /\ c_cid (deref h r) = None) ->
  forall j r, nth_error l j = Some r -> c_cid (deref (number h l i) r) = Some (CInt (i + j)).
Proof.
  induction l as [|a l IH]; intros h i ND V j r Nj; [destruct j; discriminate|]. cbn [number]. inversion ND as [|? ? Na ND']. subst.
  destruct (V a (or_introl eq_refl)) as [La Ca]. rewrite Ca.
  assert (V' : forall r, In r l -> (r < List.length (setcid h a (CInt i)))%nat /\ c_cid (deref (setcid h a (CInt i)) r) = None).
  { intros r' I1. rewrite setcid_length. destruct (V r' (or_intror I1)) as [A B]. split; [exact A|]. rewrite setcid_deref by exact La.
    destruct (Nat.eqb r' a) eqn:E; [|exact B]. apply Nat.eqb_eq in E. subst. contradiction. }
  destruct j as [|j].
  - cbn [nth_error] in Nj. injection Nj as <-.
    destruct (number_grows l (setcid h a (CInt i)) (S i)) as (G & _); [intros r I1; apply V', I1|].
    destruct G as [_ G]. destruct (G a) as (A & _); [rewrite setcid_length; exact La|].
    assert (D : deref (setcid h a (CInt i)) a = mkCC (body (deref h a)) (Some (CInt i)) (c_tag (deref h a))) by (rewrite setcid_deref, Nat.eqb_refl by exact La; reflexivity).
    rewrite A; rewrite D; cbn [c_cid]; [rewrite Nat.add_0_r; reflexivity|discriminate].
  - cbn [nth_error] in Nj. rewrite (IH _ (S i) ND' V' j r Nj). f_equal. f_equal. lia.
Qed.
Lemma number_other l : forall h i r, ~ In r l -> (forall r, In r l -> (r < List.length h)%nat) -> deref (number h l i) r = deref h r.
Proof.
  induction l as [|a l IH]; intros h i r N V; [reflexivity|]. cbn [number]. fold (ident h a i).
  rewrite IH; [|intros X; apply N; right; exact X|].
  - unfold ident. destruct (c_cid (deref h a)); [reflexivity|]. rewrite setcid_deref by (apply V; left; reflexivity).
    destruct (Nat.eqb r a) eqn:E; [|reflexivity]. apply Nat.eqb_eq in E. subst. exfalso. apply N. left. reflexivity.
  - intros r' I1. unfold ident. destruct (c_cid (deref h a)); [|rewrite setcid_length]; apply V; right; exact I1.
Qed.
Definition numbered (h : heap) (cc : container) : Prop := forall i r, nth_error (curves cc) i = Some r -> has_cid h (CInt i) r.
Lemma new_numbered h l : NoDup l -> (forall r, In r l -> (r < List.length h)%nat /\ c_cid (deref h r) = None) ->
  let '(h', cc) := new_container h l in numbered h' cc /\ (forall r, ~ In r l -> deref h' r = deref h r).
Proof.
  intros ND V. assert (VV : valid_refs h l = true) by (apply valid_iff; intros r I1; apply V, I1).
  pose proof (new_good h l VV) as G. unfold new_container in *. cbv zeta in *. destruct G as (_ & [N _] & C & L). split.
  - intros i r Nr. rewrite C in Nr. exists (deref (number h l 0) r). split; [apply deref_nth; rewrite L; apply V; eapply nth_error_In; exact Nr|].
    rewrite (number_fresh l h 0 ND V i r Nr). reflexivity.
  - intros r Nr. apply number_other; [exact Nr|]. intros r' I1. apply V, I1.
Qed.
Lemma adds_numbered l : forall h cc, good h cc -> numbered h cc -> NoDup l -> (forall r, In r l -> (r < List.length h)%nat /\ c_cid (deref h r) = None) ->
  let '(h', cc') := add_curves h cc l in numbered h' cc'.
Proof.
  induction l as [|a l IH]; intros h cc G N ND V; cbn [add_curves]; [exact N|]. inversion ND as [|? ? Na ND']. subst.
  destruct (V a (or_introl eq_refl)) as [La Ca].
  pose proof (add_good h cc a G La) as A. unfold add_curve in *. rewrite Ca in *. cbv zeta in *. set (h1 := setcid h a (CInt (List.length (curves cc)))) in *.
  destruct A as (Gr & G1 & C1 & L1). apply IH; [exact G1| |exact ND'|].
  - intros i r Nr. rewrite C1 in Nr. destruct (Nat.lt_ge_cases i (List.length (curves cc))) as [Li|Li].
    + rewrite nth_error_app1 in Nr by exact Li. destruct (N i r Nr) as (o & Eo & Co).
      assert (Lr : (r < List.length h)%nat) by (apply nth_error_Some; congruence). rewrite (deref_nth h r Lr) in Eo. injection Eo as <-.
      exists (deref h1 r). split; [apply deref_nth; lia|]. destruct Gr as [_ Gr]. destruct (Gr r Lr) as (X & _). rewrite X; congruence.
    + rewrite nth_error_app2 in Nr by exact Li. destruct (i - List.length (curves cc))%nat as [|[|n]] eqn:D; cbn [nth_error] in Nr; try discriminate. injection Nr as <-.
      exists (deref h1 a). split; [apply deref_nth; lia|]. unfold h1. rewrite setcid_deref, Nat.eqb_refl by exact La. cbn [c_cid]. f_equal. f_equal. lia.
  - intros r I1. rewrite L1. destruct (V r (or_intror I1)) as [A B]. split; [exact A|]. unfold h1. rewrite setcid_deref by exact La.
    destruct (Nat.eqb r a) eqn:E; [|exact B]. apply Nat.eqb_eq in E. subst. contradiction.
Qed.
Lemma numbered_bycid h cc i r : good h cc -> numbered h cc -> nth_error (curves cc) i = Some r -> bycid cc (CInt i) = Some r.
Proof.
  intros G N Nr. destruct (bycid_good h cc (CInt i) G) as [A _]. apply A.
  destruct (nth_error_split _ _ Nr) as (l1 & l2 & E & L). exists l1, l2. split; [exact E|]. split; [apply N, Nr|].
  intros r' I1 H. destruct (In_nth_error _ _ I1) as (j & Ej).
  assert (Nj : nth_error (curves cc) (i + S j) = Some r').
  { rewrite E, nth_error_app2 by lia. replace (i + S j - List.length l1)%nat with (S j) by lia. exact Ej. }
  destruct (N _ _ Nj) as (o & A1 & A2). destruct H as (o' & B1 & B2). rewrite A1 in B1. injection B1 as <-. rewrite A2 in B2. injection B2. lia.
Qed.

(** ** C89 *)
Lemma self_forever fuel : forall h cc i, (i < List.length (curves cc))%nat -> add_self fuel h cc i = None.
Proof.
  induction fuel as [|fuel IH]; intros h cc i L; [reflexivity|]. cbn [add_self].
  destruct (nth_error (curves cc) i) as [r|] eqn:E; [|apply nth_error_None in E; lia].
  unfold add_curve. cbv zeta. apply IH. unfold record. cbn [curves]. rewrite app_length. cbn [List.length]. lia.
Qed.
