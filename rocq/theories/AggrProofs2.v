(** Proofs about aggregated price tables: the tables by field. *)
From Coq Require Import ZArith QArith List Bool String Lia Permutation.
From Verif Require Import PairModel CurveModel CcModel AggrModel AggrSpec AggrProofs.
Import ListNotations.
Local Open Scope string_scope.
Local Open Scope list_scope.

Lemma all_ok_map {A B} (f : A -> res B) (g : A -> B) l : (forall a, In a l -> f a = Ret (g a)) -> all_ok f l = Ret (map g l).
Proof.
  induction l as [|a l IH]; intros H; [reflexivity|]. cbn [all_ok map]. rewrite (H a) by (left; reflexivity). cbn [rbind]. rewrite IH by (intros b Hb; apply H; right; exact Hb). reflexivity.
Qed.
Definition col_of (ts : raws) (fld : string) (p : pt) : list (option Q) := match column p fld (raw_cols ts) with Ret vs => vs | Raise _ => [] end.
Definition raw_frame (ts : raws) := mkFrame (times ts) (raw_cols ts).
Lemma value_shows h i idx : NoDup (map fst h) -> (i < 6)%nat -> shows h (nth i FIELDS "") idx (map (value h i) idx).
Proof.
  intros N I. split; [apply map_length|]. intros k t c A B. rewrite nth_error_map, A in B. cbn in B. injection B as <-. split.
  - intros r j H F. assert (j = i) as ->.
    { unfold field_no in F. change ["open"; "close"; "high"; "low"; "volumefrom"; "volumeto"] with FIELDS in F. assert (J : (j < 6)%nat) by (change 6%nat with (List.length FIELDS); apply nth_error_Some; rewrite F; discriminate).
      apply fields_nth; [exact J|exact I|]. apply nth_error_nth, F. }
    apply In_nth_error in H. destruct H as [n H]. unfold value. apply (cell_in _ _ n); [exact N| |]; rewrite nth_error_map, H; reflexivity.
  - intros H. apply cell_none, H.
Qed.
Section tables.
  Variables (order : list pt -> list pt) (ts : raws).
  Hypotheses (Hord : forall l, Permutation (order l) l) (Hnd : NoDup (map fst ts)) (Htm : forall p h, In (p, Some h) ts -> NoDup (map fst h)) (Hne : exists p h, In (p, Some h) ts).
  Let ps := order (pairs_of (raw_frame ts)).
  Lemma ps_in p : In p ps <-> exists h, In (p, Some h) ts.
  Proof.
    rewrite <- (pairs_raw ts (times ts) p). split; apply Permutation_in; [|apply Permutation_sym]; apply Hord.
  Qed.
  Lemma ps_nodup : NoDup ps.
  Proof. apply (Permutation_NoDup (Permutation_sym (Hord _))). apply distinct_nodup. Qed.
  Lemma ps_ne : ps <> [].
  Proof. destruct Hne as (p & h & H). intros C. assert (K : In p ps) by (apply ps_in; eauto). rewrite C in K. exact K. Qed.
  Definition ftable (dbl : bool) (fld : string) : frame cname := mkFrame (times ts) (map (fun p => (name_of dbl fld p, col_of ts fld p)) ps).
  Lemma col_length fld p h : In fld FIELDS -> In (p, Some h) ts -> List.length (col_of ts fld p) = List.length (times ts).
  Proof. intros F H. apply in_fields in F. destruct F as (i & I & ->). unfold col_of. rewrite (column_raw ts p h i Hnd H I). apply map_length. Qed.
  Lemma reformat_ok dbl fld : In fld FIELDS -> reformat order (raw_frame ts) fld dbl = Ret (ftable dbl fld).
  Proof.
    intros F. unfold reformat. rewrite (all_ok_map _ (fun p => mkFrame (times ts) [(name_of dbl fld p, col_of ts fld p)])).
    - cbn [rbind]. fold ps. rewrite (concat_same _ (times ts)).
      + unfold ftable. do 2 f_equal. clear. induction ps as [|p l IH]; [reflexivity|]. cbn. f_equal. exact IH.
      + intros C. apply map_eq_nil in C. apply ps_ne, C.
      + apply times_nodup, Htm.
      + intros f H. apply in_map_iff in H. destruct H as (p & <- & H). split; [reflexivity|]. intros c [<-|[]]. cbn [snd]. apply ps_in in H. destruct H as [h H]. apply (col_length fld p h F H).
    - intros p H. apply ps_in in H. destruct H as [h H]. apply in_fields in F. destruct F as (i & I & ->). unfold raw_frame. cbn [f_cols f_index]. unfold col_of. rewrite (column_raw ts p h i Hnd H I). reflexivity.
  Qed.
  Lemma reformat_bad dbl fld : ~ In fld FIELDS -> reformat order (raw_frame ts) fld dbl = Raise KeyError.
  Proof.
    intros F. unfold reformat. fold ps. pose proof ps_ne as N. destruct ps as [|p l]; [congruence|]. cbn [all_ok]. unfold raw_frame at 1. cbn [f_cols]. rewrite column_bad by exact F. reflexivity.
  Qed.
  Lemma ftable_spec dbl fld : In fld FIELDS -> table_for ts fld dbl (ftable dbl fld).
  Proof.
    intros F. unfold table_for, ftable. cbn [f_index f_cols]. split; [apply times_nodup, Htm|]. split; [apply times_in|]. exists ps. split; [apply ps_nodup|]. split; [apply ps_in|]. split.
    - rewrite map_map. cbn [fst]. apply map_ext. intros p. destruct dbl; reflexivity.
    - intros k p vs nm A B h H. rewrite nth_error_map, A in B. cbn in B. injection B as _ <-. apply in_fields in F. destruct F as (i & I & ->). unfold col_of. rewrite (column_raw ts p h i Hnd H I). apply value_shows; [apply (Htm p h H)|exact I].
  Qed.
  Lemma fset_keys k v l : map fst (fset k v l) = if existsb (String.eqb k) (map fst l) then map fst l else map fst l ++ [k].
  Proof. induction l as [|[k' v'] l IH]; [reflexivity|]. cbn [fset map fst existsb]. destruct (String.eqb k k'); cbn [orb map fst]; [reflexivity|]. rewrite IH. destruct (existsb (String.eqb k) (map fst l)); reflexivity. Qed.
  Lemma existsb_str k l : existsb (String.eqb k) l = true <-> In k l.
  Proof. rewrite existsb_exists. split; [intros (x & A & B); apply String.eqb_eq in B; subst; exact A|intros H; exists k; split; [exact H|apply String.eqb_refl]]. Qed.
  Lemma fset_in_keys k v l x : In x (map fst (fset k v l)) <-> x = k \/ In x (map fst l).
  Proof.
    rewrite fset_keys. destruct (existsb (String.eqb k) (map fst l)) eqn:E.
    - apply existsb_str in E. split; [auto|]. intros [->|H]; assumption.
    - rewrite in_app_iff. cbn. split; [intros [H|[H|[]]]; auto|intros [H|H]; auto].
  Qed.
  Lemma fset_nodup k v l : NoDup (map fst l) -> NoDup (map fst (fset k v l)).
  Proof.
    intros N. rewrite fset_keys. destruct (existsb (String.eqb k) (map fst l)) eqn:E; [exact N|]. apply (Permutation_NoDup (Permutation_cons_append _ _)). constructor; [|exact N]. intros H. apply existsb_str in H. congruence.
  Qed.
  Lemma fset_in k v l x w : In (x, w) (fset k v l) -> (x = k /\ w = v) \/ In (x, w) l.
  Proof.
    induction l as [|[k' v'] l IH]; cbn [fset].
    - intros [[= <- <-]|[]]. auto.
    - destruct (String.eqb_spec k k') as [->|E].
      + intros [[= <- <-]|H]; [auto|right; right; exact H].
      + intros [H|H]; [right; left; exact H|]. destruct (IH H) as [K|K]; [auto|right; right; exact K].
  Qed.
  Lemma by_field_ok dbl flds acc : Forall (fun f => In f FIELDS) flds -> (forall f F, In (f, F) acc -> F = ftable dbl f /\ In f FIELDS) -> NoDup (map fst acc) ->
    exists r, by_field order (raw_frame ts) dbl flds acc = Ret r /\ NoDup (map fst r) /\ (forall f, In f (map fst r) <-> In f flds \/ In f (map fst acc)) /\ forall f F, In (f, F) r -> F = ftable dbl f /\ In f FIELDS.
  Proof.
    revert acc. induction flds as [|f flds IH]; intros acc HF A N; cbn [by_field].
    - exists acc. split; [reflexivity|]. split; [exact N|]. split; [|exact A]. intros f. cbn. tauto.
    - inversion HF as [|? ? X Y]; subst. rewrite reformat_ok by exact X. cbn [rbind]. destruct (IH (fset f (ftable dbl f) acc) Y) as (r & E & N1 & K & T).
      + intros g G H. apply fset_in in H. destruct H as [[-> ->]|H]; [auto|apply A, H].
      + apply fset_nodup, N.
      + exists r. split; [exact E|]. split; [exact N1|]. split; [|exact T]. intros g. rewrite K, fset_in_keys. cbn [In]. split; [intros [H|[H|H]]; auto|intros [[H|H]|H]; auto].
  Qed.
  Lemma by_field_bad dbl flds acc : Exists (fun f => ~ In f FIELDS) flds -> by_field order (raw_frame ts) dbl flds acc = Raise KeyError.
  Proof.
    revert acc. induction flds as [|f flds IH]; intros acc H; [inversion H|]. cbn [by_field]. destruct (in_dec string_dec f FIELDS) as [I|I].
    - rewrite reformat_ok by exact I. cbn [rbind]. apply IH. inversion H; subst; [contradiction|assumption].
    - rewrite reformat_bad by exact I. reflexivity.
  Qed.
End tables.
Lemma aggregate_none order ts flds grand : ~ (exists p h, In (p, Some h) ts) -> aggregate order ts flds grand = Raise ValueError.
Proof.
  intros H. unfold aggregate. rewrite df_raw_eq. destruct (succ ts) as [|[p h] l] eqn:E; [reflexivity|]. exfalso. apply H. exists p, h. apply succ_in. rewrite E. left. reflexivity.
Qed.
Lemma df_raw_some ts : (exists p h, In (p, Some h) ts) -> df_raw ts = Ret (raw_frame ts).
Proof. intros (p & h & H). rewrite df_raw_eq. apply succ_in in H. destruct (succ ts); [destruct H|reflexivity]. Qed.
Lemma aggregate_bad order ts flds grand : (forall l, Permutation (order l) l) -> NoDup (map fst ts) -> (forall p h, In (p, Some h) ts -> NoDup (map fst h)) ->
  (exists p h, In (p, Some h) ts) -> Exists (fun f => ~ In f FIELDS) flds -> aggregate order ts flds grand = Raise KeyError.
Proof. intros O N T E B. unfold aggregate. rewrite (df_raw_some ts E). cbn [rbind]. rewrite by_field_bad by assumption. reflexivity. Qed.
Lemma aggregate_ok order ts flds grand : (forall l, Permutation (order l) l) -> NoDup (map fst ts) -> (forall p h, In (p, Some h) ts -> NoDup (map fst h)) ->
  (exists p h, In (p, Some h) ts) -> Forall (fun f => In f FIELDS) flds -> (grand = true -> flds <> []) ->
  exists a, aggregate order ts flds grand = Ret a /\ NoDup (map fst (ag_aggr a)) /\ (forall f, In f (map fst (ag_aggr a)) <-> In f flds) /\
    (forall f F, In (f, F) (ag_aggr a) -> table_for ts f grand F) /\
    (grand = false -> ag_grand a = None) /\
    (grand = true -> exists g, ag_grand a = Some g /\ (forall f F, In (f, F) (ag_aggr a) -> f_index F = f_index g) /\ f_cols g = flat_map (fun x => f_cols (snd x)) (ag_aggr a)).
Proof.
  intros O N T E B G. unfold aggregate. rewrite (df_raw_some ts E). cbn [rbind].
  destruct (by_field_ok order ts O N T E grand flds [] B ltac:(intros ? ? []) ltac:(constructor)) as (r & -> & N1 & K & S). cbn [rbind].
  assert (TF : forall f F, In (f, F) r -> table_for ts f grand F) by (intros f F H; destruct (S f F H) as [-> I]; apply ftable_spec; assumption).
  assert (K' : forall f, In f (map fst r) <-> In f flds) by (intros f; rewrite K; cbn; tauto). destruct grand.
  - assert (NE : map snd r <> []).
    { intros C. apply map_eq_nil in C. subst r. destruct flds as [|f flds]; [apply G; reflexivity|]. apply (proj2 (K' f)). left. reflexivity. }
    rewrite (concat_same (map snd r) (times ts) NE).
    + cbn [rbind]. eexists. split; [reflexivity|]. cbn [ag_aggr ag_grand]. split; [exact N1|]. split; [exact K'|]. split; [exact TF|]. split; [discriminate|]. intros _. eexists. split; [reflexivity|]. cbn [f_index f_cols]. split.
      * intros f F H. destruct (S f F H) as [-> _]. reflexivity.
      * clear. induction r as [|x r IH]; [reflexivity|]. cbn. f_equal. exact IH.
    + apply times_nodup, T.
    + intros F H. apply in_map_iff in H. destruct H as ([f F'] & <- & H). destruct (S f F' H) as [-> I]. cbn [snd]. split; [reflexivity|]. intros c C. unfold ftable in C. cbn [f_cols] in C. apply in_map_iff in C. destruct C as (p & <- & C).
      cbn [snd]. apply (ps_in order ts O) in C. destruct C as [h C]. apply (col_length ts N f p h I C).
  - eexists. split; [reflexivity|]. cbn [ag_aggr ag_grand]. split; [exact N1|]. split; [exact K'|]. split; [exact TF|]. split; [reflexivity|discriminate].
Qed.
(** ** the answers *)
Lemma rset_in p t l q u : NoDup (map fst l) -> (In (q, u) (rset p t l) <-> (q = p /\ u = t) \/ (q <> p /\ In (q, u) l)).
Proof.
  induction l as [|[p' t'] l IH]; intros N; cbn [rset].
  - cbn. split; [intros [[= <- <-]|[]]; auto|intros [[-> ->]|[_ []]]; auto].
  - inversion N as [|? ? A B]; subst. destruct (pt_eqb p p') eqn:E.
    + apply pt_eqb_eq in E. subst p'. cbn [In]. split.
      * intros [[= <- <-]|H]; [auto|]. right. split; [|auto]. intros ->. apply A. apply (in_map fst) in H. exact H.
      * intros [[-> ->]|[Q [H|H]]]; [auto|congruence|auto].
    + assert (D : p <> p') by (intros ->; rewrite pt_eqb_refl in E; discriminate). cbn [In]. rewrite (IH B). split.
      * intros [[= <- <-]|[H|[Q H]]]; [right; split; [congruence|auto]|auto|auto].
      * intros [H|[Q [H|H]]]; auto.
Qed.
Lemma rset_nodup p t l : NoDup (map fst l) -> NoDup (map fst (rset p t l)).
Proof.
  induction l as [|[p' t'] l IH]; intros N; cbn [rset]; [repeat constructor; intros []|]. inversion N as [|? ? A B]; subst. destruct (pt_eqb p p') eqn:E; [exact N|]. cbn [map fst]. constructor; [|apply IH, B].
  intros H. apply in_map_iff in H. destruct H as ([q u] & Q & H). cbn in Q. subst q. apply (rset_in p t l _ _ B) in H. destruct H as [[-> _]|[_ H]]; [rewrite pt_eqb_refl in E; discriminate|]. apply A. apply (in_map fst) in H. exact H.
Qed.
Definition ask (c : cc) (s : server) (freq : string) (p : pt) : res (option history) := snd (query_freqlypair c s freq (Some (fst p)) (Some (snd p)) None LFalse None true).
Lemma raw_by_pair_spec c s freq pairs acc r : raw_by_pair c s freq pairs acc = Ret r -> NoDup (map fst acc) -> (forall p t, In (p, t) acc -> ask c s freq p = Ret t) ->
  NoDup (map fst r) /\ (forall p t, In (p, t) r -> ask c s freq p = Ret t) /\ forall p, In p (map fst r) <-> In p pairs \/ In p (map fst acc).
Proof.
  revert acc. induction pairs as [|p ps IH]; intros acc; cbn [raw_by_pair].
  - intros [= <-] N A. split; [exact N|]. split; [exact A|]. cbn. tauto.
  - fold (ask c s freq p). destruct (ask c s freq p) as [t|e] eqn:E; cbn [rbind]; [|discriminate]. intros H N A. destruct (IH _ H (rset_nodup p t acc N)) as (X & Y & Z).
    + intros q u Q. apply (rset_in p t acc q u N) in Q. destruct Q as [[-> ->]|[_ Q]]; [exact E|apply A, Q].
    + split; [exact X|]. split; [exact Y|]. intros q. rewrite Z. cbn [In]. assert (M : In q (map fst (rset p t acc)) <-> q = p \/ In q (map fst acc)).
      { split.
        - intros M. apply in_map_iff in M. destruct M as ([q' u] & <- & M). apply (rset_in p t acc _ _ N) in M. destruct M as [[-> _]|[_ M]]; [auto|right; apply (in_map fst) in M; exact M].
        - intros [->|M]; [apply in_map_iff; exists (p, t); split; [reflexivity|apply (rset_in p t acc _ _ N); auto]|].
          apply in_map_iff in M. destruct M as ([q' u] & <- & M). cbn [fst]. destruct (pt_eqb p q') eqn:D.
          + apply pt_eqb_eq in D. subst q'. apply in_map_iff. exists (p, t). split; [reflexivity|apply (rset_in p t acc _ _ N); auto].
          + apply in_map_iff. exists (q', u). split; [reflexivity|]. apply (rset_in p t acc _ _ N). right. split; [|exact M]. intros ->. rewrite pt_eqb_refl in D. discriminate. }
      rewrite M. split; [intros [H1|[H1|H1]]; auto|intros [[H1|H1]|H1]; auto].
Qed.
Lemma raw_by_pair_error c s freq pairs acc e : raw_by_pair c s freq pairs acc = Raise e <->
  exists l p r, pairs = l ++ p :: r /\ ask c s freq p = Raise e /\ forall q, In q l -> exists t, ask c s freq q = Ret t.
Proof.
  revert acc. induction pairs as [|p ps IH]; intros acc; cbn [raw_by_pair].
  - split; [discriminate|]. intros (l & p & r & C & _). destruct l; discriminate.
  - fold (ask c s freq p). destruct (ask c s freq p) as [t|e'] eqn:E; cbn [rbind].
    + rewrite IH. split.
      * intros (l & q & r & -> & A & B). exists (p :: l), q, r. split; [reflexivity|]. split; [exact A|]. intros x [->|X]; [eauto|apply B, X].
      * intros ([|x l] & q & r & C & A & B); injection C as -> ->; [congruence|]. exists l, q, r. split; [reflexivity|]. split; [exact A|]. intros y Y. apply B. right. exact Y.
    + split.
      * intros [= ->]. exists [], p, ps. split; [reflexivity|]. split; [exact E|]. intros q [].
      * intros ([|x l] & q & r & C & A & B); injection C as -> ->; [congruence|]. destruct (B x (or_introl eq_refl)) as [t T]. congruence.
Qed.
