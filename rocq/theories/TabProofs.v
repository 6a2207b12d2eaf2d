(** Proofs for C149-C151: records, labels and tables. *)
From Coq Require Import Reals Lra Bool List String Arith Lia Permutation Sorting.Sorted.
From Verif Require Import CurveModel CurveProofs PairModel PairProofs HelperModel HelperProofs CpcModel ContainerModel ContainerSpec ContainerProofs ContainerProofs2 ContainerProofs3 FileModel TabModel TabSpec.
From Verif Require FileSpec FileProofs.
Import ListNotations.
Local Open Scope R_scope.

(** ** records *)
Definition rec_of (h : heap) (r : nat) : rec := let c := obj h r in
  mkRec (tknx c) (tkny c) (tknx c) (tkny c) (pair_of c) (primary_of c) (isprimary norm_cpc (tknx c) (tkny c)) (spot c) (primary_spot c) (x c) (x_act c) (y c) (y_act c) (cid_of h r).
Lemma pp_ok c : k c <> 0 -> x c <> 0 -> pp c = Ret (primary_spot c).
Proof.
  intros K X. unfold pp, primary_spot. destruct (isprimary norm_cpc (tknx c) (tkny c)); [reflexivity|].
  assert (N : spot c <> 0). { unfold spot, Rdiv. repeat apply Rmult_integral_contrapositive_currified; auto; apply Rinv_neq_0_compat, X. }
  change (CpcModel.p c) with (spot c). rewrite rdiv_ok by exact N. f_equal. unfold Rdiv. apply Rmult_1_l.
Qed.
Lemma pp_fails c : k c = 0 -> isprimary norm_cpc (tknx c) (tkny c) = false -> pp c = Raise ZeroDivision.
Proof.
  intros K P. unfold pp. rewrite P. unfold CpcModel.p, y. rewrite K. unfold Rdiv. rewrite !Rmult_0_l. unfold rdiv. replace (req 0 0) with true by (symmetry; apply req_iff; reflexivity). reflexivity.
Qed.
Section CONT.
Variables (h : heap) (cc : container).
Hypothesis G : good h cc.
Hypothesis T : forall r, In r (curves cc) -> no_slash (tknx (obj h r)) = true /\ no_slash (tkny (obj h r)) = true /\ x (obj h r) <> 0.
Lemma toks : tokens_ok h cc. Proof. intros r I1. destruct (T r I1) as (A & B & _). auto. Qed.
Definition sel (ps : option (list (string * string))) : list nat := filter (fun r => chosen ps (obj h r)) (curves cc).
Lemma chosen_iff l c : chosen (Some l) c = true <-> exists b q, In (b, q) l /\ on_tokens b q c.
Proof.
  unfold chosen. rewrite existsb_exists. split; [intros ([b q] & I1 & E); exists b, q; split; [exact I1|apply on_tokens_iff, E]|intros (b & q & I1 & E); exists (b, q); split; [exact I1|apply on_tokens_iff, E]].
Qed.
Lemma sel_ok ps : proper ps -> bypairs h cc (Some (match asked ps with Some l => l | None => pairs h cc true end)) false = Ret (sel ps).
Proof.
  intros P. destruct ps as [l|]; cbn [asked option_map].
  - destruct (bypairs_undir h cc (map str_of l) toks) as [_ B]. specialize (P l eq_refl). rewrite Forall_forall in P.
    destruct B as (keep & E & K). { intros s I1. apply in_map_iff in I1. destruct I1 as ([b q] & <- & I1). destruct (P _ I1) as [A B]. unfold str_of. cbn [fst snd] in *. rewrite parse_str by assumption. discriminate. }
    rewrite E. f_equal. apply filter_ext_in'. intros r I1. apply bool_iff. rewrite (K r I1), chosen_iff. split.
    + intros (b & q & I2 & O). apply in_map_iff in I2. destruct I2 as ([b' q'] & E2 & I2). destruct (P _ I2) as [A B]. cbn [fst snd] in *. unfold str_of in E2. cbn [fst snd] in E2. apply pair_inj in E2; [|assumption..]. destruct E2 as [-> ->]. eauto.
    + intros (b & q & I2 & O). exists b, q. split; [|exact O]. apply in_map_iff. exists (b, q). auto.
  - destruct (bypairs_undir h cc (pairs h cc true) toks) as [_ B].
    assert (PP : forall r, In r (curves cc) -> exists b q, primary_of (obj h r) = pair_str b q /\ no_slash b = true /\ no_slash q = true /\ on_tokens b q (obj h r)).
    { intros r I1. destruct (toks r I1) as [A C]. unfold primary_of. destruct (primary_cases (tknx (obj h r)) (tkny (obj h r))) as [[_ E]|[_ E]]; rewrite E; do 2 eexists; (split; [reflexivity|]); unfold on_tokens; auto. }
    assert (IP : forall r, In r (curves cc) -> In (primary_of (obj h r)) (pairs h cc true)). { intros r I1. unfold pairs. rewrite as_set_in. apply in_map_iff. exists r. auto. }
    destruct B as (keep & E & K). { intros s I1. unfold pairs in I1. rewrite as_set_in in I1. apply in_map_iff in I1. destruct I1 as (r & <- & I1). destruct (PP r I1) as (b & q & -> & A & C & _). rewrite parse_str by assumption. discriminate. }
    rewrite E. f_equal. apply filter_ext_in'. intros r I1. cbn [chosen]. apply (K r I1). destruct (PP r I1) as (b & q & E2 & _ & _ & O). exists b, q. rewrite <- E2. split; [apply IP, I1|exact O].
Qed.
Lemma curvedata_ok ps : proper ps -> (forall c, In c (curves_on h cc ps) -> k c <> 0) -> curvedata h cc (asked ps) = Ret (map (rec_of h) (sel ps)).
Proof.
  intros P K. unfold curvedata. rewrite (sel_ok ps P). cbn [rbind]. apply rmap_ok. intros r I1. apply filter_In in I1. destruct I1 as [I1 C].
  unfold record_of. rewrite pp_ok; [reflexivity| |apply T, I1]. apply K. unfold curves_on. apply filter_In. split; [apply in_map, I1|exact C].
Qed.
Lemma curvedata_fails ps c : proper ps -> In c (curves_on h cc ps) -> k c = 0 -> isprimary norm_cpc (tknx c) (tkny c) = false -> curvedata h cc (asked ps) = Raise ZeroDivision.
Proof.
  intros P I1 K Np. unfold curvedata. rewrite (sel_ok ps P). cbn [rbind]. unfold curves_on in I1. apply filter_In in I1. destruct I1 as [I1 C]. apply in_map_iff in I1. destruct I1 as (r & <- & I1).
  apply rmap_raise; [|exists r; split; [apply filter_In; auto|]].
  - intros r' e. unfold record_of, pp. destruct (isprimary norm_cpc (tknx (obj h r')) (tkny (obj h r'))); [discriminate|]. unfold rdiv. destruct (req (CpcModel.p (obj h r')) 0); cbn; [congruence|discriminate].
  - unfold record_of. rewrite pp_fails by assumption. reflexivity.
Qed.
Lemma objs_sel ps : map (obj h) (sel ps) = curves_on h cc ps.
Proof. unfold sel, curves_on. symmetry. apply filter_map. Qed.
Lemma rec_says r : In r (curves cc) -> says h r (rec_of h r).
Proof.
  intros I1. destruct (proj1 G r I1) as [L N]. exists (deref h r), (cid_of h r). split; [apply deref_nth, L|]. split; [unfold cid_of; destruct (c_cid (deref h r)); [reflexivity|congruence]|].
  unfold rec_of. cbn [r_cid r_tknx r_tkny r_tknb r_tknq r_pair r_isprimary r_primary r_p r_pp r_x r_xa r_y r_ya]. repeat split; try reflexivity.
Qed.
End CONT.

(** ** labels and tables *)
Lemma labels_ok l : labelled (labels l) l.
Proof.
  unfold labels. split; [apply FileProofs.sort_sorted|]. split; [apply (Permutation_NoDup (FileProofs.sort_perm _)), as_set_nodup|].
  intros s. rewrite <- (as_set_in l s). split; apply Permutation_in; [symmetry|]; apply FileProofs.sort_perm.
Qed.
Lemma labels_in l s : In s (labels l) <-> In s l. Proof. apply labels_ok. Qed.
Lemma cell_tabulate {A} rows cols (f : string -> string -> A) a b v : cell_is (tabulate rows cols f) a b v <-> In a rows /\ In b cols /\ v = f a b.
Proof.
  unfold cell_is, tabulate. cbn [t_rows t_cols t_cells]. split.
  - intros (i & j & row & A1 & B & C & D). split; [eapply nth_error_In, A1|]. split; [eapply nth_error_In, B|].
    rewrite nth_error_map, A1 in C. injection C as <-. rewrite nth_error_map, B in D. injection D as <-. reflexivity.
  - intros (A1 & B & ->). apply In_nth_error in A1, B. destruct A1 as [i Ai], B as [j Bj]. exists i, j. eexists. repeat split; [exact Ai|exact Bj|rewrite nth_error_map, Ai; reflexivity|]. rewrite nth_error_map, Bj. reflexivity.
Qed.
Lemma cell_filled {A} (d : A) t a b v : cell_is (filled d t) a b v <-> exists o, cell_is t a b o /\ v = match o with Some w => w | None => d end.
Proof.
  unfold cell_is, filled. cbn [t_rows t_cols t_cells]. split.
  - intros (i & j & row & A1 & B & C & D). rewrite nth_error_map in C. destruct (nth_error (t_cells t) i) as [row'|] eqn:E; [|discriminate]. injection C as <-.
    rewrite nth_error_map in D. destruct (nth_error row' j) as [o|] eqn:F; [|discriminate]. injection D as <-. exists o. split; [|reflexivity]. exists i, j, row'. auto.
  - intros (o & (i & j & row & A1 & B & C & D) & ->). exists i, j. eexists. split; [exact A1|]. split; [exact B|]. rewrite nth_error_map, C. split; [reflexivity|]. rewrite nth_error_map, D. reflexivity.
Qed.
Lemma position_in l a : In a l -> exists i, position l a = Some i /\ nth_error l i = Some a.
Proof.
  induction l as [|b l IH]; [intros []|]. cbn [position]. destruct (String.eqb_spec b a) as [->|N]; [intros _; exists O; auto|]. intros [E|I1]; [contradiction|]. destruct (IH I1) as (i & -> & E). exists (S i). auto.
Qed.
Lemma position_out l a : ~ In a l -> position l a = None.
Proof. induction l as [|b l IH]; [reflexivity|]. intros N. cbn [position]. destruct (String.eqb_spec b a) as [->|_]; [exfalso; apply N; left; reflexivity|]. rewrite IH; [reflexivity|]. intros I1. apply N. right. exact I1. Qed.
Lemma tcell_in {A} rows cols (f : string -> string -> A) a b : In a rows -> In b cols -> tcell (tabulate rows cols f) a b = Some (f a b).
Proof.
  intros A1 B. unfold tcell, tabulate. cbn [t_rows t_cols t_cells]. destruct (position_in _ _ A1) as (i & -> & E). destruct (position_in _ _ B) as (j & -> & F). rewrite nth_error_map, E. cbn [option_map]. rewrite nth_error_map, F. reflexivity.
Qed.
Lemma tcell_out {A} (t : table A) a b : ~ In a (t_rows t) \/ ~ In b (t_cols t) -> tcell t a b = None.
Proof. unfold tcell. intros [N|N]; rewrite (position_out _ _ N); [reflexivity|]. destruct (position (t_rows t) a); reflexivity. Qed.
Lemma filled_tabulate {A} (d : A) rows cols f : filled d (tabulate rows cols f) = tabulate rows cols (fun a b => match f a b with Some v => v | None => d end).
Proof. unfold filled, tabulate. cbn [t_rows t_cols t_cells]. f_equal. rewrite map_map. apply map_ext. intros a. rewrite map_map. reflexivity. Qed.

(** ** pivot tables of the records of curves *)
Lemma filter_all {A} (f : A -> bool) l : (forall a, In a l -> f a = true) -> filter f l = l.
Proof. induction l as [|a l IH]; [reflexivity|]. intros H. cbn. rewrite H by (left; reflexivity). f_equal. apply IH. intros b I1. apply H. right. exact I1. Qed.
Lemma group_recs h (l : list nat) f g a b : (forall r, f (rec_of h r) = tknx (obj h r)) -> (forall r, g (rec_of h r) = tkny (obj h r)) ->
  group f g (map (rec_of h) l) a b = map (rec_of h) (filter (fun r => String.eqb (tknx (obj h r)) a && String.eqb (tkny (obj h r)) b) l).
Proof. intros F Gg. unfold group. rewrite filter_map. f_equal. apply filter_ext. intros r. rewrite F, Gg. reflexivity. Qed.
Lemma filter_objs h (l : list nat) a b : map (obj h) (filter (fun r => String.eqb (tknx (obj h r)) a && String.eqb (tkny (obj h r)) b) l) = from_to a b (map (obj h) l).
Proof. unfold from_to. symmetry. apply filter_map. Qed.
Lemma group_self f g l r : In r l -> group f g l (f r) (g r) <> [].
Proof. intros I1 E. assert (X : In r (group f g l (f r) (g r))) by (apply filter_In; rewrite !String.eqb_refl; auto). rewrite E in X. exact X. Qed.
Lemma pivot_total {A} f g (agg : list rec -> option A) l : (forall grp, grp <> [] -> exists v, agg grp = Some v) ->
  pivot f g agg l = tabulate (labels (map f l)) (labels (map g l)) (fun a b => match group f g l a b with [] => None | grp => agg grp end).
Proof.
  intros H. unfold pivot. cbv zeta. rewrite (filter_all _ l); [reflexivity|]. intros r I1. pose proof (group_self f g l r I1) as N. destruct (group f g l (f r) (g r)) as [|e grp]; [contradiction|].
  destruct (H (e :: grp) ltac:(discriminate)) as [v ->]. reflexivity.
Qed.
Lemma counts_eq f g l : counts f g l = tabulate (labels (map f l)) (labels (map g l)) (fun a b => List.length (group f g l a b)).
Proof.
  unfold counts. rewrite pivot_total by (intros grp _; eexists; reflexivity). rewrite filled_tabulate. unfold tabulate. f_equal. apply map_ext. intros a. apply map_ext. intros b. destruct (group f g l a b); reflexivity.
Qed.
Lemma counts_recs h l f g : (forall r, f (rec_of h r) = tknx (obj h r)) -> (forall r, g (rec_of h r) = tkny (obj h r)) ->
  counts f g (map (rec_of h) l) = tabulate (labels (map tknx (map (obj h) l))) (labels (map tkny (map (obj h) l))) (fun a b => List.length (from_to a b (map (obj h) l))).
Proof.
  intros F Gg. rewrite counts_eq. rewrite !map_map. rewrite (map_ext (fun r => f (rec_of h r)) _ F), (map_ext (fun r => g (rec_of h r)) _ Gg).
  unfold tabulate. f_equal. apply map_ext. intros a. apply map_ext. intros b. rewrite (group_recs h l f g a b F Gg), map_length, <- filter_objs, map_length. reflexivity.
Qed.
Lemma symmetric_cell xs ys (n : string -> string -> nat) : let t := make_symmetric (tabulate (labels xs) (labels ys) n) in
  labelled (t_rows t) (xs ++ ys) /\ t_cols t = t_rows t /\
  forall a b, In a (xs ++ ys) -> In b (xs ++ ys) ->
    (both xs ys a -> both xs ys b -> forall v, cell_is t a b v <-> v = (n a b + n b a)%nat) /\
    (~ (both xs ys a /\ both xs ys b) -> forall v, cell_is t a b v <-> v = O).
Proof.
  cbv zeta. unfold make_symmetric. cbv zeta. set (t0 := tabulate (labels xs) (labels ys) n). set (fields := labels (t_rows t0 ++ t_cols t0)). rewrite filled_tabulate.
  assert (Fi : forall s, In s fields <-> In s (xs ++ ys)). { intros s. unfold fields, t0. cbn [t_rows t_cols tabulate]. rewrite labels_in, !in_app_iff, !labels_in. reflexivity. }
  cbn [t_rows t_cols tabulate]. split; [|split; [reflexivity|]].
  { destruct (labels_ok (t_rows t0 ++ t_cols t0)) as (A & B & _). split; [exact A|]. split; [exact B|exact Fi]. }
  intros a b Ia Ib. apply Fi in Ia, Ib.
  assert (V : forall v F, cell_is (tabulate fields fields F) a b v <-> v = F a b :> nat). { intros v F. rewrite cell_tabulate. tauto. }
  assert (C0 : forall a b, In a xs -> In b ys -> tcell t0 a b = Some (n a b)). { intros a' b' A B. apply tcell_in; apply labels_in; assumption. }
  split.
  - intros [A1 A2] [B1 B2] v. rewrite V. rewrite !tcell_in by assumption. rewrite (C0 a b A1 B2), (C0 b a B1 A2). reflexivity.
  - intros N v. rewrite V. rewrite !tcell_in by assumption. destruct (in_dec string_dec a xs) as [A1|A1]; [destruct (in_dec string_dec b ys) as [B2|B2]; [destruct (in_dec string_dec b xs) as [B1|B1]; [destruct (in_dec string_dec a ys) as [A2|A2]|]|]|].
    + exfalso. apply N. repeat split; assumption.
    + rewrite (C0 a b A1 B2), (tcell_out t0 b a); [reflexivity|]. right. cbn [t_cols tabulate t0]. unfold t0. cbn. rewrite labels_in. exact A2.
    + rewrite (C0 a b A1 B2), (tcell_out t0 b a); [reflexivity|]. left. unfold t0. cbn. rewrite labels_in. exact B1.
    + rewrite (tcell_out t0 a b); [reflexivity|]. right. unfold t0. cbn. rewrite labels_in. exact B2.
    + rewrite (tcell_out t0 a b); [reflexivity|]. left. unfold t0. cbn. rewrite labels_in. exact A1.
Qed.
