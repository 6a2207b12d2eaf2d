(** Proofs about aggregated price tables. *)
From Coq Require Import ZArith QArith List Bool String Lia Permutation.
From Verif Require Import PairModel CurveModel CcModel AggrModel AggrSpec.
Import ListNotations.
Local Open Scope string_scope.
Local Open Scope list_scope.

Lemma pt_eqb_eq a b : pt_eqb a b = true <-> a = b.
Proof.
  destruct a as [a1 a2], b as [b1 b2]. unfold pt_eqb. cbn [fst snd]. rewrite andb_true_iff, !String.eqb_eq. split; [intros [-> ->]; reflexivity|intros [= -> ->]; split; reflexivity].
Qed.
Lemma pt_eqb_refl a : pt_eqb a a = true. Proof. apply pt_eqb_eq. reflexivity. Qed.

Lemma existsb_Z t l : existsb (Z.eqb t) l = true <-> In t l.
Proof. rewrite existsb_exists. split; [intros (x & A & B); apply Z.eqb_eq in B; subst; exact A|intros H; exists t; split; [exact H|apply Z.eqb_refl]]. Qed.
Lemma add_times_in l m t : In t (add_times l m) <-> In t l \/ In t m.
Proof.
  unfold add_times. rewrite in_app_iff, filter_In. split; [intros [H|[H _]]; auto|]. intros [H|H]; [auto|]. destruct (existsb (Z.eqb t) l) eqn:E; [left; apply existsb_Z, E|right; split; [exact H|reflexivity]].
Qed.
Lemma add_times_nodup l m : NoDup l -> NoDup m -> NoDup (add_times l m).
Proof.
  intros L M. unfold add_times. induction l as [|a l IH] in L, m, M |- *.
  - cbn. apply NoDup_filter, M.
  - assert (G : forall l1 l2 : list Z, NoDup l1 -> NoDup l2 -> (forall x, In x l1 -> ~ In x l2) -> NoDup (l1 ++ l2)).
    { clear. induction l1 as [|b l1 IH]; intros l2 A B D; [exact B|]. inversion A; subst. cbn. constructor.
      - rewrite in_app_iff. intros [H|H]; [contradiction|apply (D b); [left; reflexivity|exact H]].
      - apply IH; [assumption|exact B|]. intros x H. apply D. right. exact H. }
    apply G; [exact L|apply NoDup_filter, M|]. intros x H. rewrite filter_In. intros [_ C]. apply existsb_Z in H. rewrite H in C. discriminate.
Qed.
Lemma fold_times_in ls acc t : In t (fold_left add_times ls acc) <-> In t acc \/ exists l, In l ls /\ In t l.
Proof.
  revert acc. induction ls as [|l ls IH]; intros acc; cbn [fold_left].
  - split; [auto|]. intros [H|(l & [] & _)]. exact H.
  - rewrite IH, add_times_in. split.
    + intros [[H|H]|(m & A & B)]; [auto|right; exists l; split; [left; reflexivity|exact H]|right; exists m; split; [right; exact A|exact B]].
    + intros [H|(m & [->|A] & B)]; [auto|auto|right; exists m; auto].
Qed.
Lemma fold_times_nodup ls acc : NoDup acc -> Forall (@NoDup Z) ls -> NoDup (fold_left add_times ls acc).
Proof. revert acc. induction ls as [|l ls IH]; intros acc A H; cbn [fold_left]; [exact A|]. inversion H; subst. apply IH; [apply add_times_nodup; assumption|assumption]. Qed.
Lemma filter_none {A} (f : A -> bool) l : (forall x, In x l -> f x = false) -> filter f l = [].
Proof. induction l as [|a l IH]; intros H; cbn; [reflexivity|]. rewrite (H a) by (left; reflexivity). apply IH. intros x Hx. apply H. right. exact Hx. Qed.
Lemma filter_all {A} (f : A -> bool) l : (forall x, In x l -> f x = true) -> filter f l = l.
Proof. induction l as [|a l IH]; intros H; cbn; [reflexivity|]. rewrite (H a) by (left; reflexivity). f_equal. apply IH. intros x Hx. apply H. right. exact Hx. Qed.
Lemma fold_times_same idx ls : (forall l, In l ls -> l = idx) -> fold_left add_times ls idx = idx.
Proof.
  induction ls as [|l ls IH]; intros H; cbn [fold_left]; [reflexivity|]. rewrite (H l) by (left; reflexivity). unfold add_times at 2. rewrite filter_none, app_nil_r.
  - apply IH. intros m Hm. apply H. right. exact Hm.
  - intros x Hx. apply existsb_Z in Hx. rewrite Hx. reflexivity.
Qed.

Lemma cell_in idx vs k t v : NoDup idx -> nth_error idx k = Some t -> nth_error vs k = Some v -> cell idx vs t = v.
Proof.
  revert vs k. induction idx as [|u idx IH]; intros [|w vs] [|k] N A B; try discriminate; cbn in *.
  - injection A as ->. injection B as ->. rewrite Z.eqb_refl. reflexivity.
  - inversion N; subst. destruct (Z.eqb_spec u t) as [->|E]; [exfalso; apply nth_error_In in A; contradiction|]. apply (IH vs k); assumption.
Qed.
Lemma cell_none idx vs t : ~ In t idx -> cell idx vs t = None.
Proof.
  revert vs. induction idx as [|u idx IH]; intros [|w vs] H; try reflexivity. cbn. destruct (Z.eqb_spec u t) as [->|E]; [exfalso; apply H; left; reflexivity|]. apply IH. intros C. apply H. right. exact C.
Qed.
Lemma cells_same idx vs : NoDup idx -> List.length vs = List.length idx -> map (cell idx vs) idx = vs.
Proof.
  intros N L. apply nth_ext with (d := None) (d' := None); [rewrite map_length; symmetry; exact L|]. intros k Hk. rewrite map_length in Hk.
  destruct (nth_error idx k) as [t|] eqn:A; [|apply nth_error_None in A; lia]. destruct (nth_error vs k) as [v|] eqn:B; [|apply nth_error_None in B; lia].
  rewrite (nth_error_nth vs k None B). apply nth_error_nth. rewrite nth_error_map, A. cbn. f_equal. apply (cell_in idx vs k); assumption.
Qed.
Lemma concat_same {A} (l : list (frame A)) idx : l <> [] -> NoDup idx -> (forall f, In f l -> f_index f = idx /\ forall c, In c (f_cols f) -> List.length (snd c) = List.length idx) ->
  concat l = Ret (mkFrame idx (flat_map f_cols l)).
Proof.
  intros NE N H. destruct l as [|f l]; [congruence|]. unfold concat. assert (E : fold_left add_times (map f_index (f :: l)) [] = idx).
  { cbn [map fold_left]. destruct (H f (or_introl eq_refl)) as [-> _]. change (add_times [] idx) with (filter (fun t => negb (existsb (Z.eqb t) [])) idx). rewrite filter_all by reflexivity.
    apply fold_times_same. intros m Hm. apply in_map_iff in Hm. destruct Hm as (g & <- & G). apply H. right. exact G. }
  cbv zeta. rewrite E. f_equal. f_equal. clear E NE. revert H. generalize (f :: l). intros m H. induction m as [|g m IH]; [reflexivity|]. cbn [flat_map]. f_equal.
  - unfold reindex. destruct (H g (or_introl eq_refl)) as [-> C]. rewrite <- (map_id (f_cols g)) at 2. apply map_ext_in. intros [a vs] Hc. cbn. f_equal. apply cells_same; [exact N|]. apply (C _ Hc).
  - apply IH. intros g' G. apply H. right. exact G.
Qed.

(** ** the raw table *)
(** the pairs that were answered *)
Definition succ (ts : raws) : list (pt * history) := flat_map (fun x => match snd x with Some h => [(fst x, h)] | None => [] end) ts.
Lemma succ_in ts p h : In (p, h) (succ ts) <-> In (p, Some h) ts.
Proof.
  unfold succ. rewrite in_flat_map. split.
  - intros ([q [g|]] & A & B); cbn in B; [|destruct B]. destruct B as [[= -> ->]|[]]. exact A.
  - intros H. exists (p, Some h). split; [exact H|left; reflexivity].
Qed.
Lemma succ_nodup ts : NoDup (map fst ts) -> NoDup (map fst (succ ts)).
Proof.
  induction ts as [|[p [h|]] ts IH]; intros N; [constructor| |]; inversion N as [|? ? A B]; subst; cbn.
  - constructor; [|apply IH, B]. intros C. apply A. apply in_map_iff in C. destruct C as ([q g] & <- & C). apply succ_in in C. apply (in_map fst) in C. exact C.
  - apply IH, B.
Qed.
Definition value (h : history) (i : nat) (t : Z) : option Q := cell (map fst h) (map (fun r => nth_error (snd r) i) h) t.
Definition times (ts : raws) : list Z := fold_left add_times (map (fun x => map fst (snd x)) (succ ts)) [].
Definition raw_cols (ts : raws) : list ((pt * string) * list (option Q)) :=
  flat_map (fun x => map (fun i => ((fst x, nth i FIELDS ""), map (value (snd x) i) (times ts))) (seq 0 6)) (succ ts).
Lemma tables_succ ts : flat_map (fun x => match snd x with Some h => [table_of (fst x) h] | None => [] end) ts = map (fun x => table_of (fst x) (snd x)) (succ ts).
Proof. induction ts as [|[p [h|]] ts IH]; [reflexivity| |exact IH]. unfold succ in *. cbn [flat_map snd fst app map]. f_equal. exact IH. Qed.
Lemma df_raw_eq ts : df_raw ts = match succ ts with [] => Raise ValueError | _ => Ret (mkFrame (times ts) (raw_cols ts)) end.
Proof.
  unfold df_raw. rewrite tables_succ. unfold raw_cols, times. assert (C : forall l : list (frame (pt * string)), l <> [] -> concat l = Ret (mkFrame (fold_left add_times (map f_index l) []) (flat_map (reindex (fold_left add_times (map f_index l) [])) l))) by (intros [|f l] H; [congruence|reflexivity]).
  destruct (succ ts) as [|x l] eqn:E; [reflexivity|]. rewrite <- E. assert (NE : succ ts <> []) by (rewrite E; discriminate). clear E x l. revert NE. generalize (succ ts). intros m NE.
  assert (G : forall idx, flat_map (reindex idx) (map (fun x : pt * history => table_of (fst x) (snd x)) m) = flat_map (fun x : pt * history => map (fun i => ((fst x, nth i FIELDS ""), map (value (snd x) i) idx)) (seq 0 6)) m).
  { intros idx. clear. induction m as [|y m IH]; [reflexivity|]. cbn [map flat_map]. apply (f_equal2 (@app _)); [reflexivity|exact IH]. }
  rewrite C by (destruct m; [congruence|discriminate]). rewrite G, map_map. reflexivity.
Qed.
Lemma times_in ts t : In t (times ts) <-> exists p h, In (p, Some h) ts /\ In t (map fst h).
Proof.
  unfold times. rewrite fold_times_in. split.
  - intros [[]|(l & A & B)]. apply in_map_iff in A. destruct A as ([p h] & <- & A). exists p, h. split; [apply succ_in, A|exact B].
  - intros (p & h & A & B). right. exists (map fst h). split; [|exact B]. apply in_map_iff. exists (p, h). split; [reflexivity|apply succ_in, A].
Qed.
Lemma times_nodup ts : (forall p h, In (p, Some h) ts -> NoDup (map fst h)) -> NoDup (times ts).
Proof.
  intros H. apply fold_times_nodup; [constructor|]. apply Forall_forall. intros l A. apply in_map_iff in A. destruct A as ([p h] & <- & A). apply (H p). apply succ_in, A.
Qed.
Lemma raw_cols_in ts p fld vs : In ((p, fld), vs) (raw_cols ts) <-> exists h i, In (p, Some h) ts /\ (i < 6)%nat /\ fld = nth i FIELDS "" /\ vs = map (value h i) (times ts).
Proof.
  unfold raw_cols. rewrite in_flat_map. split.
  - intros ([q h] & A & B). apply in_map_iff in B. destruct B as (i & E & I). cbn [fst snd] in E. injection E as <- <- <-. exists h, i. split; [apply succ_in, A|]. apply in_seq in I. split; [lia|]. split; reflexivity.
  - intros (h & i & A & I & -> & ->). exists (p, h). split; [apply succ_in, A|]. apply in_map_iff. exists i. split; [reflexivity|]. apply in_seq. lia.
Qed.
Lemma distinct_in l p : In p (distinct l) <-> In p l.
Proof.
  induction l as [|q l IH]; [reflexivity|]. cbn [distinct In]. rewrite filter_In, IH. split; [intros [H|[H _]]; auto|]. intros [H|H]; [auto|].
  destruct (pt_eqb q p) eqn:E; [left; apply pt_eqb_eq, E|right; split; [exact H|reflexivity]].
Qed.
Lemma distinct_nodup l : NoDup (distinct l).
Proof.
  induction l as [|q l IH]; [constructor|]. cbn [distinct]. constructor; [|apply NoDup_filter, IH]. rewrite filter_In. intros [_ C]. rewrite pt_eqb_refl in C. discriminate.
Qed.
Lemma column_in p fld l vs : column p fld l = Ret vs -> In ((p, fld), vs) l.
Proof.
  induction l as [|[[q g] ws] l IH]; cbn [column]; [discriminate|]. destruct (pt_eqb p q && String.eqb fld g)%bool eqn:E.
  - intros [= ->]. apply andb_true_iff in E. destruct E as [A B]. apply pt_eqb_eq in A. apply String.eqb_eq in B. subst. left. reflexivity.
  - intros H. right. apply IH, H.
Qed.
Lemma column_total p fld l vs : In ((p, fld), vs) l -> exists ws, column p fld l = Ret ws.
Proof.
  induction l as [|[[q g] ws] l IH]; [intros []|]. intros H. cbn [column]. destruct (pt_eqb p q && String.eqb fld g)%bool eqn:E; [eauto|].
  apply IH. destruct H as [[= -> -> ->]|H]; [rewrite pt_eqb_refl, String.eqb_refl in E; discriminate|exact H].
Qed.
Lemma column_error p fld l e : column p fld l = Raise e -> e = KeyError.
Proof. induction l as [|[[q g] ws] l IH]; cbn [column]; [congruence|]. destruct (pt_eqb p q && String.eqb fld g)%bool; [discriminate|exact IH]. Qed.
Lemma fields_nth i j : (i < 6)%nat -> (j < 6)%nat -> nth i FIELDS "" = nth j FIELDS "" -> i = j.
Proof. intros I J. do 6 (destruct i as [|i]; [do 6 (destruct j as [|j]; [try reflexivity; discriminate|]); lia|]). lia. Qed.
Lemma in_fields f : In f FIELDS <-> exists i, (i < 6)%nat /\ f = nth i FIELDS "".
Proof.
  split.
  - intros H. apply (In_nth _ _ "") in H. destruct H as (i & L & E). exists i. split; [exact L|symmetry; exact E].
  - intros (i & L & ->). apply nth_In. exact L.
Qed.
Lemma ts_fun (ts : raws) p a b : NoDup (map fst ts) -> In (p, a) ts -> In (p, b) ts -> a = b.
Proof.
  induction ts as [|[q c] ts IH]; intros N A B; [destruct A|]. inversion N as [|? ? X Y]; subst. destruct A as [A|A], B as [B|B]; [congruence| | |].
  - exfalso. apply X. apply (in_map fst) in B. injection A as -> _. exact B.
  - exfalso. apply X. apply (in_map fst) in A. injection B as -> _. exact A.
  - apply IH; assumption.
Qed.
Lemma column_raw ts p h i : NoDup (map fst ts) -> In (p, Some h) ts -> (i < 6)%nat -> column p (nth i FIELDS "") (raw_cols ts) = Ret (map (value h i) (times ts)).
Proof.
  intros N H I. destruct (column_total p (nth i FIELDS "") (raw_cols ts) (map (value h i) (times ts))) as [ws E]; [apply raw_cols_in; exists h, i; auto|].
  rewrite E. f_equal. apply column_in, raw_cols_in in E. destruct E as (h' & j & A & J & F & ->). apply fields_nth in F; [|exact I|exact J]. subst j.
  pose proof (ts_fun ts p _ _ N H A) as Q. injection Q as <-. reflexivity.
Qed.
Lemma column_bad ts p f : ~ In f FIELDS -> column p f (raw_cols ts) = Raise KeyError.
Proof.
  intros H. destruct (column p f (raw_cols ts)) as [vs|e] eqn:E; [|apply column_error in E; congruence]. apply column_in, raw_cols_in in E. destruct E as (h & i & _ & I & -> & _). exfalso. apply H, in_fields. eauto.
Qed.
Lemma pairs_raw ts idx p : In p (pairs_of (mkFrame idx (raw_cols ts))) <-> exists h, In (p, Some h) ts.
Proof.
  unfold pairs_of. cbn [f_cols]. rewrite distinct_in, in_map_iff. split.
  - intros ([[q f] vs] & <- & H). apply raw_cols_in in H. destruct H as (h & i & H & _). exists h. exact H.
  - intros [h H]. exists ((p, nth 0 FIELDS ""), map (value h 0) (times ts)). split; [reflexivity|]. apply raw_cols_in. exists h, 0%nat. split; [exact H|]. split; [lia|]. split; reflexivity.
Qed.
