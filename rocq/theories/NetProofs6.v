(** Proofs about arbitrage graphs as networks: tables of edges, runs over many cycles. *)
From Coq Require Import Reals ZArith List Bool String Arith Lia Lra Permutation Sorted.
From Verif Require Import CurveModel CurveProofs GraphModel GraphSpec HelperModel HelperProofs PairModel PairProofs ContainerProofs2 FileSpec FileProofs NetModel NetSpec NetProofs NetProofs3 NetProofs5.
Import ListNotations.
Local Open Scope R_scope.

(** ** sorting *)
Lemma insert_by_perm {A} leb (a : A) l : Permutation (a :: l) (insert_by leb a l).
Proof. induction l as [|b l IH]; cbn; [reflexivity|]. destruct (leb a b); [reflexivity|]. rewrite perm_swap. constructor. exact IH. Qed.
Lemma sort_by_perm {A} leb (l : list A) : Permutation l (sort_by leb l).
Proof. induction l as [|a l IH]; cbn; [reflexivity|]. rewrite <- insert_by_perm. constructor. exact IH. Qed.
Lemma sort_by_sorted {A} (leb : A -> A -> bool) l : (forall a b, leb a b = true \/ leb b a = true) -> (forall a b c, leb a b = true -> leb b c = true -> leb a c = true) ->
  StronglySorted (fun a b => leb a b = true) (sort_by leb l).
Proof.
  intros T R. induction l as [|a l IH]; cbn; [constructor|]. induction IH as [|b m S IHS F]; cbn; [repeat constructor|]. destruct (leb a b) eqn:E.
  - constructor; [constructor; assumption|]. constructor; [exact E|]. eapply Forall_impl; [|exact F]. intros x X. eapply R; eassumption.
  - constructor; [exact IHS|]. apply Forall_forall. intros x X. apply (Permutation_in _ (Permutation_sym (insert_by_perm leb a m))) in X. destruct X as [<-|X]; [destruct (T a b); [congruence|assumption]|]. rewrite Forall_forall in F. auto.
Qed.
Lemma leb_refl s : String.leb s s = true.
Proof. destruct (String.leb_total s s); assumption. Qed.
Lemma key_leb_total a b : key_leb a b = true \/ key_leb b a = true.
Proof.
  destruct a as [[p i] o], b as [[p' i'] o']. cbn. rewrite (String.eqb_sym p' p), (String.eqb_sym i' i). destruct (String.eqb p p'); [destruct (String.eqb i i')|]; apply String.leb_total.
Qed.
Lemma key_leb_trans a b c : key_leb a b = true -> key_leb b c = true -> key_leb a c = true.
Proof.
  destruct a as [[p1 i1] o1], b as [[p2 i2] o2], c as [[p3 i3] o3]. cbn. 
  assert (X : forall s t u, String.leb s t = true -> String.leb t u = true -> s = u -> s = t) by (intros s t u A B <-; apply String.leb_antisym; assumption).
  destruct (String.eqb_spec p1 p2) as [->|D1].
  - destruct (String.eqb_spec p2 p3) as [->|D2]; [|intros _ A; exact A]. destruct (String.eqb_spec i1 i2) as [->|D3].
    + destruct (String.eqb_spec i2 i3) as [->|D4]; [apply cmp_trans|intros _ A; exact A].
    + destruct (String.eqb_spec i2 i3) as [->|D4]; [rewrite (proj2 (String.eqb_neq _ _) D3); intros A _; exact A|]. intros A B. destruct (String.eqb_spec i1 i3) as [->|D5]; [destruct D3; apply String.leb_antisym; assumption|]. eapply cmp_trans; eassumption.
  - destruct (String.eqb_spec p2 p3) as [->|D2]; [rewrite (proj2 (String.eqb_neq _ _) D1); intros A _; exact A|]. intros A B. destruct (String.eqb_spec p1 p3) as [->|D5]; [destruct D1; apply String.leb_antisym; assumption|]. eapply cmp_trans; eassumption.
Qed.
Lemma key_leb_pair a b : key_leb a b = true -> String.leb (pair_of a) (pair_of b) = true.
Proof. destruct a as [[p i] o], b as [[p' i'] o']. cbn. destruct (String.eqb_spec p p') as [->|]; [intros _; apply leb_refl|auto]. Qed.

(** ** groups *)
Definition keys (g : graph) (es : list edge) : list key := sort_by key_leb (nodup key_dec (map (key_of g) es)).
Lemma keys_nodup g es : NoDup (keys g es).
Proof. eapply Permutation_NoDup; [apply sort_by_perm|apply NoDup_nodup]. Qed.
Lemma keys_in g es k : In k (keys g es) <-> exists e, In e es /\ key_of g e = k.
Proof.
  unfold keys. split.
  - intros I. apply (Permutation_in _ (Permutation_sym (sort_by_perm _ _))), nodup_In, in_map_iff in I. destruct I as (e & E & I). eauto.
  - intros (e & I & E). eapply Permutation_in; [apply sort_by_perm|]. apply nodup_In, in_map_iff. eauto.
Qed.
Lemma keys_sorted g es : StronglySorted (fun a b => key_leb a b = true) (keys g es).
Proof. apply sort_by_sorted; [apply key_leb_total|apply key_leb_trans]. Qed.
Lemma key_eqb_traded g e i o : key_eqb (key_of g e) (primary norm_simple i o, i, o) = String.eqb (tkn_of g (e_in e)) i && String.eqb (tkn_of g (e_out e)) o.
Proof.
  unfold key_eqb, key_of. destruct (key_dec _ _) as [E|E].
  - injection E as _ -> ->. rewrite !String.eqb_refl. reflexivity.
  - destruct (String.eqb_spec (tkn_of g (e_in e)) i) as [A|]; [|reflexivity]. destruct (String.eqb_spec (tkn_of g (e_out e)) o) as [B|]; [|reflexivity]. subst. congruence.
Qed.
Lemma group_traded g es i o : filter (fun e => key_eqb (key_of g e) (primary norm_simple i o, i, o)) es = traded g es i o.
Proof. apply filter_ext. intros e. apply key_eqb_traded. Qed.
Lemma key_shape g es k : In k (keys g es) -> exists i o, k = (primary norm_simple i o, i, o) /\ traded g es i o <> [].
Proof.
  intros I. apply keys_in in I. destruct I as (e & I & <-). exists (tkn_of g (e_in e)), (tkn_of g (e_out e)). split; [reflexivity|]. intros E.
  assert (X : In e (traded g es (tkn_of g (e_in e)) (tkn_of g (e_out e)))) by (apply filter_In; rewrite !String.eqb_refl; auto). rewrite E in X. destruct X.
Qed.
Lemma traded_key g es i o : traded g es i o <> [] -> In (primary norm_simple i o, i, o) (keys g es).
Proof.
  intros H. destruct (traded g es i o) as [|e r] eqn:E; [congruence|]. assert (I : In e (traded g es i o)) by (rewrite E; left; reflexivity). apply filter_In in I. destruct I as [I J]. apply keys_in. exists e. split; [exact I|]. rewrite <- key_eqb_traded in J. unfold key_eqb in J. destruct (key_dec _ _); [assumption|discriminate].
Qed.
Lemma groups_keys g es : groups g es = map (fun k => (k, filter (fun e => key_eqb (key_of g e) k) es)) (keys g es).
Proof. reflexivity. Qed.
Lemma sorted_filter {A} (R : A -> A -> Prop) f l : StronglySorted R l -> StronglySorted R (filter f l).
Proof. induction 1 as [|a l S IH F]; cbn; [constructor|]. destruct (f a); [|exact IH]. constructor; [exact IH|]. rewrite Forall_forall in *. intros x X. apply filter_In in X. apply F, X. Qed.
Lemma sorted_map {A B} (R : A -> A -> Prop) (S : B -> B -> Prop) (f : A -> B) l : (forall a b, R a b -> S (f a) (f b)) -> StronglySorted R l -> StronglySorted S (map f l).
Proof. intros H. induction 1 as [|a l T IH F]; cbn; [constructor|]. constructor; [exact IH|]. rewrite Forall_forall in *. intros x X. apply in_map_iff in X. destruct X as (y & <- & Y). auto. Qed.

(** amounts *)
Lemma amount_groups_spec g es : es <> [] -> exists l, amount_groups g es = Ret l /\
  NoDup (map (fun r => fst (fst r)) l) /\ StronglySorted (fun a b => key_leb (fst (fst a)) (fst (fst b)) = true) l /\
  (forall p i o x y, In (p, i, o, x, y) l <-> p = primary norm_simple i o /\ traded g es i o <> [] /\ x = rsum (map e_ain (traded g es i o)) /\ y = rsum (map e_aout (traded g es i o))).
Proof.
  intros NE. eexists. split. { unfold amount_groups. destruct es as [|e es]; [congruence|]. rewrite groups_keys. rewrite map_map. reflexivity. }
  cbn [fst snd]. split; [|split].
  - rewrite map_map. cbn [fst]. rewrite map_id. apply keys_nodup.
  - eapply sorted_map; [|apply keys_sorted]. intros a b H. exact H.
  - intros p i o x y. rewrite in_map_iff. split.
    + intros (k & E & I). destruct (key_shape g es k I) as (i' & o' & -> & T). rewrite group_traded in E. injection E as <- <- <- <- <-. auto.
    + intros (-> & T & -> & ->). exists (primary norm_simple i o, i, o). rewrite group_traded. split; [reflexivity|]. apply traded_key, T.
Qed.
Lemma fold_plus l : forall a, fold_left Rplus l a = a + fold_left Rplus l 0.
Proof. induction l as [|x l IH]; intros a; cbn; [lra|]. rewrite (IH (a + x)), (IH (0 + x)). lra. Qed.
Lemma rsum_cons x l : rsum (x :: l) = x + rsum l.
Proof. unfold rsum. cbn. rewrite fold_plus. lra. Qed.
Lemma rsum_parts {A} (f : edge -> R) (b : A -> edge -> bool) ks es : (forall e, In e es -> exists k, In k ks /\ b k e = true) -> NoDup ks -> (forall k k' e, b k e = true -> b k' e = true -> k = k') ->
  rsum (map (fun k => rsum (map f (filter (b k) es))) ks) = rsum (map f es).
Proof.
  intros C N U. induction es as [|e es IH].
  - cbn. clear. induction ks as [|k ks IH]; [reflexivity|]. cbn [map]. rewrite rsum_cons, IH. unfold rsum. cbn. lra.
  - cbn [map]. rewrite rsum_cons. assert (C' : forall e, In e es -> exists k, In k ks /\ b k e = true) by (intros e' I; apply C; right; exact I). rewrite <- (IH C'). destruct (C e (or_introl eq_refl)) as (k & I & B). clear IH C C'.
    induction ks as [|k' ks IH]; [destruct I|]. cbn [map filter]. rewrite !rsum_cons. inversion N as [|? ? N1 N2]; subst. destruct I as [->|I].
    + rewrite B. cbn [map]. rewrite rsum_cons. assert (E : map (fun k0 => rsum (map f (filter (b k0) (e :: es)))) ks = map (fun k0 => rsum (map f (filter (b k0) es))) ks). { apply map_ext_in. intros q Q. cbn [filter]. destruct (b q e) eqn:D; [|reflexivity]. rewrite (U k q e B D) in N1. contradiction. }
      cbn [filter] in E. rewrite E. lra.
    + destruct (b k' e) eqn:D. { rewrite (U k k' e B D) in I. contradiction. } cbn [filter] in IH. rewrite IH by assumption. lra.
Qed.
Lemma amount_totals g es l : amount_groups g es = Ret l -> rsum (map (fun r => snd (fst r)) l) = rsum (map e_ain es) /\ rsum (map snd l) = rsum (map e_aout es).
Proof.
  unfold amount_groups. destruct es as [|e0 es0] eqn:E0; [discriminate|]. rewrite <- E0. intros [= <-]. rewrite groups_keys, !map_map. cbn [fst snd].
  assert (P : forall f, rsum (map (fun k => rsum (map f (filter (fun e => key_eqb (key_of g e) k) es))) (keys g es)) = rsum (map f es)).
  { intros f. apply (rsum_parts f (fun k e => key_eqb (key_of g e) k)); [|apply keys_nodup|].
    - intros e I. exists (key_of g e). split; [apply keys_in; eauto|]. unfold key_eqb. destruct (key_dec _ _); congruence.
    - intros k k' e. unfold key_eqb. destruct (key_dec _ _), (key_dec _ _); congruence. }
  split; apply P.
Qed.

(** connections *)
Lemma conn_rows_ok g es : Forall (fun e => e_ain e <> 0) es ->
  conn_rows g es = Ret (map (fun e => mkConn (key_of g e) (- e_ain e) (is_reverse (key_of g e)) (e_aout e / e_ain e) (primary_price (key_of g e) (e_aout e / e_ain e))) es).
Proof. intros F. rewrite Forall_forall in F. apply mapr_map. intros e I. rewrite rdiv_ok by (apply F; exact I). reflexivity. Qed.
Definition flip (k : key) : key := let '(p, i, o) := k in (p, o, i).
Lemma filter_map {A B} (f : A -> B) (h : B -> bool) l : filter h (map f l) = map f (filter (fun a => h (f a)) l).
Proof. induction l as [|a l IH]; [reflexivity|]. cbn. destruct (h (f a)); cbn; rewrite IH; reflexivity. Qed.
Lemma key_cases i o : let k := (primary norm_simple i o, i, o) in (is_reverse k = false /\ isprimary norm_simple i o = true /\ pair_of k = pair_str i o) \/ (is_reverse k = true /\ isprimary norm_simple i o = false /\ pair_of k = pair_str o i).
Proof. cbn. unfold primary, pair_of. cbn. destruct (isprimary norm_simple i o); [left|right]; auto. Qed.
Lemma clean_traded g es i o : clean g es -> traded g es i o <> [] -> i <> o /\ no_slash i = true /\ no_slash o = true.
Proof.
  intros C H. destruct (traded g es i o) as [|e r] eqn:E; [congruence|]. assert (I : In e (traded g es i o)) by (rewrite E; left; reflexivity). apply filter_In in I. destruct I as [I J]. apply andb_true_iff in J. rewrite !String.eqb_eq in J. destruct J as [<- <-]. unfold clean in C. rewrite Forall_forall in C. auto.
Qed.
Definition fwd_keys g es := filter (fun k => negb (is_reverse k)) (keys g es).
Definition bwd_keys g es := filter is_reverse (keys g es).
Lemma reverse_keys g es : clean g es -> both_ways g es -> bwd_keys g es = map flip (fwd_keys g es).
Proof.
  intros C W.
  assert (F : forall k, In k (fwd_keys g es) -> exists i o, k = (pair_str i o, i, o) /\ traded g es i o <> [] /\ isprimary norm_simple i o = true).
  { intros k I. apply filter_In in I. destruct I as [I R]. destruct (key_shape g es k I) as (i & o & -> & T). exists i, o. destruct (key_cases i o) as [(A & B & D)|(A & B & D)]; [|rewrite A in R; discriminate]. unfold pair_of in D. cbn in D. rewrite D. auto. }
  assert (Bk : forall k, In k (bwd_keys g es) -> exists i o, k = (pair_str i o, o, i) /\ traded g es o i <> [] /\ isprimary norm_simple o i = false).
  { intros k I. apply filter_In in I. destruct I as [I R]. destruct (key_shape g es k I) as (i & o & -> & T). exists o, i. destruct (key_cases i o) as [(A & B & D)|(A & B & D)]; [rewrite A in R; discriminate|]. unfold pair_of in D. cbn in D. rewrite D. auto. }
  assert (FB : forall k, In k (map flip (fwd_keys g es)) <-> In k (bwd_keys g es)).
  { intros k. rewrite in_map_iff. split.
    - intros (k' & <- & I). destruct (F k' I) as (i & o & -> & T & P). cbn. specialize (W i o T). destruct (clean_traded g es i o C T) as (D & _ & _). apply filter_In. assert (E : primary norm_simple o i = pair_str i o) by (unfold primary; rewrite (isprimary_flip _ i o D), P; reflexivity). split; [rewrite <- E; apply traded_key, W|]. cbn. rewrite (isprimary_flip _ i o D), P. reflexivity.
    - intros I. destruct (Bk k I) as (i & o & -> & T & P). exists (pair_str i o, i, o). split; [reflexivity|]. specialize (W o i T). destruct (clean_traded g es i o C W) as (D & _ & _). assert (Q : isprimary norm_simple i o = true) by (rewrite (isprimary_flip norm_simple o i (not_eq_sym D)), P; reflexivity). apply filter_In. assert (E : primary norm_simple i o = pair_str i o) by (unfold primary; rewrite Q; reflexivity). split; [rewrite <- E; apply traded_key, W|]. cbn. rewrite Q. reflexivity. }
  assert (NF : NoDup (map flip (fwd_keys g es))). { apply map_nodup_on; [apply filter_nodup, keys_nodup|]. intros [[? ?] ?] [[? ?] ?] _ _ [= -> -> ->]. reflexivity. }
  assert (NB : NoDup (bwd_keys g es)) by apply filter_nodup, keys_nodup.
  assert (PI : forall k k', In k (bwd_keys g es) -> In k' (bwd_keys g es) -> pair_of k = pair_of k' -> k = k').
  { intros k k' I I' E. destruct (Bk k I) as (i & o & -> & T & _), (Bk k' I') as (i' & o' & -> & T' & _). unfold pair_of in E. cbn in E. destruct (clean_traded g es o i C T) as (_ & A & B). destruct (pair_inj i o i' o' B A E) as [-> ->]. reflexivity. }
  assert (SF : sorted (map pair_of (map flip (fwd_keys g es)))). { rewrite map_map. eapply sorted_map; [|apply sorted_filter, keys_sorted]. intros a b H. apply leb_before. apply key_leb_pair in H. destruct a as [[? ?] ?], b as [[? ?] ?]. exact H. }
  assert (SB : sorted (map pair_of (bwd_keys g es))). { eapply sorted_map; [|apply sorted_filter, keys_sorted]. intros a b H. apply leb_before. apply key_leb_pair, H. }
  assert (E : map pair_of (bwd_keys g es) = map pair_of (map flip (fwd_keys g es))). { apply sorted_unique; [exact SB|exact SF|]. apply Permutation_map, NoDup_Permutation; [exact NB|exact NF|]. intros k. symmetry. apply FB. }
  assert (X : forall l m, map pair_of l = map pair_of m -> (forall k, In k l -> In k (bwd_keys g es)) -> (forall k, In k m -> In k (bwd_keys g es)) -> l = m).
  { induction l as [|a l IH]; intros [|b m] H L M; try discriminate; [reflexivity|]. cbn in H. injection H as H1 H2. f_equal; [apply PI; [apply L; left; reflexivity|apply M; left; reflexivity|exact H1]|]. apply IH; [exact H2|intros; apply L; right; assumption|intros; apply M; right; assumption]. }
  apply X; [exact E|auto|intros k K; apply FB, K].
Qed.
Lemma paste_map {A} (p : A -> string) (n : A -> R) (x : A -> option R) (m : A -> R) l :
  paste (map (fun a => (p a, n a, x a)) l) (map m l) = map (fun a => mkSum (Some (p a)) (Some (n a)) (Some (m a)) (x a)) l.
Proof. induction l as [|a l IH]; [reflexivity|]. cbn. rewrite IH. reflexivity. Qed.
Lemma nanmean_some l : l <> [] -> nanmean (map Some l) = Some (average l).
Proof. intros H. unfold nanmean. assert (E : flat_map (fun o : option R => match o with Some x => [x] | None => [] end) (map Some l) = l) by (clear H; induction l as [|a l IH]; [reflexivity|]; cbn; rewrite IH; reflexivity). rewrite E. destruct l; [congruence|]. reflexivity. Qed.
Lemma match_nonempty {A B} (l : list A) (x y : B) : l <> [] -> match l with [] => x | _ :: _ => y end = y.
Proof. destruct l; [congruence|reflexivity]. Qed.
Lemma conn_groups_spec g es : es <> [] -> clean g es -> both_ways g es -> Forall (fun e => e_ain e < 0 /\ e_aout e < 0) es -> exists l, conn_groups g es = Ret l /\
  StronglySorted (fun a b => exists p q, s_pair a = Some p /\ s_pair b = Some q /\ before p q /\ p <> q) l /\
  (forall r, In r l <-> exists i o, isprimary norm_simple i o = true /\ traded g es i o <> [] /\
     r = mkSum (Some (pair_str i o)) (Some (total_weight (traded g es i o))) (Some (total_weight (traded g es o i))) (Some (average (map out_per_in (traded g es i o))))).
Proof.
  intros NE C W S. assert (S0 : Forall (fun e => e_ain e <> 0) es) by (eapply Forall_impl; [|exact S]; intros e [A _]; lra).
  set (row := fun k : key => let '(p, i, o) := k in mkSum (Some p) (Some (total_weight (traded g es i o))) (Some (total_weight (traded g es o i))) (Some (average (map out_per_in (traded g es i o))))).
  assert (F : forall k, In k (fwd_keys g es) -> exists i o, k = (pair_str i o, i, o) /\ primary norm_simple i o = pair_str i o /\ traded g es i o <> [] /\ isprimary norm_simple i o = true).
  { intros k I. apply filter_In in I. destruct I as [I R]. destruct (key_shape g es k I) as (i & o & -> & T). exists i, o. destruct (key_cases i o) as [(A & B & D)|(A & B & D)]; [|rewrite A in R; discriminate]. unfold pair_of in D. cbn in D. rewrite D. auto. }
  assert (E : conn_groups g es = Ret (map row (fwd_keys g es))).
  { unfold conn_groups. rewrite (conn_rows_ok g es S0). cbn [rbind]. rewrite match_nonempty by (intros X; apply map_eq_nil in X; contradiction). cbv zeta. f_equal.
    rewrite groups_keys, !filter_map, !map_map. cbn [fst snd]. change (filter (fun a : key => negb (is_reverse a)) (keys g es)) with (fwd_keys g es). change (filter (fun a : key => is_reverse a) (keys g es)) with (bwd_keys g es).
    rewrite (reverse_keys g es C W), map_map. rewrite (paste_map pair_of). apply map_ext_in. intros k I. destruct (F k I) as (i & o & -> & P & T & Q). cbn [flip]. unfold row, pair_of, total_weight. cbn [fst].
    assert (G1 : filter (fun e => key_eqb (key_of g e) (pair_str i o, i, o)) es = traded g es i o) by (rewrite <- P; apply group_traded).
    destruct (clean_traded g es i o C T) as (D & _ & _). assert (P' : primary norm_simple o i = pair_str i o) by (unfold primary; rewrite (isprimary_flip _ i o D), Q; reflexivity).
    assert (G2 : filter (fun e => key_eqb (key_of g e) (pair_str i o, o, i)) es = traded g es o i) by (rewrite <- P'; apply group_traded).
    rewrite G1, G2. rewrite <- (nanmean_some (map out_per_in (traded g es i o))) by (destruct (traded g es i o); [congruence|discriminate]). do 2 f_equal. rewrite map_map. apply map_ext_in. intros e J. apply filter_In in J. destruct J as [J _]. rewrite Forall_forall in S. destruct (S e J) as [A B].
    unfold primary_price, is_reverse. rewrite Q. cbn [negb]. assert (PP : 0 < e_aout e / e_ain e). { replace (e_aout e / e_ain e) with ((- e_aout e) / (- e_ain e)) by (field; lra). apply Rdiv_lt_0_compat; lra. } unfold req. destruct (Req_EM_T (e_aout e / e_ain e) 0); [lra|reflexivity]. }
  exists (map row (fwd_keys g es)). split; [exact E|]. split.
  - assert (U : forall k k', In k (fwd_keys g es) -> In k' (fwd_keys g es) -> pair_of k = pair_of k' -> k = k').
    { intros k k' I I' H. destruct (F k I) as (i & o & -> & _ & T & _), (F k' I') as (i' & o' & -> & _ & T' & _). unfold pair_of in H. cbn in H. destruct (clean_traded g es i o C T) as (_ & A & B). destruct (pair_inj i o i' o' A B H) as [-> ->]. reflexivity. }
    assert (SS : StronglySorted (fun a b => key_leb a b = true) (fwd_keys g es)) by apply sorted_filter, keys_sorted. assert (N : NoDup (fwd_keys g es)) by apply filter_nodup, keys_nodup. clear E. revert U SS N. generalize (fwd_keys g es). clear - row. intros l U SS N.
    induction SS as [|a l SS IH FA]; cbn; [constructor|]. inversion N as [|? ? N1 N2]; subst. constructor; [apply IH; [intros; apply U; try (right; assumption); assumption|exact N2]|].
    rewrite Forall_forall in *. intros r I. apply in_map_iff in I. destruct I as (b & <- & I). exists (pair_of a), (pair_of b). destruct a as [[pa ia] oa], b as [[pb ib] ob]. cbn [row s_pair]. split; [reflexivity|]. split; [reflexivity|]. split; [apply leb_before, key_leb_pair, FA, I|]. intros H. apply N1. rewrite (U _ _ (or_introl eq_refl) (or_intror I) H). exact I.
  - intros r. rewrite in_map_iff. split.
    + intros (k & <- & I). destruct (F k I) as (i & o & -> & _ & T & Q). exists i, o. auto.
    + intros (i & o & Q & T & ->). exists (pair_str i o, i, o). split; [reflexivity|]. assert (P : primary norm_simple i o = pair_str i o) by (unfold primary; rewrite Q; reflexivity). apply filter_In. split; [rewrite <- P; apply traded_key, T|]. cbn. rewrite Q. reflexivity.
Qed.
