(** Proofs about arbitrage graphs as networks: tables of pools, runs over many cycles. *)
From Coq Require Import Reals ZArith List Bool String Arith Lia Lra Permutation Sorted.
From Verif Require Import CurveModel CurveProofs GraphModel GraphSpec HelperModel HelperProofs GraphProofs9 PairModel PairProofs ContainerProofs2 FileSpec FileProofs NetModel NetSpec NetProofs NetProofs2 NetProofs3 NetProofs5 NetProofs6.
Import ListNotations.
Local Open Scope R_scope.

Lemma named_inj g i j : named g -> on_graph g i -> on_graph g j -> tkn_of g i = tkn_of g j -> i = j.
Proof.
  intros N I J E. assert (A := node_of_named g i N I). assert (B := node_of_named g j N J). unfold node_of in A, B. rewrite E in A. destruct (node_by_tkn g (tkn_of g j)) as [k|]; [|discriminate]. cbn [rbind] in A, B. destruct (Nat.eqb_spec k i), (Nat.eqb_spec k j); congruence.
Qed.
Lemma traded_in g es i o : traded g es i o <> [] <-> exists e, In e es /\ tkn_of g (e_in e) = i /\ tkn_of g (e_out e) = o.
Proof.
  split.
  - intros H. destruct (traded g es i o) as [|e r] eqn:E; [congruence|]. assert (I : In e (traded g es i o)) by (rewrite E; left; reflexivity). apply filter_In in I. destruct I as [I J]. apply andb_true_iff in J. rewrite !String.eqb_eq in J. exists e. tauto.
  - intros (e & I & A & B) E. assert (X : In e (traded g es i o)) by (apply filter_In; rewrite !(proj2 (String.eqb_eq _ _)) by assumption; auto). rewrite E in X. destruct X.
Qed.
Lemma mirrored_both g : mirrored g -> Forall (fun e => e_in e <> e_out e) (g_edges g) -> both_ways g (g_edges g).
Proof.
  intros M NL i o H. apply traded_in in H. destruct H as (e & I & <- & <-). rewrite Forall_forall in NL. destruct (mirrored_edge g (e_in e) (e_out e) M (NL e I)) as (f & J & A & B); [exists e; auto|]. cbn in A, B. apply traded_in. exists f. rewrite A, B. auto.
Qed.
Lemma pools_table pools uid : pools <> [] -> Forall (fun x => CpcSpec.pool_ok (fst x)) pools -> Forall (fun x => CpcModel.tknx (fst x) <> CpcModel.tkny (fst x) /\ no_slash (CpcModel.tknx (fst x)) = true /\ no_slash (CpcModel.tkny (fst x)) = true) pools ->
  exists g, add_edges_cpc empty_graph pools uid = (g, None) /\ g_edges g <> [] /\ clean g (g_edges g) /\ both_ways g (g_edges g) /\ connections g /\
    forall i o, traded g (g_edges g) i o <> [] <-> exists c cid, In (c, cid) pools /\ (CpcModel.tknx c = i /\ CpcModel.tkny c = o \/ CpcModel.tknx c = o /\ CpcModel.tkny c = i).
Proof.
  intros NE P D. assert (D' : Forall (fun x => CpcModel.tknx (fst x) <> CpcModel.tkny (fst x)) pools) by (eapply Forall_impl; [|exact D]; intros x X; apply X).
  destruct (pool_graph pools uid P D') as (g & E & L & N & C & M & NL & F1 & F2). exists g. split; [exact E|].
  assert (T : forall n t, name g n = Some t -> tkn_of g n = t) by (intros n t H; unfold tkn_of; unfold name in H; destruct (nth_error (g_nodes g) n); cbn in H; [injection H as H; exact H|discriminate]).
  assert (BW := mirrored_both g M NL). split.
  { destruct pools as [|[c cid] r]; [congruence|]. destruct (F2 c cid (or_introl eq_refl)) as (e & I & _). intros X. rewrite X in I. destruct I. }
  assert (Q : forall e, In e (g_edges g) -> exists c cid, In (c, cid) pools /\ (CpcModel.tknx c = tkn_of g (e_in e) /\ CpcModel.tkny c = tkn_of g (e_out e) \/ CpcModel.tknx c = tkn_of g (e_out e) /\ CpcModel.tkny c = tkn_of g (e_in e))).
  { intros e I. destruct (F1 e I) as (c & cid & J & K). exists c, cid. split; [exact J|]. unfold from_pool in K. destruct K as [(A & B & _)|(A & B & _)]; apply T in A, B; [left|right]; auto. }
  split; [|split; [exact BW|split; [exact C|]]].
  - apply Forall_forall. intros e I. destruct (Q e I) as (c & cid & J & K). rewrite Forall_forall in D. destruct (D _ J) as (A & B & G). cbn in A, B, G. destruct K as [[<- <-]|[<- <-]]; auto.
  - intros i o. rewrite traded_in. split.
    + intros (e & I & <- & <-). exact (Q e I).
    + intros (c & cid & J & K). destruct (F2 c cid J) as (e & I & A & B & _). apply T in A, B. destruct K as [[<- <-]|[<- <-]]; [exists e; auto|]. rewrite <- traded_in. apply BW, traded_in. exists e. auto.
Qed.

(** ** runs over many cycles *)
Lemma mapr_all {A B} (f : A -> res B) l bs : mapr f l = Ret bs <-> map f l = map Ret bs.
Proof.
  revert bs. induction l as [|a l IH]; intros bs; cbn [mapr map].
  - destruct bs; split; try discriminate; reflexivity.
  - destruct (f a) as [b|e]; cbn [rbind].
    + destruct (mapr f l) as [cs|e] eqn:E; cbn [rbind].
      * assert (X := proj1 (IH cs) eq_refl). rewrite X. split; [intros [= <-]; reflexivity|]. destruct bs as [|b' bs]; [discriminate|]. cbn. intros [= -> H]. f_equal. f_equal. apply (proj2 (IH bs)) in X as Y || idtac. rewrite <- X in H. apply (proj2 (IH bs)) in H. congruence.
      * split; [discriminate|]. destruct bs as [|b' bs]; [discriminate|]. cbn. intros [= -> H]. apply (proj2 (IH bs)) in H. discriminate.
    + split; [discriminate|]. destruct bs; discriminate.
Qed.
Lemma mapr_first {A B} (f : A -> res B) l e : mapr f l = Raise e <-> exists a x b bs, l = a ++ x :: b /\ map f a = map Ret bs /\ f x = Raise e.
Proof.
  induction l as [|c l IH]; cbn [mapr].
  - split; [discriminate|]. intros (a & x & b & bs & E & _). destruct a; discriminate.
  - destruct (f c) as [y|e'] eqn:F; cbn [rbind].
    + destruct (mapr f l) as [ys|e''] eqn:E; cbn [rbind].
      * split; [discriminate|]. intros (a & x & b & bs & H & G & K). exfalso. destruct a as [|c' a]; [injection H as -> ->; congruence|]. injection H as <- ->. destruct bs as [|z bs]; [discriminate|]. cbn in G. injection G as _ G. assert (Y : Ret ys = @Raise (list B) e); [|discriminate]. apply IH. exists a, x, b, bs. auto.
      * split.
        -- intros [= ->]. destruct (proj1 IH eq_refl) as (a & x & b & bs & -> & G & K). exists (c :: a), x, b, (y :: bs). cbn. rewrite F, G. auto.
        -- intros (a & x & b & bs & H & G & K). f_equal. assert (Y : @Raise (list B) e'' = Raise e); [|injection Y; auto]. apply IH. destruct a as [|c' a]; [injection H as -> ->; congruence|]. injection H as <- ->. destruct bs as [|z bs]; [discriminate|]. cbn in G. injection G as _ G. exists a, x, b, bs. auto.
    + split.
      * intros [= ->]. exists [], c, l, []. auto.
      * intros (a & x & b & bs & H & G & K). destruct a as [|c' a]; [injection H as -> ->; congruence|]. injection H as <- ->. destruct bs as [|z bs]; [discriminate|]. cbn in G. rewrite F in G. discriminate.
Qed.
Lemma cycles_tuple g cs t any f l : f = FNone \/ f = FTuple -> run_arbitrage_cycles g cs t any f = Ret l <-> exists rs, l = Results rs /\ map (run_cycle g t any) cs = map Ret rs.
Proof.
  intros F. assert (E : run_arbitrage_cycles g cs t any f = let* l := mapr (run_cycle g t any) cs in Ret (Results l)) by (destruct F as [-> | ->]; reflexivity). rewrite E. destruct (mapr (run_cycle g t any) cs) as [rs|e] eqn:M; cbn [rbind].
  - apply mapr_all in M. split; [intros [= <-]; eauto|]. intros (rs' & -> & H). f_equal. f_equal. rewrite M in H. clear - H. revert rs' H. induction rs as [|a rs IH]; intros [|b rs'] H; try discriminate; [reflexivity|]. cbn in H. injection H as <- H. f_equal. auto.
  - split; [discriminate|]. intros (rs & _ & H). apply mapr_all in H. congruence.
Qed.
Lemma cycles_first g cs t any f e : f = FNone \/ f = FTuple -> run_arbitrage_cycles g cs t any f = Raise e <-> exists a x b rs, cs = a ++ x :: b /\ map (run_cycle g t any) a = map Ret rs /\ run_cycle g t any x = Raise e.
Proof.
  intros F. assert (E : run_arbitrage_cycles g cs t any f = let* l := mapr (run_cycle g t any) cs in Ret (Results l)) by (destruct F as [-> | ->]; reflexivity). rewrite E, <- mapr_first. destruct (mapr (run_cycle g t any) cs); cbn [rbind]; split; congruence.
Qed.
Lemma cycles_tables g c cs t any f : f = FDicts \/ f = FDf \/ f = FAggr \/ f = FPretty \/ f = FOther -> exists e, run_arbitrage_cycles g (c :: cs) t any f = Raise e /\ (forall r, run_cycle g t any c = Ret r -> e = TypeError) /\ forall e', run_cycle g t any c = Raise e' -> e = e'.
Proof.
  intros F. destruct (run_cycle g t any c) as [r|e0] eqn:E.
  - exists TypeError. split; [|split; [auto|discriminate]]. destruct F as [->|[->|[->|[->| ->]]]]; unfold run_arbitrage_cycles; cbn [map tabulate]; rewrite E; reflexivity.
  - exists e0. split; [|split; [discriminate|intros e' [= ->]; reflexivity]]. destruct F as [->|[->|[->|[->| ->]]]]; unfold run_arbitrage_cycles; cbn [map tabulate]; rewrite E; reflexivity.
Qed.
Lemma cycles_list g cs l l' any f : run_arbitrage_cycles g cs (TokenList l) any f = run_arbitrage_cycles g cs (TokenList l') any f /\
  run_arbitrage_cycles g cs (TokenList l) true f = run_arbitrage_cycles g cs NoToken true f /\
  (cs <> [] -> f <> FGen -> run_arbitrage_cycles g cs (TokenList l) false f = Raise ValueError).
Proof.
  split; [destruct any; reflexivity|]. split; [reflexivity|]. intros NE G. destruct cs as [|c cs]; [congruence|]. destruct f; try congruence; reflexivity.
Qed.

(** ** fairly priced graphs *)
Lemma fair_price find g V i j l : searches find -> linked g -> named g -> connections g -> fair g V -> on_graph g i -> on_graph g j -> walk (step g) i j l ->
  price find g (Nd i) (Nd j) = Ret (Some (V i / V j)).
Proof.
  intros S L N C F I J W. assert (PV := proj1 F). destruct (Nat.eq_dec i j) as [->|D].
  - rewrite (price_same find g (Nd j) (Nd j) C) by apply Nat.eqb_refl. f_equal. f_equal. specialize (PV j). field. lra.
  - destruct (price_spec find g (Nd i) (Nd j) i j S L C) as [(m & W' & M & P)|[Q _]]; try assumption; [apply Nat.eqb_neq; exact D|apply node_of_named; assumption|apply node_of_named; assumption| |destruct (Q l W)].
    rewrite P. f_equal. f_equal. apply (telescope g V i j m PV); [|exact W'|exact (minimal_nodup _ _ _ _ W' M)]. intros a b _ E. exact (avg_fair g V (a, b) F E).
Qed.

(** ** connected pools *)
Lemma walk_snoc E a b c l : walk E a b l -> E b c -> exists m, walk E a c m.
Proof. induction 1 as [a|a d b l H W IH]; intros K; [eexists; econstructor; [exact K|constructor]|]. destruct (IH K) as [m M]. eexists. econstructor; [exact H|exact M]. Qed.
Lemma linked_walk g i j : mirrored g -> linked_to g i j <-> exists l, walk (step g) i j l.
Proof.
  intros M. split.
  - induction 1 as [a|a b c H IH J]; [exists [a]; constructor|]. destruct IH as [l W]. destruct J as [J|J]; [exact (walk_snoc _ _ _ _ _ W J)|]. destruct (Nat.eq_dec b c) as [->|D]; [eauto|]. apply (walk_snoc _ _ _ _ _ W). apply (mirrored_edge g c b M (not_eq_sym D) J).
  - intros [l W]. induction W as [a|a b z l H W IH]; [constructor|]. apply (linked_trans g a b z); [|exact IH]. econstructor; [constructor|left; exact H].
Qed.
Lemma connected_priced find g : searches find -> linked g -> named g -> connections g -> mirrored g -> g_nodes g <> [] ->
  is_weakly_connected g = Ret true <-> exists P, priced find g P.
Proof.
  intros S L N C M NE. destruct (connected_spec g L NE) as (b & E & H). split.
  - intros T. rewrite E in T. injection T as ->. exists (quoted find g). intros i j I J. unfold quoted. destruct (price_either find g i j S L N C I J) as [(x & X & _)|[_ Q]]; [rewrite X; reflexivity|]. destruct (proj1 (linked_walk g i j M) (proj1 H eq_refl i j I J)) as [l W]. destruct (Q l W).
  - intros [P HP]. rewrite E. f_equal. apply H. intros i j I J. apply linked_walk; [exact M|]. destruct (price_either find g i j S L N C I J) as [(x & _ & W)|[X _]]; [exact W|]. rewrite (HP i j I J) in X. discriminate.
Qed.
