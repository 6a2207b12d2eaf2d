(** C149-C151: tables of the curves of a container, CPCContainer.pairs_analysis of
    carbon/tools/cpc.py. *)
From Coq Require Import Reals Lra Bool List String Arith Lia Permutation Sorting.Sorted Ascii.
From Verif Require Import CurveModel CurveProofs PairModel PairProofs HelperModel HelperProofs CpcModel ContainerModel ContainerSpec ContainerProofs ContainerProofs2 ContainerProofs3 ContainerProps TabModel TabSpec TabProofs TabProofs2 TabProofs3.
Import ListNotations.
Local Open Scope R_scope.

Lemma data_ok l cc ps : In cc (w_ccs (run l)) -> proper ps -> (forall c, In c (curves_on (w_heap (run l)) cc ps) -> k c <> 0) ->
  curvedata (w_heap (run l)) cc (asked ps) = Ret (map (rec_of (w_heap (run l))) (refs_on (w_heap (run l)) cc ps)).
Proof. intros H P K. apply (curvedata_ok _ _ (fun r I1 => run_curve l cc r H I1) ps P K). Qed.
Lemma refs_objs h cc ps : map (obj h) (refs_on h cc ps) = curves_on h cc ps.
Proof. apply objs_sel. Qed.
Lemma target_ok l cc ps t : In cc (w_ccs (run l)) -> proper ps -> (forall c, In c (curves_on (w_heap (run l)) cc ps) -> k c <> 0) ->
  pairs_analysis (w_heap (run l)) cc t (asked ps) = let recs := map (rec_of (w_heap (run l))) (refs_on (w_heap (run l)) cc ps) in
  if String.eqb t "list" || String.eqb t "listdf" then Ret (AList recs)
  else if String.eqb t "volumes" then Ret (AVolumes (volume_rows recs))
  else if String.eqb t "vaggr" then let* v := volumes_by_token (w_heap (run l)) cc recs in Ret (AVolsagg v)
  else if String.eqb t "pivotxy" then Ret (ACounts (counts r_tknx r_tkny recs))
  else if String.eqb t "pivotxys" then Ret (ACounts (make_symmetric (counts r_tknx r_tkny recs)))
  else if String.eqb t "pivotbq" then Ret (ACounts (counts r_tknb r_tknq recs))
  else if String.eqb t "pivotbqs" then Ret (ACounts (make_symmetric (counts r_tknb r_tknq recs)))
  else if String.eqb t "prices" then Ret (APrices (filled 0 (prices_by (fun v => Some (meanl v)) recs)))
  else if String.eqb t "max" then Ret (APrices (filled 0 (prices_by (fun v => Some (maxl v)) recs)))
  else if String.eqb t "min" then Ret (APrices (filled 0 (prices_by (fun v => Some (minl v)) recs)))
  else if String.eqb t "std" then Ret (APrices (filled 0 (prices_by std1 recs)))
  else if String.eqb t "stdpc" then Ret (ASdpc (prices_by sdpc recs))
  else if String.eqb t "pricelist" then Ret (APricelist (pricelist recs))
  else if String.eqb t "plaggr" then Ret (APlagg (plaggr recs))
  else Raise ValueError.
Proof. intros H P K. unfold pairs_analysis. rewrite (data_ok l cc ps H P K). reflexivity. Qed.

(** ** C149 *)
(** the list has a record for every curve of the container on one of the pairs in either
    direction (every curve if no pairs are given), in the order of the container *)
Theorem C149_list : forall l cc ps target, In cc (w_ccs (run l)) -> proper ps -> (forall c, In c (curves_on (w_heap (run l)) cc ps) -> k c <> 0) ->
  In target ["list"; "listdf"]%string ->
  exists recs, pairs_analysis (w_heap (run l)) cc target (asked ps) = Ret (AList recs) /\ Forall2 (says (w_heap (run l))) (refs_on (w_heap (run l)) cc ps) recs.
Proof.
  intros l cc ps target H P K T. eexists. rewrite (target_ok l cc ps target H P K). split; [destruct T as [<-|[<-|[]]]; reflexivity|].
  assert (S1 : forall r, In r (refs_on (w_heap (run l)) cc ps) -> says (w_heap (run l)) r (rec_of (w_heap (run l)) r)).
  { intros r I1. apply filter_In in I1. apply (rec_says _ _ (run_good l cc H)), I1. }
  induction (refs_on (w_heap (run l)) cc ps) as [|r rs IH]; [constructor|]. cbn [map]. constructor; [apply S1; left; reflexivity|]. apply IH. intros r' I1. apply S1. right. exact I1.
Qed.
(** a curve with k = 0 against the primary direction of its pair makes every table fail *)
Theorem C149_refused : forall l cc ps target c, In cc (w_ccs (run l)) -> proper ps -> In c (curves_on (w_heap (run l)) cc ps) -> k c = 0 ->
  isprimary norm_cpc (tknx c) (tkny c) = false -> pairs_analysis (w_heap (run l)) cc target (asked ps) = Raise ZeroDivision.
Proof. intros l cc ps target c H P I1 K N. unfold pairs_analysis. rewrite (curvedata_fails _ _ (fun r I1 => run_curve l cc r H I1) ps c P I1 K N). reflexivity. Qed.
(** the names of the tables, all others are refused *)
Theorem C149_unknown : forall l cc ps target, In cc (w_ccs (run l)) -> proper ps -> (forall c, In c (curves_on (w_heap (run l)) cc ps) -> 0 < k c) ->
  ((forall c, In c (curves cc) -> 0 < k (obj (w_heap (run l)) c)) -> In target targets -> exists a, pairs_analysis (w_heap (run l)) cc target (asked ps) = Ret a) /\
  (~ In target targets -> pairs_analysis (w_heap (run l)) cc target (asked ps) = Raise ValueError).
Proof.
  intros l cc ps target H P K. assert (K' : forall c, In c (curves_on (w_heap (run l)) cc ps) -> k c <> 0) by (intros c I1; apply Rgt_not_eq, K, I1). split.
  - intros Ka T. rewrite (target_ok l cc ps target H P K'). unfold targets in T. cbv zeta.
    destruct (eth_price_ok _ _ (run_good l cc H) (fun r I1 => run_curve l cc r H I1) Ka) as (A & B & C). destruct (by_token _ cc (refs_on (w_heap (run l)) cc ps) _ A B C) as (rows & E & _). rewrite E.
    repeat (destruct T as [<-|T]; [eexists; reflexivity|]). destruct T.
  - intros N. rewrite (target_ok l cc ps target H P K'). cbv zeta.
    assert (X : forall s, In s targets -> String.eqb target s = false) by (intros s I1; apply String.eqb_neq; intros ->; exact (N I1)).
    rewrite !X by (unfold targets; cbn [In]; tauto). reflexivity.
Qed.
(** tables of numbers: a row for every token on an x axis, a column for every token on a y
    axis, and the number of curves in this direction *)
Theorem C149_counts : forall l cc ps target, In cc (w_ccs (run l)) -> proper ps -> (forall c, In c (curves_on (w_heap (run l)) cc ps) -> k c <> 0) ->
  In target ["pivotxy"; "pivotbq"]%string -> let cs := curves_on (w_heap (run l)) cc ps in
  exists t, pairs_analysis (w_heap (run l)) cc target (asked ps) = Ret (ACounts t) /\ labelled (t_rows t) (map tknx cs) /\ labelled (t_cols t) (map tkny cs) /\
    forall a b n, cell_is t a b n <-> In a (map tknx cs) /\ In b (map tkny cs) /\ n = List.length (from_to a b cs).
Proof.
  intros l cc ps target H P K T cs.
  exists (tabulate (labels (map tknx cs)) (labels (map tkny cs)) (fun a b => List.length (from_to a b cs))). split; [|split; [apply labels_ok|split; [apply labels_ok|]]].
  - rewrite (target_ok l cc ps target H P K). unfold cs. rewrite <- refs_objs. destruct T as [<-|[<-|[]]]; cbv zeta; cbn [String.eqb Ascii.eqb Bool.eqb orb]; rewrite counts_recs by reflexivity; reflexivity.
  - intros a b n. rewrite cell_tabulate, !labels_in. reflexivity.
Qed.
(** symmetric tables: rows and columns for all tokens, and the number of curves in both
    directions, but only between tokens that are on an x axis and on a y axis; 0 elsewhere *)
Theorem C149_symmetric : forall l cc ps target, In cc (w_ccs (run l)) -> proper ps -> (forall c, In c (curves_on (w_heap (run l)) cc ps) -> k c <> 0) ->
  In target ["pivotxys"; "pivotbqs"]%string -> let cs := curves_on (w_heap (run l)) cc ps in let xs := map tknx cs in let ys := map tkny cs in
  exists t, pairs_analysis (w_heap (run l)) cc target (asked ps) = Ret (ACounts t) /\ labelled (t_rows t) (xs ++ ys) /\ t_cols t = t_rows t /\
    forall a b, In a (xs ++ ys) -> In b (xs ++ ys) ->
      (both xs ys a -> both xs ys b -> forall n, cell_is t a b n <-> n = (List.length (from_to a b cs) + List.length (from_to b a cs))%nat) /\
      (~ (both xs ys a /\ both xs ys b) -> forall n, cell_is t a b n <-> n = O).
Proof.
  intros l cc ps target H P K T cs xs ys.
  exists (make_symmetric (tabulate (labels xs) (labels ys) (fun a b => List.length (from_to a b cs)))). split; [|apply symmetric_cell].
  rewrite (target_ok l cc ps target H P K). unfold xs, ys, cs. rewrite <- refs_objs. destruct T as [<-|[<-|[]]]; cbv zeta; cbn [String.eqb Ascii.eqb Bool.eqb orb]; rewrite counts_recs by reflexivity; reflexivity.
Qed.
(** the two curves WETH/USDC and USDC/WETH: each token is on both axes *)
Lemma ex_on : curves_on exheap exccs None = [body exc1; body exc2].
Proof. reflexivity. Qed.
Lemma ex_k c : In c [body exc1; body exc2] -> 0 < k c.
Proof. intros [<-|[<-|[]]]; cbn [body exc1 exc2 k]; lra. Qed.
Example C149_ex : In exccs (w_ccs (run exprog)) /\ proper (Some [("WETH", "USDC")]%string) /\ exists t, pairs_analysis exheap exccs "pivotxys" (asked (Some [("WETH", "USDC")]%string)) = Ret (ACounts t) /\ cell_is t "WETH" "USDC" 2%nat /\ cell_is t "WETH" "WETH" 0%nat /\
  pairs_analysis exheap exccs "pivot" None = Raise ValueError.
Proof.
  destruct ex_in as [A B]. assert (Pr : proper (Some [("WETH", "USDC")]%string)) by (intros m E; injection E as <-; repeat constructor). split; [exact A|]. split; [exact Pr|].
  assert (On : curves_on exheap exccs (Some [("WETH", "USDC")]%string) = [body exc1; body exc2]) by reflexivity.
  destruct (C149_symmetric exprog exccs (Some [("WETH", "USDC")]%string) "pivotxys" A Pr) as (t & E & _ & _ & C).
  - rewrite B, On. intros c I1. apply Rgt_not_eq, ex_k, I1.
  - left. reflexivity.
  - rewrite B in *. rewrite On in C. exists t. split; [exact E|].
    assert (Bo : forall s, In s ["WETH"; "USDC"]%string -> both (map tknx [body exc1; body exc2]) (map tkny [body exc1; body exc2]) s) by (intros s I1; cbn in I1 |- *; unfold both; cbn; tauto).
    split; [|split].
    + destruct (C "WETH" "USDC")%string as [C1 _]; [cbn; tauto|cbn; tauto|]. apply C1; [apply Bo; cbn; tauto|apply Bo; cbn; tauto|reflexivity].
    + destruct (C "WETH" "WETH")%string as [C1 _]; [cbn; tauto|cbn; tauto|]. apply C1; [apply Bo; cbn; tauto|apply Bo; cbn; tauto|reflexivity].
    + rewrite <- B. apply (C149_unknown exprog exccs None "pivot" A).
      * intros m E'. discriminate.
      * rewrite B, ex_on. exact ex_k.
      * unfold targets. cbn [In]. intuition discriminate.
Qed.
(** so the symmetric table of a container with one curve, WETH/USDC, is empty, though the
    documentation promises the curve in both directions *)
Definition oneprog : list action := [NewCurve exc1; NewContainer [0]%nat].
Theorem C149_symmetric_refuted : exists l cc t c, In cc (w_ccs (run l)) /\ pairs_analysis (w_heap (run l)) cc "pivotxys" None = Ret (ACounts t) /\
  curves_on (w_heap (run l)) cc None = [c] /\ tknx c = "WETH"%string /\ tkny c = "USDC"%string /\ cell_is t "WETH" "USDC" 0%nat /\ cell_is t "USDC" "WETH" 0%nat.
Proof.
  destruct ex_constructible as [A _]. set (hh := fst (new_container [exc1] [0]%nat)). set (cc := snd (new_container [exc1] [0]%nat)).
  assert (R1 : run oneprog = mkWorld hh [cc]).
  { unfold run, oneprog, no_world. cbn [fold_left act w_heap w_ccs]. rewrite A. cbn [w_heap w_ccs app]. replace (valid_refs [exc1] [0]%nat) with true by reflexivity. unfold hh, cc. destruct (new_container [exc1] [0]%nat). reflexivity. }
  assert (I1 : In cc (w_ccs (run oneprog))) by (rewrite R1; left; reflexivity).
  assert (On : curves_on hh cc None = [body exc1]) by reflexivity.
  destruct (C149_symmetric oneprog cc None "pivotxys" I1) as (t & E & _ & _ & C).
  - intros m X. discriminate.
  - rewrite R1. cbn [w_heap]. rewrite On. intros c [<-|[]]. cbn [body exc1 k]. lra.
  - left. reflexivity.
  - rewrite R1 in C. cbn [w_heap] in C. rewrite On in C. exists oneprog, cc, t, (body exc1). split; [exact I1|]. split; [exact E|]. split; [rewrite R1; exact On|]. split; [reflexivity|]. split; [reflexivity|].
    split; [destruct (C "WETH" "USDC")%string as [_ C1]|destruct (C "USDC" "WETH")%string as [_ C1]]; try (cbn; tauto); apply C1; try reflexivity; unfold both; cbn; intuition discriminate.
Qed.

(** ** C150 *)
(** tables of prices: mean, highest and lowest of the prices of the curves in a direction, 0
    where there is none *)
Theorem C150_prices : forall l cc ps target, In cc (w_ccs (run l)) -> proper ps -> (forall c, In c (curves_on (w_heap (run l)) cc ps) -> k c <> 0) ->
  In target ["prices"; "max"; "min"]%string -> let cs := curves_on (w_heap (run l)) cc ps in
  exists t, pairs_analysis (w_heap (run l)) cc target (asked ps) = Ret (APrices t) /\ labelled (t_rows t) (map tknx cs) /\ labelled (t_cols t) (map tkny cs) /\
    forall a b, In a (map tknx cs) -> In b (map tkny cs) -> exists v, cell_is t a b v /\ (forall w, cell_is t a b w -> w = v) /\
      (from_to a b cs = [] -> v = 0) /\
      (from_to a b cs <> [] -> (target = "prices"%string -> v = mean (map spot (from_to a b cs))) /\
         (target = "max"%string -> In v (map spot (from_to a b cs)) /\ forall w, In w (map spot (from_to a b cs)) -> w <= v) /\
         (target = "min"%string -> In v (map spot (from_to a b cs)) /\ forall w, In w (map spot (from_to a b cs)) -> v <= w)).
Proof.
  intros l cc ps target H P K T cs.
  set (F := fun v => if String.eqb target "prices" then meanl v else if String.eqb target "max" then maxl v else minl v).
  exists (tabulate (labels (map tknx cs)) (labels (map tkny cs)) (fun a b => match from_to a b cs with [] => 0 | g => F (map spot g) end)).
  split; [|split; [apply labels_ok|split; [apply labels_ok|]]].
  - rewrite (target_ok l cc ps target H P K). unfold cs. rewrite <- refs_objs. rewrite <- prices_recs. unfold F. destruct T as [<-|[<-|[<-|[]]]]; reflexivity.
  - intros a b Ia Ib. eexists. split; [apply cell_tabulate; rewrite !labels_in; split; [exact Ia|split; [exact Ib|reflexivity]]|]. split; [intros w Hw; apply cell_tabulate in Hw; apply Hw|].
    split; [intros ->; reflexivity|]. intros N. destruct (from_to a b cs) as [|c g]; [congruence|]. set (v := map spot (c :: g)). assert (Nv : v <> []) by discriminate. clearbody v. unfold F.
    destruct T as [<-|[<-|[<-|[]]]]; cbn [String.eqb Ascii.eqb Bool.eqb]; (split; [|split]); intros E; try discriminate.
    + apply meanl_mean.
    + apply maxl_iff, Nv.
    + apply minl_iff, Nv.
Qed.
(** the sample standard deviation of the prices, only for tokens with at least two curves in
    the same direction *)
Theorem C150_std : forall l cc ps, In cc (w_ccs (run l)) -> proper ps -> (forall c, In c (curves_on (w_heap (run l)) cc ps) -> k c <> 0) ->
  let cs := curves_on (w_heap (run l)) cc ps in let many := filter (several cs) cs in
  exists t, pairs_analysis (w_heap (run l)) cc "std" (asked ps) = Ret (APrices t) /\ labelled (t_rows t) (map tknx many) /\ labelled (t_cols t) (map tkny many) /\
    forall a b v, cell_is t a b v <-> In a (map tknx many) /\ In b (map tkny many) /\
      v = (if Nat.leb 2 (List.length (from_to a b cs)) then sqrt (spread (map spot (from_to a b cs)) / INR (List.length (from_to a b cs) - 1)) else 0).
Proof.
  intros l cc ps H P K cs many. eexists. split; [|split; [|split; [|intros a b v]]].
  - rewrite (target_ok l cc ps "std" H P K). cbv zeta. cbn [String.eqb Ascii.eqb Bool.eqb orb]. rewrite std_recs. cbv zeta. rewrite refs_objs. reflexivity.
  - apply labels_ok.
  - apply labels_ok.
  - rewrite cell_tabulate, !labels_in. reflexivity.
Qed.
(** the other one divides by the number of curves and by the mean price, and is empty where there
    is no curve *)
Theorem C150_stdpc : forall l cc ps, In cc (w_ccs (run l)) -> proper ps -> (forall c, In c (curves_on (w_heap (run l)) cc ps) -> 0 < k c) ->
  let cs := curves_on (w_heap (run l)) cc ps in
  exists t, pairs_analysis (w_heap (run l)) cc "stdpc" (asked ps) = Ret (ASdpc t) /\ labelled (t_rows t) (map tknx cs) /\ labelled (t_cols t) (map tkny cs) /\
    forall a b v, cell_is t a b v <-> In a (map tknx cs) /\ In b (map tkny cs) /\
      ((from_to a b cs = [] /\ v = None) \/ (from_to a b cs <> [] /\ v = Some (sqrt (spread (map spot (from_to a b cs)) / INR (List.length (from_to a b cs))) / mean (map spot (from_to a b cs))))).
Proof.
  intros l cc ps H P K cs. assert (K' : forall c, In c (curves_on (w_heap (run l)) cc ps) -> k c <> 0) by (intros c I1; apply Rgt_not_eq, K, I1).
  eexists. split; [|split; [|split; [|intros a b v]]].
  - rewrite (target_ok l cc ps "stdpc" H P K'). cbv zeta. cbn [String.eqb Ascii.eqb Bool.eqb orb]. rewrite sdpc_recs.
    + cbv zeta. rewrite refs_objs. reflexivity.
    + intros r I1. split; [apply K; rewrite <- refs_objs; apply in_map, I1|]. apply filter_In in I1. apply (run_curve l cc r H), I1.
  - apply labels_ok.
  - apply labels_ok.
  - rewrite cell_tabulate, !labels_in. fold cs. destruct (from_to a b cs) as [|c g].
    + split; [intros (A & B & ->); auto|]. intros (A & B & [[_ ->]|[N _]]); [auto|congruence].
    + split; [intros (A & B & ->); split; [exact A|]; split; [exact B|]; right; split; [discriminate|reflexivity]|]. intros (A & B & [[N _]|[_ ->]]); [discriminate|auto].
Qed.
(** so they do not agree: two curves with prices 1 and 3 *)
Definition exc3 : ccurve := mkCC (mkCpc 100 10 5 20 "WETH" "USDC") (Some (CStr "a")) "".
Definition exc4 : ccurve := mkCC (mkCpc 300 10 5 20 "WETH" "USDC") (Some (CStr "b")) "".
Definition spreadprog : list action := [NewCurve exc3; NewCurve exc4; NewContainer [0; 1]%nat].
Definition sheap : heap := fst (new_container [exc3; exc4] [0; 1]%nat).
Definition scc : container := snd (new_container [exc3; exc4] [0; 1]%nat).
Lemma s_run : run spreadprog = mkWorld sheap [scc].
Proof.
  assert (A : constructible exc3 = true /\ constructible exc4 = true).
  { split; unfold constructible, exc3, exc4; cbn [body x]; unfold pair_of; cbn [tknx tkny]; rewrite parse_str by reflexivity; (destruct (req _ _) eqn:E; [apply req_iff in E; lra|reflexivity]). }
  destruct A as [A B]. unfold run, spreadprog, no_world. cbn [fold_left act w_heap w_ccs]. rewrite A. cbn [w_heap w_ccs app]. rewrite B. cbn [w_heap w_ccs app].
  replace (valid_refs [exc3; exc4] [0; 1]%nat) with true by reflexivity. unfold sheap, scc. destruct (new_container [exc3; exc4] [0; 1]%nat). reflexivity.
Qed.
Lemma s_on : curves_on sheap scc None = [body exc3; body exc4] /\ In scc (w_ccs (run spreadprog)) /\ w_heap (run spreadprog) = sheap.
Proof. rewrite s_run. repeat split. left. reflexivity. Qed.
Lemma s_from : from_to "WETH" "USDC" [body exc3; body exc4] = [body exc3; body exc4].
Proof. reflexivity. Qed.
Lemma s_spots : map spot [body exc3; body exc4] = [1; 3].
Proof. unfold spot. cbn [map body exc3 exc4 k x]. f_equal; [field|f_equal; field]. Qed.
Lemma s_mean : mean [1; 3] = 2. Proof. unfold mean, total. cbn [fold_right List.length]. unfold INR. field. Qed.
Lemma s_spread : spread [1; 3] = 2. Proof. unfold spread. rewrite s_mean. cbn [map]. unfold total. cbn [fold_right]. field. Qed.
Theorem C150_std_refuted : exists l cc t1 t2 t3 s m p, In cc (w_ccs (run l)) /\
  pairs_analysis (w_heap (run l)) cc "std" None = Ret (APrices t1) /\ pairs_analysis (w_heap (run l)) cc "prices" None = Ret (APrices t2) /\ pairs_analysis (w_heap (run l)) cc "stdpc" None = Ret (ASdpc t3) /\
  cell_is t1 "WETH" "USDC" s /\ cell_is t2 "WETH" "USDC" m /\ cell_is t3 "WETH" "USDC" (Some p) /\ p <> s / m.
Proof.
  destruct s_on as (On & I1 & Hh).
  assert (K : forall c, In c (curves_on (w_heap (run spreadprog)) scc None) -> 0 < k c) by (rewrite Hh, On; intros c [<-|[<-|[]]]; cbn [body exc3 exc4 k]; lra).
  assert (K' : forall c, In c (curves_on (w_heap (run spreadprog)) scc None) -> k c <> 0) by (intros c I2; apply Rgt_not_eq, K, I2).
  assert (Pr : proper None) by (intros m E; discriminate).
  destruct (C150_std spreadprog scc None I1 Pr K') as (t1 & E1 & _ & _ & C1). destruct (C150_prices spreadprog scc None "prices" I1 Pr K' (or_introl eq_refl)) as (t2 & E2 & _ & _ & C2). destruct (C150_stdpc spreadprog scc None I1 Pr K) as (t3 & E3 & _ & _ & C3).
  rewrite Hh, On in C1, C2, C3. rewrite Hh in E1, E2, E3.
  exists spreadprog, scc, t1, t2, t3, (sqrt (2 / 1)), 2, (sqrt (2 / 2) / 2). rewrite Hh. split; [exact I1|]. split; [exact E1|]. split; [exact E2|]. split; [exact E3|]. split; [|split; [|split]].
  - apply C1. split; [left; reflexivity|]. split; [left; reflexivity|]. rewrite s_from. rewrite s_spots, s_spread. reflexivity.
  - destruct (C2 "WETH" "USDC")%string as (v & Cv & _ & _ & V); [left; reflexivity|left; reflexivity|]. rewrite s_from, s_spots in V. destruct (V ltac:(discriminate)) as [V1 _]. rewrite <- s_mean, <- (V1 eq_refl). exact Cv.
  - apply C3. split; [left; reflexivity|]. split; [left; reflexivity|]. right. rewrite s_from. split; [discriminate|]. rewrite s_spots, s_spread, s_mean. reflexivity.
  - replace (2 / 2) with 1 by field. replace (2 / 1) with 2 by field. rewrite sqrt_1. intros E. assert (X : sqrt 2 = 1) by lra. pose proof (sqrt_sqrt 2 ltac:(lra)) as Y. rewrite X in Y. lra.
Qed.
(** the list of prices has one row for every direction of a pair and id, with the mean price of
    the curves with both and their mean price in the primary direction of the pair *)
Theorem C150_pricelist : forall l cc ps, In cc (w_ccs (run l)) -> proper ps -> (forall c, In c (curves_on (w_heap (run l)) cc ps) -> k c <> 0) ->
  exists rows, pairs_analysis (w_heap (run l)) cc "pricelist" (asked ps) = Ret (APricelist rows) /\ NoDup (map pl_key rows) /\
    forall e, In e rows <-> exists b q c, let rs := with_key (w_heap (run l)) b q c (refs_on (w_heap (run l)) cc ps) in rs <> [] /\
      e = mkPl b q c (primary_name b q) (b ++ "/" ++ q) (mean (map (fun r => spot (obj (w_heap (run l)) r)) rs)) (mean (map (fun r => primary_spot (obj (w_heap (run l)) r)) rs)).
Proof.
  intros l cc ps H P K. eexists. split; [rewrite (target_ok l cc ps "pricelist" H P K); reflexivity|]. split; [apply pricelist_nodup|]. intros e. apply pricelist_in.
Qed.
(** the aggregated list has one row for every direction of a pair, with the mean, number,
    relative standard deviation, range and concentration of the prices in the primary direction *)
Theorem C150_plaggr : forall l cc ps, In cc (w_ccs (run l)) -> proper ps -> (forall c, In c (curves_on (w_heap (run l)) cc ps) -> 0 < k c) ->
  let cs := curves_on (w_heap (run l)) cc ps in
  exists rows, pairs_analysis (w_heap (run l)) cc "plaggr" (asked ps) = Ret (APlagg rows) /\ NoDup (map (fun e => (a_tknb e, a_tknq e)) rows) /\
    (forall b q, from_to b q cs <> [] -> exists e, In e rows /\ a_tknb e = b /\ a_tknq e = q) /\
    forall e, In e rows -> let v := map primary_spot (from_to (a_tknb e) (a_tknq e) cs) in
      v <> [] /\ a_primary e = primary_name (a_tknb e) (a_tknq e) /\ a_mean e = mean v /\ a_count e = List.length v /\ a_sdpc100 e = Some (sqrt (spread v / INR (List.length v)) / mean v * 100) /\
      (In (a_min e) v /\ forall u, In u v -> a_min e <= u) /\ (In (a_max e) v /\ forall u, In u v -> u <= a_max e) /\ a_rangepc100 e = (a_max e - a_min e) / a_max e * 100 /\ a_herf e = Some (shares v).
Proof.
  intros l cc ps H P K cs. assert (K' : forall c, In c (curves_on (w_heap (run l)) cc ps) -> k c <> 0) by (intros c I1; apply Rgt_not_eq, K, I1).
  assert (W : forall r, In r (refs_on (w_heap (run l)) cc ps) -> 0 < k (obj (w_heap (run l)) r) /\ x (obj (w_heap (run l)) r) <> 0).
  { intros r I1. split; [apply K; rewrite <- refs_objs; apply in_map, I1|]. apply filter_In in I1. apply (run_curve l cc r H), I1. }
  pose proof (fun e => plaggr_in (w_heap (run l)) (refs_on (w_heap (run l)) cc ps) e W) as R1. cbv zeta in R1. rewrite refs_objs in R1. fold cs in R1.
  eexists. split; [rewrite (target_ok l cc ps "plaggr" H P K'); reflexivity|]. split; [apply plaggr_nodup|]. split.
  - intros b q N. eexists. split; [apply R1; exists b, q; split; [exact N|reflexivity]|split; reflexivity].
  - intros e I1. apply R1 in I1. destruct I1 as (b & q & N & ->). cbn [a_tknb a_tknq a_primary a_mean a_count a_sdpc100 a_min a_max a_rangepc100 a_herf]. set (v := map primary_spot (from_to b q cs)).
    assert (Nv : v <> []) by (unfold v; destruct (from_to b q cs); [congruence|discriminate]). rewrite <- (map_length primary_spot (from_to b q cs)). fold v.
    destruct (maxl_iff v Nv) as [M1 M2]. repeat (split; [first [reflexivity|exact Nv|apply minl_iff, Nv|split; assumption]|]). split; [|reflexivity].
    unfold rangepc. destruct (req (maxl v) 0) eqn:Z; [|reflexivity]. exfalso. apply req_iff in Z. unfold v in M1. apply in_map_iff in M1. destruct M1 as (c & E & I1). fold v in E. apply filter_In in I1. destruct I1 as [I1 _].
    unfold cs in I1. rewrite <- refs_objs in I1. apply in_map_iff in I1. destruct I1 as (r & <- & I1). destruct (W r I1) as [A B]. pose proof (spot_pos _ A B) as S. rewrite Z in E. unfold primary_spot in E. destruct (isprimary _ _ _); [lra|]. apply Rinv_0_lt_compat in S. lra.
Qed.
Example C150_ex : In scc (w_ccs (run spreadprog)) /\ proper None /\ exists rows, pairs_analysis sheap scc "plaggr" None = Ret (APlagg rows) /\ (exists e, In e rows /\ a_mean e = 2 /\ a_count e = 2%nat /\ a_herf e = Some (10 / 16)) /\
  exists pl, pairs_analysis sheap scc "pricelist" None = Ret (APricelist pl) /\ In (mkPl "WETH" "USDC" (CStr "b") "WETH/USDC" "WETH/USDC" 3 3) pl.
Proof.
  destruct s_on as (On & I1 & Hh). assert (Pr : proper None) by (intros m E; discriminate). split; [exact I1|]. split; [exact Pr|].
  assert (K : forall c, In c (curves_on (w_heap (run spreadprog)) scc None) -> 0 < k c) by (rewrite Hh, On; intros c [<-|[<-|[]]]; cbn [body exc3 exc4 k]; lra).
  assert (K' : forall c, In c (curves_on (w_heap (run spreadprog)) scc None) -> k c <> 0) by (intros c I2; apply Rgt_not_eq, K, I2).
  destruct (C150_plaggr spreadprog scc None I1 Pr K) as (rows & E & _ & Ex & V). rewrite Hh, On in Ex, V. rewrite Hh in E. exists rows. split; [exact E|]. split.
  - destruct (Ex "WETH" "USDC")%string as (e & Ie & B & Q); [rewrite s_from; discriminate|]. exists e. split; [exact Ie|]. specialize (V e Ie). rewrite B, Q, s_from in V.
    assert (PS : map primary_spot [body exc3; body exc4] = [1; 3]) by (rewrite <- s_spots; reflexivity). rewrite PS in V. destruct V as (_ & _ & -> & -> & _ & _ & _ & _ & ->). split; [exact s_mean|]. split; [reflexivity|]. f_equal. unfold shares, total. cbn [map fold_right]. field.
  - destruct (C150_pricelist spreadprog scc None I1 Pr K') as (pl & E' & _ & V'). rewrite Hh in E', V'. exists pl. split; [exact E'|]. apply V'. exists "WETH"%string, "USDC"%string, (CStr "b"). cbv zeta.
    assert (Rs : with_key sheap "WETH" "USDC" (CStr "b") (refs_on sheap scc None) = [1]%nat) by reflexivity. rewrite Rs. split; [discriminate|]. cbn [map]. change (obj sheap 1) with (body exc4).
    assert (S1 : spot (body exc4) = 3) by (unfold spot; cbn [body exc4 k x]; field). assert (S2 : primary_spot (body exc4) = 3) by (rewrite <- S1; reflexivity). rewrite S1, S2. assert (M : mean [3] = 3) by (unfold mean, total; cbn; field). rewrite M. reflexivity.
Qed.

(** ** C151 *)
(** the list of volumes has two rows for every curve, the virtual and the real amounts of its two
    tokens, in the order of tokens and ids; the leverage is the ratio of the amounts *)
Theorem C151_volumes : forall l cc ps, In cc (w_ccs (run l)) -> proper ps -> (forall c, In c (curves_on (w_heap (run l)) cc ps) -> k c <> 0) ->
  exists rows, pairs_analysis (w_heap (run l)) cc "volumes" (asked ps) = Ret (AVolumes rows) /\
    Permutation (map fst rows) (flat_map (rows_of (w_heap (run l))) (refs_on (w_heap (run l)) cc ps)) /\ StronglySorted row_before (map fst rows) /\
    forall v o, In (v, o) rows -> (v_amt v <> 0 -> o = Some (v_amtv v / v_amt v)) /\ (v_amt v = 0 -> o = None).
Proof.
  intros l cc ps H P K. eexists. split; [rewrite (target_ok l cc ps "volumes" H P K); reflexivity|]. unfold volume_rows. rewrite map_map. cbn [fst]. rewrite map_id. split; [apply volumes_perm|]. split; [apply volumes_sorted|].
  intros v o I1. apply in_map_iff in I1. destruct I1 as (w & E & _). injection E as <- <-. unfold quot. destruct (req (v_amt w) 0) eqn:Z.
  - apply req_iff in Z. split; [congruence|reflexivity].
  - split; [reflexivity|]. intros X. apply req_iff in X. congruence.
Qed.
(** the aggregated list has one row for every token, valued at the price of the token in
    "WETH-6Cc2" in this container, and without values if no curve trades the two *)
Theorem C151_tokens : forall l cc ps, In cc (w_ccs (run l)) -> proper ps -> (forall r, In r (curves cc) -> 0 < k (obj (w_heap (run l)) r)) ->
  let cs := curves_on (w_heap (run l)) cc ps in
  exists rows, pairs_analysis (w_heap (run l)) cc "vaggr" (asked ps) = Ret (AVolsagg rows) /\ labelled (map g_tkn rows) (map tknx cs ++ map tkny cs) /\
    forall e, In e rows -> token_row cs (g_tkn e) (eth_price (w_heap (run l)) cc (g_tkn e)) e.
Proof.
  intros l cc ps H P K cs.
  assert (K' : forall c, In c (curves_on (w_heap (run l)) cc ps) -> k c <> 0). { intros c I1. apply filter_In in I1. destruct I1 as [I1 _]. apply in_map_iff in I1. destruct I1 as (r & <- & I1). apply Rgt_not_eq, K, I1. }
  destruct (eth_price_ok _ _ (run_good l cc H) (fun r I1 => run_curve l cc r H I1) K) as (A & B & C).
  destruct (by_token _ cc (refs_on (w_heap (run l)) cc ps) _ A B C) as (rows & E & L & V). rewrite refs_objs in L, V. exists rows. split; [|split; [exact L|exact V]].
  rewrite (target_ok l cc ps "vaggr" H P K'). cbv zeta. cbn [String.eqb Ascii.eqb Bool.eqb orb]. rewrite E. reflexivity.
Qed.
(** so the amounts of the token plainly called "WETH" are not valued, even the only token *)
Theorem C151_tokens_refuted : exists l cc rows e, In cc (w_ccs (run l)) /\ pairs_analysis (w_heap (run l)) cc "vaggr" None = Ret (AVolsagg rows) /\ In e rows /\ g_tkn e = "WETH"%string /\ g_amt e = 9 /\ g_price e = None /\ g_amt_eth e = None /\ g_lvg e = None.
Proof.
  destruct ex_in as [A B]. assert (Pr : proper None) by (intros m E; discriminate).
  destruct (C151_tokens exprog exccs None A Pr) as (rows & E & (_ & _ & L) & V).
  - rewrite B. destruct ex_objs as (C & O1 & O2 & _). rewrite C. intros r [<-|[<-|[]]]; rewrite ?O1, ?O2; cbn [body exc1 exc2 k]; lra.
  - rewrite B in *. rewrite ex_on in L, V. assert (I1 : In "WETH"%string (map g_tkn rows)) by (apply L; left; reflexivity). apply in_map_iff in I1. destruct I1 as (e & T & Ie).
    exists exprog, exccs, rows, e. specialize (V e Ie). rewrite T in V. assert (Ep : eth_price exheap exccs "WETH" = None) by reflexivity. rewrite Ep in V. destruct V as (_ & _ & Am & _ & Pq & _ & _ & V1 & V2 & V3).
    split; [exact A|]. rewrite B. split; [exact E|]. split; [exact Ie|]. split; [exact T|]. split; [|auto]. rewrite Am. unfold all_amounts, real_amounts, total. cbn [flat_map body exc1 exc2 tknx tkny String.eqb Ascii.eqb Bool.eqb app x_act y_act fold_right]. lra.
Qed.
(** a curve between "WETH-6Cc2" and USDC at 4 *)
Definition exc5 : ccurve := mkCC (mkCpc 400 10 5 20 "WETH-6Cc2" "USDC") None "".
Definition ethprog : list action := [NewCurve exc5; NewContainer [0]%nat].
Example C151_ex : exists l cc rows e, In cc (w_ccs (run l)) /\ pairs_analysis (w_heap (run l)) cc "vaggr" None = Ret (AVolsagg rows) /\ In e rows /\ g_tkn e = "USDC"%string /\ g_amt e = 20 /\ g_price e = Some (/ 4) /\ g_amt_eth e = Some (20 * / 4) /\ g_lvg e = Some 2.
Proof.
  assert (A : constructible exc5 = true) by (unfold constructible, exc5; cbn [body x]; unfold pair_of; cbn [tknx tkny]; rewrite parse_str by reflexivity; destruct (req _ _) eqn:E; [apply req_iff in E; lra|reflexivity]).
  set (hh := fst (new_container [exc5] [0]%nat)). set (cc := snd (new_container [exc5] [0]%nat)).
  assert (R1 : run ethprog = mkWorld hh [cc]).
  { unfold run, ethprog, no_world. cbn [fold_left act w_heap w_ccs]. rewrite A. cbn [w_heap w_ccs app]. replace (valid_refs [exc5] [0]%nat) with true by reflexivity. unfold hh, cc. destruct (new_container [exc5] [0]%nat). reflexivity. }
  assert (I1 : In cc (w_ccs (run ethprog))) by (rewrite R1; left; reflexivity).
  assert (On : curves_on hh cc None = [body exc5]) by reflexivity. assert (Pr : proper None) by (intros m E; discriminate).
  destruct (C151_tokens ethprog cc None I1 Pr) as (rows & E & (_ & _ & L) & V).
  - rewrite R1. cbn [w_heap]. intros r [<-|[]]. change (obj hh 0) with (body exc5). cbn [body exc5 k]. lra.
  - rewrite R1 in *. cbn [w_heap] in *. rewrite On in L, V. assert (I2 : In "USDC"%string (map g_tkn rows)) by (apply L; right; left; reflexivity). apply in_map_iff in I2. destruct I2 as (e & T & Ie).
    exists ethprog, cc, rows, e. rewrite R1. cbn [w_heap]. specialize (V e Ie). rewrite T in V.
    assert (Ep : eth_price hh cc "USDC" = Some (/ 4)). { assert (X : eth_price hh cc "USDC" = Some (/ mean [quote "WETH-6Cc2" (body exc5)])) by reflexivity. rewrite X. unfold quote. cbn [body exc5 tknx String.eqb Ascii.eqb Bool.eqb k x]. f_equal. f_equal. unfold mean, total. cbn [fold_right List.length]. unfold INR. field. }
    rewrite Ep in V. assert (Tv : total (all_amounts (virtual_amounts "USDC") [body exc5]) = 40) by (unfold all_amounts, virtual_amounts, total; cbn [flat_map body exc5 tknx tkny String.eqb Ascii.eqb Bool.eqb app k x fold_right]; field).
    assert (Ta : total (all_amounts (real_amounts "USDC") [body exc5]) = 20) by (unfold all_amounts, real_amounts, total; cbn [flat_map body exc5 tknx tkny String.eqb Ascii.eqb Bool.eqb app x_act y_act fold_right]; lra).
    destruct V as (_ & _ & Am & _ & Pq & _ & _ & V1 & V2 & V3). rewrite Ta, Tv in *. split; [exact I1|]. split; [exact E|]. split; [exact Ie|]. split; [exact T|]. split; [exact Am|]. split; [exact Pq|]. split; [exact V2|].
    rewrite V3 by lra. f_equal. field.
Qed.

Print Assumptions C149_list.
Print Assumptions C149_refused.
Print Assumptions C149_unknown.
Print Assumptions C149_counts.
Print Assumptions C149_symmetric.
Print Assumptions C149_symmetric_refuted.
Print Assumptions C150_prices.
Print Assumptions C150_std.
Print Assumptions C150_stdpc.
Print Assumptions C150_std_refuted.
Print Assumptions C150_pricelist.
Print Assumptions C150_plaggr.
Print Assumptions C151_volumes.
Print Assumptions C151_tokens.
Print Assumptions C151_tokens_refuted.
