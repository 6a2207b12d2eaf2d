(** C82-C90: containers of constant product curves (carbon/tools/cpc.py). *)
From Coq Require Import Reals Lra Bool List String Arith Lia Permutation Ascii.
From Verif Require Import CurveModel CurveSpec CurveProofs PairModel PairProofs HelperModel HelperProofs CpcModel CpcSpec CpcProofs ContainerModel ContainerSpec ContainerProofs ContainerProofs2 ContainerProofs3 ContainerProofs4.
Import ListNotations.
Local Open Scope R_scope.

(** two curves on WETH and USDC, quoting 4 and 1 (the second is given in USDC per WETH
    reversed), and a program that puts them into a container *)
Definition exc1 : ccurve := mkCC (mkCpc 400 10 5 20 "WETH" "USDC") None "".
Definition exc2 : ccurve := mkCC (mkCpc 100 10 4 4 "USDC" "WETH") None "".
Definition exprog : list action := [NewCurve exc1; NewCurve exc2; NewContainer [0; 1]%nat].
Lemma ex_constructible : constructible exc1 = true /\ constructible exc2 = true.
Proof.
  split; unfold constructible, exc1, exc2; cbn [body x]; unfold pair_of; cbn [tknx tkny]; rewrite parse_str by reflexivity;
  (destruct (req _ _) eqn:E; [apply req_iff in E; lra|reflexivity]).
Qed.
Lemma ex_run : run exprog = mkWorld (fst (new_container [exc1; exc2] [0; 1]%nat)) [snd (new_container [exc1; exc2] [0; 1]%nat)].
Proof.
  destruct ex_constructible as [A B]. unfold run, exprog, no_world. cbn [fold_left act w_heap w_ccs]. rewrite A. cbn [w_heap w_ccs app]. rewrite B. cbn [w_heap w_ccs app].
  replace (valid_refs [exc1; exc2] [0; 1]%nat) with true by reflexivity. destruct (new_container [exc1; exc2] [0; 1]%nat). reflexivity.
Qed.
Definition exheap : heap := fst (new_container [exc1; exc2] [0; 1]%nat).
Definition exccs : container := snd (new_container [exc1; exc2] [0; 1]%nat).
Lemma ex_objs : curves exccs = [0; 1]%nat /\ obj exheap 0 = body exc1 /\ obj exheap 1 = body exc2 /\ deref exheap 0 = mkCC (body exc1) (Some (CInt 0)) "" /\ deref exheap 1 = mkCC (body exc2) (Some (CInt 1)) "" /\ List.length exheap = 2%nat.
Proof. repeat split. Qed.
Lemma ex_in : In exccs (w_ccs (run exprog)) /\ w_heap (run exprog) = exheap.
Proof. rewrite ex_run. split; [left; reflexivity|reflexivity]. Qed.

Lemma ex_active : active [body exc1; body exc2] [body exc1; body exc2].
Proof.
  assert (E : / 10 ^ 6 < 1 / 4). { unfold Rdiv. rewrite Rmult_1_l. apply Rinv_lt_contravar; [apply Rmult_lt_0_compat; [lra|apply pow_lt; lra]|]. assert (4 ^ 1 <= 10 ^ 1) by lra. assert (10 ^ 1 < 10 ^ 6) by (apply Rlt_pow; [lra|lia]). lra. }
  assert (D : forall a, 1 / 4 <= a -> ~ Rabs a < / 10 ^ 6) by (intros a H X; rewrite Rabs_right in X by lra; lra).
  apply active_keep; [|apply active_keep; [|constructor]]; unfold used_up, x_max, x_min, y_min, y; cbn [body exc1 exc2 k x x_act y_act].
  - intros [[_ X]|(m & X & Y)]; [revert X; apply D; lra|]. rewrite rlt_true in X by lra. injection X as <-. revert Y. rewrite Rabs_minus_sym. apply D. lra.
  - intros [[_ X]|(m & X & Y)]; [revert X; apply D; lra|]. rewrite rlt_true in X by lra. injection X as <-. revert Y. rewrite Rabs_minus_sym. apply D. lra.
Qed.

(** ** C82 *)
(** after any program, looking an id up in a container finds the last curve with the id ... *)
Theorem C82_bycid : forall l cc c, In cc (w_ccs (run l)) ->
  (forall r, bycid cc c = Some r <-> last_such (has_cid (w_heap (run l)) c) (curves cc) r) /\
  (bycid cc c = None <-> forall r, In r (curves cc) -> ~ has_cid (w_heap (run l)) c r).
Proof. intros l cc c H. apply bycid_good, run_good, H. Qed.
(** ... and looking a curve up finds the last position of an equal curve *)
Theorem C82_curveix : forall l cc r, In cc (w_ccs (run l)) -> (r < List.length (w_heap (run l)))%nat ->
  (forall i, curveix (w_heap (run l)) cc r = Some i <-> last_position (fun r' => equal_curves (w_heap (run l)) r' r) (curves cc) i) /\
  (contains (w_heap (run l)) cc r = true <-> exists r', In r' (curves cc) /\ equal_curves (w_heap (run l)) r' r).
Proof. intros l cc r H L. apply curveix_good; [apply run_good, H|exact L]. Qed.
(** every curve in a container has an id and is found by an id and by itself, whichever
    containers it is in *)
Theorem C82_found : forall l cc r, In cc (w_ccs (run l)) -> In r (curves cc) ->
  (exists c r', has_cid (w_heap (run l)) c r /\ bycid cc c = Some r' /\ has_cid (w_heap (run l)) c r') /\ contains (w_heap (run l)) cc r = true.
Proof.
  intros l cc r H I1. pose proof (run_good l cc H) as G. destruct (proj1 G r I1) as [L _]. split.
  - destruct (named_has _ _ (proj1 G r I1)) as [c Hc]. destruct (bycid_good _ _ c G) as [A B]. destruct (bycid cc c) as [r'|] eqn:E.
    + exists c, r'. split; [exact Hc|]. split; [exact E|]. destruct (proj1 (A r') eq_refl) as (l1 & l2 & _ & X & _). exact X.
    + exfalso. apply (proj1 B eq_refl r I1 Hc).
  - apply (curveix_good _ _ r G L). exists r. split; [exact I1|]. exists (deref (w_heap (run l)) r). rewrite (deref_nth _ _ L). split; reflexivity.
Qed.
(** later actions never remove, change or reorder what a container holds: they append *)
Theorem C82_append : forall l a i cc, nth_error (w_ccs (run l)) i = Some cc ->
  exists cc' more, nth_error (w_ccs (run (l ++ [a]))) i = Some cc' /\ curves cc' = (curves cc ++ more)%list /\
    forall r, In r (curves cc) -> deref (w_heap (run (l ++ [a]))) r = deref (w_heap (run l)) r.
Proof. exact run_append. Qed.
Example C82_ex : In exccs (w_ccs (run exprog)) /\ bycid exccs (CInt 1) = Some 1%nat /\ last_such (has_cid (w_heap (run exprog)) (CInt 1)) (curves exccs) 1%nat.
Proof.
  destruct ex_in as [A B]. split; [exact A|]. assert (X : bycid exccs (CInt 1) = Some 1%nat) by reflexivity. split; [exact X|]. apply (proj1 (C82_bycid exprog exccs (CInt 1) A)), X.
Qed.

(** ** C83 *)
(** curves without id, put into a new container and added to it, get their positions as ids
    and are found by them *)
Theorem C83_numbered : forall h l more, NoDup (l ++ more) -> (forall r, In r (l ++ more) -> exists o, nth_error h r = Some o /\ c_cid o = None) ->
  let '(h1, cc1) := new_container h l in let '(h2, cc2) := add_curves h1 cc1 more in
  curves cc2 = (l ++ more)%list /\ forall i r, nth_error (l ++ more) i = Some r -> has_cid h2 (CInt i) r /\ bycid cc2 (CInt i) = Some r.
Proof. exact numbered_program. Qed.
(** but ids are not unique in general: an explicit id collides with an automatic one, and
    the first of the two curves is no longer found by any id *)
Theorem C83_unique_refuted : exists l cc, In cc (w_ccs (run l)) /\ curves cc = [0; 1]%nat /\
  has_cid (w_heap (run l)) (CInt 1) 0 /\ has_cid (w_heap (run l)) (CInt 1) 1 /\ forall c, bycid cc c <> Some 0%nat.
Proof.
  set (a := mkCC (body exc1) (Some (CInt 1)) ""). exists [NewCurve a; NewCurve exc2; NewContainer [0; 1]%nat].
  destruct ex_constructible as [A B]. assert (A' : constructible a = true) by exact A.
  exists (snd (new_container [a; exc2] [0; 1]%nat)). unfold run, no_world. cbn [fold_left act w_heap w_ccs]. rewrite A'. cbn [w_heap w_ccs app]. rewrite B. cbn [w_heap w_ccs app].
  replace (valid_refs [a; exc2] [0; 1]%nat) with true by reflexivity.
  split; [left; reflexivity|]. split; [reflexivity|]. split; [exists a; split; reflexivity|]. split; [eexists; split; reflexivity|].
  intros c. destruct c as [[|[|n]]|s]; discriminate.
Qed.
Example C83_ex : NoDup [0; 1]%nat /\ forall r, In r [0; 1]%nat -> exists o, nth_error [exc1; exc2] r = Some o /\ c_cid o = None.
Proof. split; [repeat constructor; cbn [In]; intuition lia|]. intros r [<-|[<-|[]]]; eexists; split; reflexivity. Qed.

(** ** C84 *)
(** the price of a pair is the mean of the quotes in the pair's primary direction, and the
    reciprocal of that mean in the other direction *)
Theorem C84_value : forall l cc b q, In cc (w_ccs (run l)) -> b <> q -> (forall c, In c (trading (w_heap (run l)) cc b q) -> 0 < k c) ->
  trading (w_heap (run l)) cc b q <> [] ->
  price (w_heap (run l)) cc b q = Ret (Some (if isprimary norm_cpc b q then mean (map (quote b) (trading (w_heap (run l)) cc b q))
                                                                    else / mean (map (quote q) (trading (w_heap (run l)) cc b q)))).
Proof.
  intros l cc b q H Ne K N. rewrite (price_value _ _ _ _ (run_good l cc H) (fun r I1 => run_curve l cc r H I1) Ne K).
  destruct (trading (w_heap (run l)) cc b q); [congruence|reflexivity].
Qed.
(** it is None exactly if no curve trades the two tokens; otherwise it is positive, the two
    directions are reciprocal, and it lies between two of the quotes *)
Theorem C84_price : forall l cc b q, In cc (w_ccs (run l)) -> b <> q -> (forall c, In c (trading (w_heap (run l)) cc b q) -> 0 < k c) ->
  (price (w_heap (run l)) cc b q = Ret None <-> trading (w_heap (run l)) cc b q = []) /\
  (trading (w_heap (run l)) cc b q <> [] -> exists m, price (w_heap (run l)) cc b q = Ret (Some m) /\ 0 < m /\
     price (w_heap (run l)) cc q b = Ret (Some (/ m)) /\
     exists c c', In c (trading (w_heap (run l)) cc b q) /\ In c' (trading (w_heap (run l)) cc b q) /\ quote b c <= m <= quote b c').
Proof. intros l cc b q H Ne K. apply price_props; [apply run_good, H|intros r I1; exact (run_curve l cc r H I1)|exact Ne|exact K]. Qed.
Lemma ex_trading : trading exheap exccs "WETH" "USDC" = [body exc1; body exc2].
Proof. reflexivity. Qed.
(** so the price of one WETH is the mean of 4 and 1 *)
Example C84_ex : In exccs (w_ccs (run exprog)) /\ trading exheap exccs "WETH" "USDC" = [body exc1; body exc2] /\
  isprimary norm_cpc "WETH" "USDC" = true /\ mean (map (quote "WETH") [body exc1; body exc2]) = 5 / 2 /\ price (w_heap (run exprog)) exccs "WETH" "USDC" = Ret (Some (5 / 2)).
Proof.
  destruct ex_in as [A B]. split; [exact A|]. split; [exact ex_trading|]. split; [reflexivity|].
  assert (M : mean (map (quote "WETH") [body exc1; body exc2]) = 5 / 2) by (unfold mean, total, quote; cbn [map fold_right List.length body exc1 exc2 tknx String.eqb Ascii.eqb Bool.eqb k x]; unfold INR; field).
  split; [exact M|]. assert (T : trading (w_heap (run exprog)) exccs "WETH" "USDC" = [body exc1; body exc2]) by (rewrite B; exact ex_trading).
  rewrite (C84_value exprog exccs "WETH" "USDC" A ltac:(discriminate)).
  - rewrite T. replace (isprimary norm_cpc "WETH" "USDC") with true by reflexivity. rewrite M. reflexivity.
  - rewrite T. intros c [<-|[<-|[]]]; cbn [body exc1 exc2 k]; lra.
  - rewrite T. discriminate.
Qed.

(** ** C85 *)
(** a copy has the same contents, and copying changes no curve *)
Theorem C85_copy : forall l cc, In cc (w_ccs (run l)) -> copy (w_heap (run l)) cc = (w_heap (run l), cc).
Proof. intros l cc H. apply copy_good, run_good, H. Qed.
(** a container of selected curves holds exactly these and changes no curve *)
Theorem C85_select : forall l cc rs, In cc (w_ccs (run l)) -> (forall r, In r rs -> In r (curves cc)) ->
  exists cc', select (w_heap (run l)) rs = (w_heap (run l), cc') /\ curves cc' = rs /\
    forall c r, bycid cc' c = Some r <-> last_such (has_cid (w_heap (run l)) c) rs r.
Proof.
  intros l cc rs H S1. destruct (select_good _ cc rs (run_good l cc H) S1) as (cc' & E & C & G). exists cc'. split; [exact E|]. split; [exact C|].
  intros c r. rewrite <- C. apply (bycid_good _ _ c G).
Qed.
(** selecting by ids: one curve per id, in the order of the ids; KeyError exactly for a missing id *)
Theorem C85_bycids : forall l cc ids exclude, In cc (w_ccs (run l)) ->
  (forall rs, bycids (w_heap (run l)) cc (Some ids) exclude = Ret rs <->
     Forall2 (fun c r => last_such (has_cid (w_heap (run l)) c) (curves cc) r) (filter (fun c => negb (cid_in c exclude)) ids) rs) /\
  (bycids (w_heap (run l)) cc (Some ids) exclude = Raise KeyError <-> exists c, In c ids /\ ~ In c exclude /\ forall r, In r (curves cc) -> ~ has_cid (w_heap (run l)) c r).
Proof. intros l cc ids exclude H. apply bycids_some, run_good, H. Qed.
Theorem C85_exclude : forall l cc exclude, In cc (w_ccs (run l)) -> exists rs keep, bycids (w_heap (run l)) cc None exclude = Ret rs /\
  rs = filter keep (curves cc) /\ forall r, In r (curves cc) -> keep r = true <-> forall c, has_cid (w_heap (run l)) c r -> ~ In c exclude.
Proof. intros l cc exclude H. destruct (bycids_all _ cc exclude (run_good l cc H)) as (rs & E & keep & A & B). exists rs, keep. repeat split; try assumption; apply B; assumption. Qed.
(** selecting by pair *)
Theorem C85_bypair : forall l cc b q, In cc (w_ccs (run l)) -> no_slash b = true -> no_slash q = true ->
  bypair (w_heap (run l)) cc (pair_str b q) true = filter (fun r => String.eqb (tknx (obj (w_heap (run l)) r)) b && String.eqb (tkny (obj (w_heap (run l)) r)) q) (curves cc) /\
  (b <> q -> Permutation (bypair (w_heap (run l)) cc (pair_str b q) false) (filter (fun r => on_tokens_b b q (obj (w_heap (run l)) r)) (curves cc))).
Proof.
  intros l cc b q H Hb Hq. assert (T : tokens_ok (w_heap (run l)) cc) by (intros r I1; destruct (run_curve l cc r H I1) as (A & B & _); split; assumption).
  split; [apply bypair_dir, T|]. apply (bypair_undir _ _ b q T Hb Hq).
Qed.
(** for a pair of a token with itself every curve is listed twice *)
Theorem C85_bypair_twice : forall l cc b, In cc (w_ccs (run l)) -> no_slash b = true ->
  bypair (w_heap (run l)) cc (pair_str b b) false = (bypair (w_heap (run l)) cc (pair_str b b) true ++ bypair (w_heap (run l)) cc (pair_str b b) true)%list.
Proof.
  intros l cc b H Hb. assert (T : tokens_ok (w_heap (run l)) cc) by (intros r I1; destruct (run_curve l cc r H I1) as (A & B & _); split; assumption).
  apply (bypair_undir _ _ b b T Hb Hb). reflexivity.
Qed.
(** selecting by the token on one side *)
Theorem C85_bytkn : forall l cc t r, In cc (w_ccs (run l)) ->
  (In r (bytknx (w_heap (run l)) cc t) <-> In r (curves cc) /\ tknx (obj (w_heap (run l)) r) = t) /\ (In r (bytkny (w_heap (run l)) cc t) <-> In r (curves cc) /\ tkny (obj (w_heap (run l)) r) = t) /\
  exists kx ky, bytknx (w_heap (run l)) cc t = filter kx (curves cc) /\ bytkny (w_heap (run l)) cc t = filter ky (curves cc).
Proof. intros l cc t r H. unfold bytknx, bytkny. rewrite !filter_In, !String.eqb_eq. split; [tauto|]. split; [tauto|]. eexists _, _. split; reflexivity. Qed.
Print Assumptions C85_bytkn.
Theorem C85_bypairs : forall l cc ps, In cc (w_ccs (run l)) ->
  (bypairs (w_heap (run l)) cc (Some ps) false = Raise ValueError <-> exists s, In s ps /\ parse_pair s = None) /\
  ((forall s, In s ps -> parse_pair s <> None) -> exists keep, bypairs (w_heap (run l)) cc (Some ps) false = Ret (filter keep (curves cc)) /\
     forall r, In r (curves cc) -> keep r = true <-> exists b q, In (pair_str b q) ps /\ on_tokens b q (obj (w_heap (run l)) r)) /\
  (exists keep, bypairs (w_heap (run l)) cc (Some ps) true = Ret (filter keep (curves cc)) /\
     forall r, In r (curves cc) -> keep r = true <-> In (pair_str (tknx (obj (w_heap (run l)) r)) (tkny (obj (w_heap (run l)) r))) ps).
Proof.
  intros l cc ps H. assert (T : tokens_ok (w_heap (run l)) cc) by (intros r I1; destruct (run_curve l cc r H I1) as (A & B & _); split; assumption).
  destruct (bypairs_undir _ cc ps T) as [A B]. split; [exact A|]. split; [exact B|]. eexists. split; [apply bypairs_dir|]. intros r _. apply str_in_iff.
Qed.
(** the tokens and pairs listed are those of the curves, each once *)
Theorem C85_tokens : forall h cc, NoDup (tkns h cc) /\ (forall t, In t (tkns h cc) <-> exists r, In r (curves cc) /\ (tknx (obj h r) = t \/ tkny (obj h r) = t)) /\
  (forall std, NoDup (pairs h cc std) /\ forall s, In s (pairs h cc std) <-> exists r, In r (curves cc) /\
     s = (if std then primary norm_cpc (tknx (obj h r)) (tkny (obj h r)) else pair_str (tknx (obj h r)) (tkny (obj h r)))).
Proof.
  intros h cc. split; [apply as_set_nodup|]. split.
  - intros t. unfold tkns. rewrite as_set_in, in_app_iff, !in_map_iff. split.
    + intros [(r & E & I1)|(r & E & I1)]; exists r; split; auto.
    + intros (r & I1 & [E|E]); [left|right]; exists r; split; assumption.
  - intros std. split; [apply as_set_nodup|]. intros s. unfold pairs. rewrite as_set_in, in_map_iff. split; intros (r & A & B); exists r; split; try assumption; (destruct std; auto).
Qed.
(** the token table has one row per token, listing the positions of its curves by side *)
Theorem C85_table : forall h cc t xs ys, In (t, (xs, ys)) (tokentable h cc) <-> In t (tkns h cc) /\
  xs = positions h cc tknx t /\ ys = positions h cc tkny t.
Proof. exact table_rows. Qed.
Theorem C85_positions : forall h cc f t i, In i (positions h cc f t) <-> exists r, nth_error (curves cc) i = Some r /\ f (obj h r) = t.
Proof. exact positions_in. Qed.
Example C85_ex : In exccs (w_ccs (run exprog)) /\ bypair exheap exccs "WETH/USDC" true = [0]%nat /\ bypair exheap exccs "WETH/USDC" false = [0; 1]%nat /\
  bycids exheap exccs (Some [CInt 1; CInt 0; CInt 7]) [CInt 7] = Ret [1; 0]%nat /\ bycids exheap exccs (Some [CInt 7]) [] = Raise KeyError /\
  bypairs exheap exccs (Some ["WETH"]%string) false = Raise ValueError /\ tokentable exheap exccs = [("USDC", ([1], [0])); ("WETH", ([0], [1]))]%string%nat.
Proof. split; [apply ex_in|]. repeat split. Qed.

(** ** C86 *)
(** with anyall=All the pairs meeting every condition, with Any those meeting at least one,
    each once *)
Theorem C86_all : forall h cc l conds, Forall slash_free l -> conds <> [] -> Forall known conds ->
  exists r, filter_pairs h cc (Some (map str_of l)) All conds = Ret r /\ NoDup r /\
    forall s, In s r <-> exists b q, In (b, q) l /\ s = pair_str b q /\ forall cond, In cond conds -> meets_cond cond b q.
Proof. intros h cc l conds F N K. exact (filter_pairs_ok h cc l All conds F N K). Qed.
Theorem C86_any : forall h cc l conds, Forall slash_free l -> conds <> [] -> Forall known conds ->
  exists r, filter_pairs h cc (Some (map str_of l)) Any conds = Ret r /\ NoDup r /\
    forall s, In s r <-> exists b q, In (b, q) l /\ s = pair_str b q /\ exists cond, In cond conds /\ meets_cond cond b q.
Proof. intros h cc l conds F N K. exact (filter_pairs_ok h cc l Any conds F N K). Qed.
(** an unknown condition, or an unknown way to combine them, is an error *)
Theorem C86_errors : forall h cc l mode conds, Forall slash_free l ->
  (forall cond, In cond conds -> ~ known cond -> filter_pairs h cc (Some (map str_of l)) mode conds = Raise ValueError) /\
  (conds <> [] -> Forall known conds -> filter_pairs h cc (Some (map str_of l)) Other conds = Raise ValueError).
Proof. intros h cc l mode conds F. split; [intros cond I1 K; eapply filter_pairs_bad; eassumption|]. intros N K. exact (filter_pairs_ok h cc l Other conds F N K). Qed.
(** without conditions all pairs are returned, and the pairs default to those of the container *)
Theorem C86_default : forall h cc ps mode conds, filter_pairs h cc (Some ps) mode [] = Ret ps /\
  filter_pairs h cc None mode conds = filter_pairs h cc (Some (pairs h cc true)) mode conds.
Proof. intros. split; reflexivity. Qed.
Example C86_ex : Forall slash_free [("A", "B"); ("C", "B")]%string /\ Forall known [("onein_1", ["A"]); ("bothin", ["A"; "B"])]%string /\
  meets_cond ("onein_1", ["A"])%string "A" "B" /\ ~ meets_cond ("onein_1", ["A"])%string "C" "B" /\ ~ known ("oneof", [])%string.
Proof.
  split; [repeat constructor|]. split; [|split; [|split]].
  - repeat constructor; [exists "onein"%string|exists "bothin"%string]; (split; [unfold kinds; cbn [In]; tauto|]); [right; exists "1"%string|left]; reflexivity.
  - exists "onein"%string. split; [unfold kinds; cbn [In]; tauto|]. split; [right; exists "1"%string; reflexivity|]. left. left. reflexivity.
  - intros (kind & I1 & N & C). cbn [fst snd] in *. apply (names_before _ _ I1) in N. cbn in N. subst kind. cbn in C. destruct C as [[C|[]]|[C|[]]]; discriminate.
  - intros (kind & I1 & N). cbn [fst] in N. apply (names_before _ _ I1) in N. cbn in N. subst kind. unfold kinds in I1. cbn [In] in I1. repeat (destruct I1 as [I1|I1]; [discriminate|]). destruct I1.
Qed.

(** ** C87 *)
(** the estimate of the price of [b] in [q]: the average of the quotes, weighted by the
    square root of k, of the curves that are not used up; an error (or None) if there is none *)
Theorem C87_value : forall l cc b q raise A, In cc (w_ccs (run l)) -> b <> q -> (forall r, In r (curves cc) -> 0 < k (obj (w_heap (run l)) r)) ->
  active (trading (w_heap (run l)) cc b q) A ->
  price_estimate (w_heap (run l)) cc b q raise = match A with [] => if raise then Raise ValueError else Ret None | _ => Ret (Some (weighted b A)) end.
Proof. intros l cc b q raise A H Ne K HA. apply estimate_value; [exact Ne| |exact HA]. intros r I1. split; [apply K, I1|apply (run_curve l cc r H I1)]. Qed.
(** the active curves are determined: those of the pair that are not used up *)
Theorem C87_active : forall l, (exists A, active l A) /\ forall A, active l A -> (forall B, active l B -> A = B) /\ forall c, In c A <-> In c l /\ ~ used_up c.
Proof. intros l. split; [apply active_exists|]. intros A H. split; [intros B; apply active_unique, H|]. intros c. apply active_in, H. Qed.
(** the estimate lies between two quotes; going there and back never loses, and gains
    unless all quotes agree *)
Theorem C87_between : forall l cc b q A, In cc (w_ccs (run l)) -> b <> q -> (forall r, In r (curves cc) -> 0 < k (obj (w_heap (run l)) r)) ->
  active (trading (w_heap (run l)) cc b q) A -> A <> [] ->
  exists e e', price_estimate (w_heap (run l)) cc b q true = Ret (Some e) /\ price_estimate (w_heap (run l)) cc q b true = Ret (Some e') /\
    0 < e /\ 0 < e' /\ (exists c c', In c A /\ In c' A /\ quote b c <= e <= quote b c') /\
    1 <= e * e' /\ (e * e' = 1 <-> forall c c', In c A -> In c' A -> quote b c = quote b c').
Proof.
  intros l cc b q A H Ne K HA N.
  assert (W : forall r, In r (curves cc) -> 0 < k (obj (w_heap (run l)) r) /\ x (obj (w_heap (run l)) r) <> 0) by (intros r I1; split; [apply K, I1|apply (run_curve l cc r H I1)]).
  assert (HI : forall c, In c A -> on_tokens b q c /\ 0 < k c /\ x c <> 0).
  { intros c I1. apply (active_in _ _ c HA) in I1. destruct I1 as [I1 _]. unfold trading in I1. apply filter_In in I1. destruct I1 as [I1 O]. apply in_map_iff in I1. destruct I1 as (r & <- & I1).
    split; [apply on_tokens_iff, O|apply W, I1]. }
  assert (HA' : active (trading (w_heap (run l)) cc q b) A) by (rewrite trading_swap; exact HA).
  pose proof (estimate_value _ _ _ _ true A Ne W HA) as E. pose proof (estimate_value _ _ _ _ true A (not_eq_sym Ne) W HA') as E'.
  destruct A as [|a0 A0]; [congruence|]. set (A := a0 :: A0) in *. exists (weighted b A), (weighted q A). split; [exact E|]. split; [exact E'|].
  assert (HK : forall c, In c A -> 0 < k c) by (intros c I1; apply HI, I1).
  destruct (weighted_between b A N HK) as (c & c' & I1 & I2 & B). destruct (weighted_between q A N HK) as (d & d' & J1 & J2 & B').
  pose proof (quote_pos b c (proj1 (proj2 (HI c I1))) (proj2 (proj2 (HI c I1)))) as P. pose proof (quote_pos q d (proj1 (proj2 (HI d J1))) (proj2 (proj2 (HI d J1)))) as P'.
  split; [lra|]. split; [lra|]. split; [exists c, c'; repeat split; try assumption; apply B|]. apply weighted_round_trip; assumption.
Qed.
Theorem C87_same : forall h cc b raise, price_estimate h cc b b raise = Ret (Some 1).
Proof. intros. unfold price_estimate. rewrite String.eqb_refl. reflexivity. Qed.
(** the table of estimates, a row for each quote token and in it an entry for each base token;
    asked to raise, it fails exactly if an entry is missing *)
Theorem C87_table : forall l cc tknqs tknbs, In cc (w_ccs (run l)) -> (forall r, In r (curves cc) -> 0 < k (obj (w_heap (run l)) r)) ->
  exists m, Forall2 (fun q row => Forall2 (fun b e => price_estimate (w_heap (run l)) cc b q false = Ret e) tknbs row) tknqs m /\
    price_estimates (w_heap (run l)) cc tknqs tknbs false = Ret m /\
    ((forall row e, In row m -> In e row -> e <> None) -> price_estimates (w_heap (run l)) cc tknqs tknbs true = Ret m) /\
    ((exists row, In row m /\ In None row) -> price_estimates (w_heap (run l)) cc tknqs tknbs true = Raise ValueError).
Proof.
  intros l cc tknqs tknbs H K. apply estimates_table. intros b q. destruct (string_dec q b) as [->|Ne]; [eexists; apply C87_same|].
  destruct (active_exists (trading (w_heap (run l)) cc b q)) as (A & HA). rewrite (C87_value l cc b q false A H (not_eq_sym Ne) K HA). destruct A; eexists; reflexivity.
Qed.
(** unlike [price], the two directions are therefore not reciprocal *)
Theorem C87_reciprocal_refuted : exists l cc b q e e', In cc (w_ccs (run l)) /\ price_estimate (w_heap (run l)) cc b q true = Ret (Some e) /\
  price_estimate (w_heap (run l)) cc q b true = Ret (Some e') /\ e * e' <> 1.
Proof.
  destruct ex_in as [I0 H0]. 
  destruct (C87_between exprog exccs "WETH" "USDC" [body exc1; body exc2] I0 ltac:(discriminate)) as (e & e' & E & E' & _ & _ & _ & _ & Q).
  - rewrite H0. destruct ex_objs as (C & O1 & O2 & _). rewrite C. intros r [<-|[<-|[]]]; rewrite ?O1, ?O2; cbn [body exc1 exc2 k]; lra.
  - rewrite H0, ex_trading. exact ex_active.
  - discriminate.
  - exists exprog, exccs, "WETH"%string, "USDC"%string, e, e'. split; [exact I0|]. split; [exact E|]. split; [exact E'|]. intros X. apply Q with (c := body exc1) (c' := body exc2) in X; [|left; reflexivity|right; left; reflexivity].
    unfold quote in X. cbn [body exc1 exc2 tknx String.eqb Ascii.eqb Bool.eqb k x] in X. revert X. lra.
Qed.

(** ** C88 *)
(** a curve built from a Carbon order sits at the end of its range: always used up *)
Theorem C88_used_up : forall yint y0 pa pb A B tknb tknq tkn isdydx c, from_carbon yint y0 pa pb A B tknb tknq tkn isdydx = Ret c -> at_boundary c = Ret true /\ used_up c.
Proof. exact carbon_used_up. Qed.
Theorem C88_as_cpc : forall c tb tq c', valid c -> 0 < c_S c -> tb <> tq -> as_cpc c tb tq = Ret c' -> at_boundary c' = Ret true /\ used_up c'.
Proof. intros c tb tq c' V HS Ht E. destruct (as_cpc_used_up c tb tq c' V HS Ht E) as (A & B & _). split; assumption. Qed.
(** so a pair served by Carbon curves only has no estimate, however liquid, while it has a price *)
Theorem C88_no_estimate : forall l cc b q raise, In cc (w_ccs (run l)) -> b <> q -> (forall r, In r (curves cc) -> 0 < k (obj (w_heap (run l)) r)) ->
  (forall c, In c (trading (w_heap (run l)) cc b q) -> exists yint y0 pa pb A B tknb tknq tkn isdydx, from_carbon yint y0 pa pb A B tknb tknq tkn isdydx = Ret c) ->
  price_estimate (w_heap (run l)) cc b q raise = (if raise then Raise ValueError else Ret None) /\
  (trading (w_heap (run l)) cc b q <> [] -> exists m, price (w_heap (run l)) cc b q = Ret (Some m) /\ 0 < m).
Proof.
  intros l cc b q raise H Ne K F. split.
  - apply ignored; [exact Ne| |]. { intros r I1. split; [apply K, I1|apply (run_curve l cc r H I1)]. }
    intros c I1. destruct (F c I1) as (yint & y0 & pa & pb & A & B & tknb & tknq & tkn & isd & E). apply (C88_used_up _ _ _ _ _ _ _ _ _ _ _ E).
  - intros N. destruct (C84_price l cc b q H Ne) as [_ X].
    + intros c I1. unfold trading in I1. apply filter_In in I1. destruct I1 as [I1 _]. apply in_map_iff in I1. destruct I1 as (r & <- & I1). apply K, I1.
    + destruct (X N) as (m & A & B & _). exists m. split; assumption.
Qed.
Example C88_ex : exists c, from_carbon 10 10 None None (Some 1) (Some 1) "A" "B" "B" true = Ret c /\ 0 < k c /\ y_act c = 10 /\ tknx c = "A"%string /\ tkny c = "B"%string.
Proof.
  unfold from_carbon. rewrite !rlt_false by lra. cbn [String.eqb Ascii.eqb Bool.eqb orb negb carbon_AB]. rewrite rlt_false by lra. cbn [rbind].
  rewrite !rdiv_ok by lra. cbn [rbind]. rewrite rdiv_ok by lra. cbn [rbind]. unfold make. rewrite rdiv_ok by lra. cbn [rbind]. eexists. split; [reflexivity|]. cbn [k y_act tknx tkny dflt]. repeat split; lra.
Qed.

(** ** C89 *)
(** adding a container that holds a curve to itself does not terminate *)
Theorem C89_self : forall h cc, curves cc <> [] -> forall fuel, add_self fuel h cc 0 = None.
Proof. intros h cc N fuel. apply self_forever. destruct (curves cc); [congruence|]. cbn [List.length]. lia. Qed.
(** adding another container, or an empty one, appends its curves *)
Theorem C89_other : forall l i j cc dd, nth_error (w_ccs (run l)) i = Some cc -> nth_error (w_ccs (run l)) j = Some dd -> i <> j ->
  exists cc', nth_error (w_ccs (run (l ++ [AddCont i j]))) i = Some cc' /\ curves cc' = (curves cc ++ curves dd)%list.
Proof. exact add_other. Qed.
Theorem C89_empty : forall h cc fuel, curves cc = [] -> add_self (S fuel) h cc 0 = Some (h, cc).
Proof. intros h cc fuel E. cbn [add_self]. rewrite E. reflexivity. Qed.
Example C89_ex : curves exccs <> [] /\ In exccs (w_ccs (run exprog)).
Proof. split; [discriminate|apply ex_in]. Qed.

(** ** C90 *)
(** the Herfindahl index of n non-negative numbers lies between 1/n and 1, its inverse
    between 1 and n *)
Theorem C90_herfindahl : forall l, (forall v, In v l -> 0 <= v) -> 0 < total l -> exists H, herfindahl l = Ret H /\ / INR (List.length l) <= H <= 1 /\
  exists N, herfindahlN l = Ret N /\ 1 <= N <= INR (List.length l) /\ N * H = 1.
Proof. exact herf_value. Qed.
(** it does not change with the unit of the numbers *)
Theorem C90_scale : forall l a, a <> 0 -> herfindahl (map (fun v => a * v) l) = herfindahl l.
Proof. exact herf_scale. Qed.
(** equal numbers: 1/n; everything in one place: 1 *)
Theorem C90_equal : forall v n, 0 < v -> (0 < n)%nat -> herfindahl (repeat v n) = Ret (/ INR n).
Proof. exact herf_equal. Qed.
Theorem C90_one : forall v l1 l2, 0 < v -> (forall u, In u (l1 ++ l2) -> u = 0) -> herfindahl (l1 ++ v :: l2) = Ret 1.
Proof. exact herf_one. Qed.
(** the relative range of non-negative numbers lies between 0 and 1 and is 0 exactly if all are equal *)
Theorem C90_range : forall l, l <> [] -> (forall v, In v l -> 0 <= v) -> 0 <= rangepc l <= 1 /\ (rangepc l = 0 <-> forall u v, In u l -> In v l -> u = v).
Proof. exact range_value. Qed.
Example C90_ex : herfindahl [1; 3] = Ret (5 / 8) /\ rangepc [1; 3] = 2 / 3.
Proof.
  split.
  - unfold herfindahl, rsum. cbn [map fold_left]. rewrite rdiv_ok by lra. f_equal. field.
  - unfold rangepc, maxl, minl. cbn [fold_left]. rewrite Rmax_right, Rmin_left by lra. rewrite req_false by lra. field.
Qed.

Print Assumptions C82_bycid.
Print Assumptions C82_curveix.
Print Assumptions C82_found.
Print Assumptions C82_append.
Print Assumptions C83_numbered.
Print Assumptions C83_unique_refuted.
Print Assumptions C84_value.
Print Assumptions C84_price.
Print Assumptions C85_copy.
Print Assumptions C85_select.
Print Assumptions C85_bycids.
Print Assumptions C85_exclude.
Print Assumptions C85_bypair.
Print Assumptions C85_bypair_twice.
Print Assumptions C85_bypairs.
Print Assumptions C85_tokens.
Print Assumptions C85_table.
Print Assumptions C85_positions.
Print Assumptions C86_all.
Print Assumptions C86_any.
Print Assumptions C86_errors.
Print Assumptions C86_default.
Print Assumptions C87_value.
Print Assumptions C87_active.
Print Assumptions C87_between.
Print Assumptions C87_same.
Print Assumptions C87_table.
Print Assumptions C87_reciprocal_refuted.
Print Assumptions C88_used_up.
Print Assumptions C88_as_cpc.
Print Assumptions C88_no_estimate.
Print Assumptions C89_self.
Print Assumptions C89_other.
Print Assumptions C89_empty.
Print Assumptions C90_herfindahl.
Print Assumptions C90_scale.
Print Assumptions C90_equal.
Print Assumptions C90_one.
Print Assumptions C90_range.
