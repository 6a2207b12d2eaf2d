(** C158-C159: the graphs of optimizer results, and the calls of margp_optimizer
    (carbon/tools/arbgraphs.py, carbon/tools/optimizer.py). *)
From Coq Require Import Reals Lra Bool List String Lia ZArith Permutation.
From Verif Require Import CurveModel CurveProofs PairModel HelperModel CpcModel CpcSpec ContainerModel ContainerSpec ContainerProofs3 OptModel OptSpec OptProofs9 OptProps GraphModel GraphSpec GraphProofs5 GraphProofs6
  ArbModel ArbSpec ArbProofs ArbProofs2 ArbProofs3 ArbProofs4.
Import ListNotations.
Local Open Scope R_scope.

(** ** C158: the graph of a result *)
(** one edge for each trade that moves something, in the order of the curves, with the id of
    its curve, from the token the pool receives to the token it pays; the nodes are the
    tokens of these trades, each once; the flag ignorezero does not matter; the graph takes
    from each token what the result reports *)
Theorem C158_margp : forall m cs target P best cid, Forall proper cs -> reports m cs target (m_p m) P best -> m_minimal m = false ->
  exists g, (forall iz, from_r cid (Converged m) iz = Ret g) /\ positive g /\ NoDup (map n_tkn (g_nodes g)) /\ Forall2 (shows cid g) (moving 0 best) (g_edges g) /\
    (forall t, GraphSpec.net g t = dget (m_dtokens m) t) /\ (forall u, (exists n, name g n = Some u) <-> exists n c dx dy, In (n, (c, dx, dy)) (moving 0 best) /\ (tknx c = u \/ tkny c = u)).
Proof. exact margp_graph. Qed.
Theorem C158_moving : forall l n c dx dy, In (n, (c, dx, dy)) (moving 0 l) <-> nth_error l n = Some (c, dx, dy) /\ (dx <> 0 \/ dy <> 0).
Proof. intros l n c dx dy. rewrite moving_in, Nat.sub_0_r. split; [intros (_ & A)|intros A; split; [lia|]]; exact A. Qed.
(** at the prices of the result each edge pays more than it takes, together the value of what
    the result takes out; if it balances, only the target token is left over, and all of the gain *)
Theorem C158_gain : forall m cs target P best cid g iz, Forall proper cs -> reports m cs target (m_p m) P best -> m_minimal m = false -> from_r cid (Converged m) iz = Ret g ->
  (forall e, In e (g_edges g) -> 0 < edge_gain P g e) /\ total_gain P g = - worth P (target :: m_tokens m) (dget (m_dtokens m)) /\
  (Forall (fun a => a = 0) (m_dt m) -> (forall u, u <> target -> GraphSpec.net g u = 0) /\ GraphSpec.net g target = m_value m /\ total_gain P g = - m_value m).
Proof. exact margp_gain. Qed.
(** the edges are the trade instructions *)
Theorem C158_instructions : forall m cs target P best cid g iz, Forall proper cs -> reports m cs target (m_p m) P best -> m_minimal m = false -> from_r cid (Converged m) iz = Ret g ->
  exists l, trade_instructions m = Ret l /\ NoDup (map ti_cid l) /\ List.length l = List.length (g_edges g) /\
    forall i, In i l -> exists e, In e (g_edges g) /\ e_uid e = Some (cid (ti_cid i)) /\ name g (e_in e) = Some (tknin i) /\ e_ain e = amtin i /\ name g (e_out e) = Some (tknout i) /\ e_aout e = - amtout i.
Proof. exact margp_instructions. Qed.
(** no graph of a minimal result or without convergence *)
Theorem C158_none : forall cid iz, (forall m, m_minimal m = true -> from_r cid (Converged m) iz = Raise AssertionError) /\ forall i, from_r cid (NotConverged i) iz = Raise AssertionError.
Proof. intros cid iz. split; [|reflexivity]. intros m E. cbn [from_r]. unfold dxdyvalues. rewrite E. reflexivity. Qed.
(** the same for simple_optimizer: the trades are those of the original curves, and what the
    graph leaves over of the target is the reported result *)
Theorem C158_simple : forall a b t o cs n r cid, isprimary norm_cpc a b = true -> (t = a /\ o = b) \/ (t = b /\ o = a) -> Forall proper cs -> Forall (on_pair a b) cs ->
  (exists c, In c cs /\ 0 < holding c b) -> simple_optimizer n cs t = Ret (Some r) ->
  exists l g, pools l = cs /\ all_allowed l /\ (forall iz, from_so cid r iz = Ret g) /\ positive g /\ Forall2 (shows cid g) (moving 0 l) (g_edges g) /\
    GraphSpec.net g t = so_result_ r /\ (forall u, u <> a -> u <> b -> GraphSpec.net g u = 0) /\
    (forall e, In e (g_edges g) -> 0 < edge_gain (fun u => if string_dec u a then so_p r else 1) g e).
Proof. exact simple_result. Qed.
Theorem C158_simple_empty : forall cid v p iz, from_so cid (mkSO v p []) iz = Raise IndexError.
Proof. reflexivity. Qed.
(** the graph of a container: two edges for each curve, at its price and the reciprocal *)
Theorem C158_container : forall cid cs, Forall pool_ok cs -> exists g, from_cc cid cs = Ret g /\ List.length (g_edges g) = (2 * List.length cs)%nat /\
  forall n c, nth_error cs n = Some c -> exists e1 e2, In e1 (g_edges g) /\ In e2 (g_edges g) /\ name g (e_in e1) = Some (tknx c) /\ name g (e_out e1) = Some (tkny c) /\
    e_in e2 = e_out e1 /\ e_out e2 = e_in e1 /\ e_price_outperin e1 = Ret (CpcModel.p c) /\ e_price_outperin e2 = Ret (1 / CpcModel.p c) /\
    e_uid e1 = Some (cid n) /\ e_uid e2 = Some (cid n ++ "-r")%string.
Proof.
  intros cid cs H. destruct (cpc_exact None (combine cs (map cid (seq 0 (List.length cs)))) empty_graph empty_inv) as (g & es & A & B & C & _ & D).
  - apply Forall_forall. intros [c s] Hc. apply in_combine_l in Hc. rewrite Forall_forall in H. apply H, Hc.
  - constructor.
  - exists g. unfold from_cc. rewrite A. split; [reflexivity|]. cbn [g_edges empty_graph] in B. rewrite app_nil_l in B. rewrite B, C, combine_length, map_length, seq_length, Nat.min_id. split; [reflexivity|]. intros n c Hn.
    apply (D c (cid n)). assert (Q : forall l i n, nth_error l n = Some c -> In (c, cid (i + n)%nat) (combine l (map cid (seq i (List.length l))))); [|exact (Q cs 0%nat n Hn)].
    clear. induction l as [|c0 l IH]; intros i [|n] E; cbn in E; try discriminate; cbn [List.length seq map combine].
    + injection E as ->. left. rewrite Nat.add_0_r. reflexivity.
    + right. replace (i + S n)%nat with (S i + n)%nat by lia. apply IH, E.
Qed.
(** the result that takes 5 B out of two pools: A goes from one pool to the other *)
Example C158_ex : exists g, from_r (fun n => match n with O => "one" | _ => "two" end)%string (Converged exresult) true = Ret g /\ List.length (g_edges g) = 2%nat /\ GraphSpec.net g "A" = 0 /\ GraphSpec.net g "B" = - 5 /\ total_gain exprices g = 5.
Proof.
  destruct C99_ex as (R1 & R2 & R3). assert (R1' : reports exresult [exa; exb] "B" (m_p exresult) exprices exbest) by exact R1. destruct (C158_margp exresult _ _ _ _ (fun n => match n with O => "one" | _ => "two" end)%string ex_proper R1' R2) as (g & E & _ & _ & F & N & _). exists g. split; [apply E|].
  destruct (C158_gain exresult _ _ _ _ _ g true ex_proper R1' R2 (E true)) as (_ & _ & G). destruct (G R3) as (_ & _ & T).
  split; [|split; [|split]].
  - assert (L : List.length (moving 0 exbest) = 2%nat).
    { unfold exbest. cbn [moving]. destruct (Req_EM_T (- (10 / 3)) 0); [lra|]. destruct (Req_EM_T (10 / 3) 0); [lra|]. reflexivity. }
    rewrite <- L. clear - F. induction F; cbn; congruence.
  - rewrite N. reflexivity.
  - rewrite N. reflexivity.
  - rewrite T. cbn [exresult m_value]. ring.
Qed.

(** ** C159: calling margp_optimizer *)
(** the request is fine if it is pure arbitrage for a token of the container; otherwise it
    is refused, whatever else is given *)
Theorem C159_checks : forall ot op solve h cc a want eps maxiter start, (forall target, ~ admissible h cc a target) -> optimize ot op solve h cc a want eps maxiter start = Raise AssertionError.
Proof. exact call_checks. Qed.
(** the name of a token stands for any pure arbitrage constraint for it *)
Theorem C159_name : forall ot op solve h cc t s want eps maxiter start, is_arbsfc s = true -> s_ov s = t ->
  optimize ot op solve h cc (ByName t) want eps maxiter start = optimize ot op solve h cc (ByObject s) want eps maxiter start.
Proof. exact call_name. Qed.
(** without start prices: the start prices are the weighted averages of the direct quotes; if
    a token has no direct quote there is an exception, but the frame of start prices is
    returned, without numbers. The frame, given back, leads to the same answer. *)
Theorem C159_estimates : forall ot op solve h cc a target want eps maxiter, order ot -> (forall r, In r (curves cc) -> 0 < k (obj h r) /\ x (obj h r) <> 0) -> admissible h cc a target ->
  (unreachable h cc target -> optimize ot op solve h cc a want eps maxiter NoStart =
     match want with PStart => Ret (Prices target (map (fun t => (t, None)) (tokens_t ot (map (obj h) (curves cc)) target))) | _ => Raise RuntimeError end) /\
  (~ unreachable h cc target -> exists v, Forall2 (quoted h cc target) (tokens_t ot (map (obj h) (curves cc)) target) v /\
     optimize ot op solve h cc a PStart eps maxiter NoStart = Ret (Prices target (combine (tokens_t ot (map (obj h) (curves cc)) target) (map Some v))) /\
     optimize ot op solve h cc a want eps maxiter NoStart = optimize ot op solve h cc a want eps maxiter (StartDict (combine (tokens_t ot (map (obj h) (curves cc)) target) v)) /\
     optimize ot op solve h cc a want eps maxiter NoStart = optimize ot op solve h cc a want eps maxiter (StartFrame [(target, combine (tokens_t ot (map (obj h) (curves cc)) target) v)])).
Proof. intros ot op solve h cc a target want eps maxiter Ot Hk A. exact (call_none ot op solve h cc Ot Hk a target want eps maxiter A). Qed.
(** the tokens priced: those of the container except the target, each once *)
Theorem C159_tokens : forall ot h cc target, order ot -> NoDup (tokens_t ot (map (obj h) (curves cc)) target) /\
  forall t, In t (tokens_t ot (map (obj h) (curves cc)) target) <-> t <> target /\ exists c, In c (map (obj h) (curves cc)) /\ (tknx c = t \/ tkny c = t).
Proof. intros ot h cc target Ot. split; [apply tokens_t_nodup, Ot|]. intros t. apply tokens_t_in, Ot. Qed.
(** given start prices: only those of the other tokens of the container count; one missing is
    a KeyError; a frame stands for its column of the target, without which there is an exception *)
Theorem C159_dict : forall ot op solve h cc a target want eps maxiter d, order ot -> admissible h cc a target ->
  (forall d', (forall t, t <> target -> (exists c, In c (map (obj h) (curves cc)) /\ (tknx c = t \/ tkny c = t)) -> entry d t = entry d' t) ->
     optimize ot op solve h cc a want eps maxiter (StartDict d) = optimize ot op solve h cc a want eps maxiter (StartDict d')) /\
  (forall t, t <> target -> (exists c, In c (map (obj h) (curves cc)) /\ (tknx c = t \/ tkny c = t)) -> ~ In t (map fst d) -> optimize ot op solve h cc a want eps maxiter (StartDict d) = Raise KeyError).
Proof.
  intros ot op solve h cc a target want eps maxiter d Ot A. split; [intros d' E; exact (call_dict_ext ot op solve h cc a target want eps maxiter d d' Ot A E)|].
  intros t Nt Hc Nd. apply (call_missing ot op solve h cc a target want eps maxiter d t Ot A Nt Hc). unfold entry. destruct (find (fun e => String.eqb (fst e) t) d) as [e|] eqn:F; [|reflexivity]. exfalso. apply find_some in F as [F1 F2]. apply String.eqb_eq in F2. apply Nd. rewrite <- F2. apply in_map, F1.
Qed.
Theorem C159_frame : forall ot op solve h cc a target want eps maxiter cols, admissible h cc a target ->
  (forall d, frame_column cols target = Some d -> optimize ot op solve h cc a want eps maxiter (StartFrame cols) = optimize ot op solve h cc a want eps maxiter (StartDict d)) /\
  (~ In target (map fst cols) -> optimize ot op solve h cc a want eps maxiter (StartFrame cols) = Raise RuntimeError).
Proof.
  intros ot op solve h cc a target want eps maxiter cols A. split; [intros d E; exact (call_frame ot op solve h cc a target want eps maxiter cols d A E)|]. intros N. apply (call_no_column ot op solve h cc a target want eps maxiter cols A).
  induction cols as [|[u d] cols IH]; [reflexivity|]. cbn [frame_column]. destruct (String.eqb u target) eqn:Z; [apply String.eqb_eq in Z; exfalso; apply N; left; exact Z|]. apply IH. intros X. apply N. right. exact X.
Qed.
(** a frame asked for with start prices given shows them *)
Theorem C159_shows : forall ot op solve h cc a target eps maxiter d, order ot -> admissible h cc a target ->
  (forall t, t <> target -> (exists c, In c (map (obj h) (curves cc)) /\ (tknx c = t \/ tkny c = t)) -> In t (map fst d)) ->
  optimize ot op solve h cc a PStart eps maxiter (StartDict d) = Ret (Prices target (map (fun t => (t, entry d t)) (tokens_t ot (map (obj h) (curves cc)) target))).
Proof.
  intros ot op solve h cc a target eps maxiter d Ot A H. destruct (call_value ot op solve h cc a target PStart eps maxiter (StartDict d) A) as (s & _ & _ & ->). cbn [starting]. rewrite start_entry.
  assert (Q : forall ts, (forall t, In t ts -> In t (map fst d)) -> exists v, rmap (fun t => match entry d t with Some v => Ret v | None => Raise KeyError end) ts = Ret v /\ combine ts (map Some v) = map (fun t => (t, entry d t)) ts).
  { clear. induction ts as [|t ts IH]; intros H; [exists []; split; reflexivity|]. destruct (IH (fun u Hu => H u (or_intror Hu))) as (v & E & C). cbn [rmap]. assert (Ht := H t (or_introl eq_refl)).
    assert (X : exists w, entry d t = Some w).
    { unfold entry. destruct (find (fun e => String.eqb (fst e) t) d) as [e|] eqn:F; [eexists; reflexivity|]. exfalso. apply in_map_iff in Ht as (e & <- & He). apply (find_none _ _ F) in He. rewrite String.eqb_refl in He. discriminate. }
    destruct X as (w & X). rewrite X. cbn [rbind]. rewrite E. cbn [rbind]. exists (w :: v). split; [reflexivity|]. cbn [map combine]. rewrite C, X. reflexivity. }
  destruct (Q (tokens_t ot (map (obj h) (curves cc)) target)) as (v & E & C). { intros t Ht. apply tokens_t_in in Ht as [H1 H2]; [|exact Ot]. apply H; assumption. }
  rewrite E. cbn [rbind]. unfold price_frame. rewrite C. reflexivity.
Qed.
(** a converged answer reports the trades at the marginal prices; the minimal answer is the
    full one without the functions *)
Theorem C159_answer : forall ot op solve h cc a target want eps maxiter start m, order ot -> order op -> Forall proper (map (obj h) (curves cc)) -> admissible h cc a target ->
  optimize ot op solve h cc a want eps maxiter start = Ret (Result (Converged m)) ->
  want <> PStart /\ (m_minimal m = true <-> want = Minimal) /\ exists P best, reports m (map (obj h) (curves cc)) target (m_p m) P best.
Proof. intros ot op solve h cc a target want eps maxiter start m Ot Op H A E. exact (call_reports ot op solve h cc Ot a target want eps maxiter start m Op H A E). Qed.
Theorem C159_minimal : forall ot op solve h cc a eps maxiter start, optimize ot op solve h cc a Minimal eps maxiter start =
  match optimize ot op solve h cc a Full eps maxiter start with Ret (Result o) => Ret (Result (lessened o)) | r => r end.
Proof. exact call_minimal. Qed.
(** the two pools again: with estimates, and with a third token that only trades against A *)
Definition exheap : heap := [mkCC exa None ""; mkCC exb None ""; mkCC (mkCpc 100 10 10 10 "A" "C") None ""].
Definition exfine : container := mkCont [0; 1]%nat [] [] [].
Definition exhole : container := mkCont [0; 1; 2]%nat [] [] [].
Lemma ex_unused c : x_act c = x c -> y_act c = k c / x c -> ~ used_up c.
Proof.
  intros A B [[N _]|(m & E & _)].
  - apply N. unfold x_min. rewrite A. ring.
  - unfold x_max, y_min, y in E. rewrite B in E. replace (k c / x c - k c / x c) with 0 in E by ring. rewrite rlt_false in E by lra. discriminate.
Qed.
Example C159_ex : order (fun l => l) /\ (forall r, In r (curves exfine) -> 0 < k (obj exheap r) /\ x (obj exheap r) <> 0) /\ admissible exheap exfine (ByName "B") "B" /\ ~ unreachable exheap exfine "B" /\ quoted exheap exfine "B" "A" 3 /\
  admissible exheap exhole (ByName "B") "B" /\ unreachable exheap exhole "B".
Proof.
  assert (Ua : ~ used_up exa) by (apply ex_unused; cbn; [reflexivity|field]). assert (Ub : ~ used_up exb) by (apply ex_unused; cbn; [reflexivity|field]).
  split; [intros l; apply Permutation_refl|]. split; [intros r [<-|[<-|[]]]; cbn; lra|]. split; [split; [reflexivity|exists exa; split; [left; reflexivity|right; reflexivity]]|]. split.
  { intros (t & Nt & (c & [<-|[<-|[]]] & [G|G]) & U); cbn in G; subst t; try (apply Nt; reflexivity); (apply Ua, (U exa); [left; reflexivity|left; split; reflexivity]). }
  split.
  { exists [exa; exb]. split; [|split; [discriminate|]].
    - assert (T : trading exheap exfine "A" "B" = [exa; exb]) by reflexivity. rewrite T. apply active_keep; [exact Ua|]. apply active_keep; [exact Ub|constructor].
    - unfold weighted, ContainerSpec.total, quote. cbn [map fold_right exa exb tknx k x String.eqb Ascii.eqb Bool.eqb]. replace 100 with (10 * 10) by ring. replace 400 with (20 * 20) by ring. rewrite !sqrt_square by lra. field. }
  split; [split; [reflexivity|exists exa; split; [left; reflexivity|right; reflexivity]]|].
  exists "C"%string. split; [discriminate|]. split; [exists (mkCpc 100 10 10 10 "A" "C"); split; [right; right; left; reflexivity|right; reflexivity]|].
  intros c [<-|[<-|[<-|[]]]] [[G1 G2]|[G1 G2]]; discriminate.
Qed.

Print Assumptions C158_margp.
Print Assumptions C158_moving.
Print Assumptions C158_gain.
Print Assumptions C158_instructions.
Print Assumptions C158_none.
Print Assumptions C158_simple.
Print Assumptions C158_simple_empty.
Print Assumptions C158_container.
Print Assumptions C159_checks.
Print Assumptions C159_name.
Print Assumptions C159_estimates.
Print Assumptions C159_tokens.
Print Assumptions C159_dict.
Print Assumptions C159_frame.
Print Assumptions C159_shows.
Print Assumptions C159_answer.
Print Assumptions C159_minimal.
