(** The graph of simple_optimizer; the start prices of margp_optimizer and its answers. *)
From Coq Require Import Reals Lra Bool String List ZArith Arith Lia Permutation.
From Verif Require Import CurveModel CurveProofs CpcModel CpcSpec PairModel HelperModel ContainerModel ContainerSpec ContainerProofs ContainerProofs2 ContainerProofs3 OptModel OptSpec OptProofs2 OptProofs3 OptProofs4 OptProofs6 OptProofs8 OptProofs9 OptProofs10 GraphModel GraphSpec ArbModel ArbSpec ArbProofs ArbProofs2 ArbProofs3.
Import ListNotations.
Local Open Scope R_scope.

Lemma turned_shows cid g p0 cs : forall i es, Forall2 (shows cid g) (moving i (map (side_trade p0) (map wrap cs))) es -> Forall2 (shows cid g) (moving i (map (marginal_trade p0) cs)) es.
Proof.
  induction cs as [|c cs IH]; intros i es F; [exact F|]. cbn [map] in *. unfold marginal_trade, side_trade in *. pose proof (wrap_curve c) as W. destruct (wrap c) as [d|d] eqn:Ew; cbn in W; subst d; cbn [pool_of moving] in *.
  - destruct (Req_EM_T (gx c p0) 0); [destruct (Req_EM_T (gy c p0) 0); [exact (IH _ _ F)|]|]; inversion F as [|? e'' ? es' F1 F2]; subst; (constructor; [exact F1|exact (IH _ _ F2)]).
  - assert (X : forall e, shows cid g (i, (mirror c, gx (mirror c) p0, gy (mirror c) p0)) e -> shows cid g (i, (c, gy (mirror c) p0, gx (mirror c) p0)) e).
    { unfold shows. cbn [mirror tknx tkny]. intros e (A & B & [D|D]); (split; [exact A|split; [exact B|]]); tauto. }
    destruct (Req_EM_T (gx (mirror c) p0) 0); destruct (Req_EM_T (gy (mirror c) p0) 0); try (exact (IH _ _ F)); inversion F as [|? e'' ? es' F1 F2]; subst; (constructor; [apply X, F1|exact (IH _ _ F2)]).
Qed.
Lemma simple_result a b t o cs n r cid : isprimary norm_cpc a b = true -> (t = a /\ o = b) \/ (t = b /\ o = a) -> Forall proper cs -> Forall (on_pair a b) cs ->
  (exists c, In c cs /\ 0 < holding c b) -> simple_optimizer n cs t = Ret (Some r) ->
  exists l g, pools l = cs /\ all_allowed l /\ (forall iz, from_so cid r iz = Ret g) /\ positive g /\ Forall2 (shows cid g) (moving 0 l) (g_edges g) /\
    net g t = so_result_ r /\ (forall u, u <> a -> u <> b -> net g u = 0) /\
    (forall e, In e (g_edges g) -> 0 < edge_gain (fun u => if string_dec u a then so_p r else 1) g e).
Proof.
  intros P T H O (c & Hc & Yc) S. assert (N : cs <> []) by (intros ->; destruct Hc). destruct (one_pair_ok a b cs P H O N) as (E & K & NE & D & Tk).
  assert (Tt : t = a \/ t = b) by tauto.
  assert (X : exists s, In s (map wrap cs) /\ 0 < y_act (pool_of s)).
  { exists (wrap c). split; [apply in_map, Hc|]. rewrite Forall_forall in H, O. destruct (oriented a b c P (O c Hc)) as (_ & _ & G). destruct (G (proj1 (H c Hc))) as [_ ->]. exact Yc. }
  destruct (so_root n cs t (map wrap cs) a b r K NE E D Tk Tt X S) as (R1 & R2 & _).
  assert (Ec : so_curves r = map wrap cs).
  { rewrite (so_unfold n cs t (map wrap cs) a b K NE E D Tk Tt) in S. cbv zeta in S. destruct (goalseek n _ _ _) as [[[z|z]|]|]; cbn [rbind] in S; try discriminate.
    - destruct (dxdy_sum (map wrap cs) z); cbn [rbind] in S; discriminate.
    - destruct (dxdy_sum (map wrap cs) z); cbn [rbind] in S; [|discriminate]. injection S as <-. reflexivity. }
  destruct (simple_graph cs (map wrap cs) (so_p r) cid (so_result_ r) H E R2) as (tx & ty & g & Nt & Op & G1 & G2 & G3 & G4 & G5).
  assert (Er : r = mkSO (so_result_ r) (so_p r) (map wrap cs)) by (destruct r; cbn in *; congruence).
  assert (Pr : forall d, In d cs -> pool_ok d /\ side_tknx (wrap d) = a /\ side_tkny (wrap d) = b).
  { intros d Hd. rewrite Forall_forall in H. split; [apply H, Hd|]. apply Tk, in_map, Hd. }
  destruct (sum_attained (so_p r) a b cs R2 D Pr) as (A1 & A2 & A3 & A4).
  exists (map (marginal_trade (so_p r)) cs), g. split; [exact A1|]. split; [exact A2|]. split; [intros iz; rewrite Er; apply G1|]. split; [exact G2|]. pose proof (turned_shows cid g (so_p r) cs 0 _ G3) as Sh. split; [exact Sh|].
  assert (SG : Forall signed (map (side_trade (so_p r)) (map wrap cs))).
  { apply Forall_forall. intros e He. apply in_map_iff in He as (s & <- & Hs). rewrite Forall_forall in K. pose proof (side_pool s (K s Hs)) as Hk. exact (proj2 (proj2 (trade_gain _ _ _ _ Hk R2 (dxdy_value _ _ Hk R2)))). }
  destruct (trades_graph cid _ SG true) as (g2 & B1 & _ & _ & _ & B5 & _).
  assert (g2 = g).
  { specialize (G1 true). unfold from_so in G1. cbn [so_curves so_p] in G1. rewrite (side_vec _ _ K R2) in G1. cbn [rbind] in G1.
    assert (Q : map (fun s => (side_tknx s, side_tkny s)) (map wrap cs) = map (fun e : cpc * R * R => (tknx (fst (fst e)), tkny (fst (fst e)))) (map (side_trade (so_p r)) (map wrap cs))).
    { rewrite (map_map (side_trade (so_p r))). apply map_ext. intros s. cbn [side_trade fst]. destruct (side_tokens s) as [-> ->]. reflexivity. }
    destruct (map wrap cs) as [|s0 l0] eqn:Z; [congruence|]. rewrite <- Z in *. rewrite Q in G1. fold (rows_of cid 0 (map (side_trade (so_p r)) (map wrap cs))) in G1. rewrite B1 in G1. cbn [built] in G1. congruence. }
  subst g2.
  assert (Nab : OptSpec.net (map (side_trade (so_p r)) (map wrap cs)) a = GX (map wrap cs) (so_p r) /\ OptSpec.net (map (side_trade (so_p r)) (map wrap cs)) b = GY (map wrap cs) (so_p r)).
  { clear - Tk D. unfold GX, GY. induction (map wrap cs) as [|s l IH]; [split; reflexivity|]. destruct (IH (fun s' H' => Tk s' (or_intror H'))) as [I1 I2]. destruct (Tk s (or_introl eq_refl)) as [T1 T2].
    cbn [map OptSpec.net side_trade flow ]. unfold total in *. cbn [fold_right]. destruct (side_tokens s) as [-> ->]. rewrite T1, T2.
    destruct (string_dec a a); [|congruence]. destruct (string_dec b b); [|congruence]. destruct (string_dec b a); [congruence|]. destruct (string_dec a b); [congruence|]. unfold ContainerSpec.total in *. cbn [fold_right]. rewrite ?I1, ?I2. split; ring. }
  destruct Nab as [Na Nb]. split; [|split].
  - rewrite B5, R1. unfold OptProofs3.wanted. destruct Tt as [-> | ->]; [rewrite String.eqb_refl; exact Na|]. destruct (String.eqb b a) eqn:Z; [apply String.eqb_eq in Z; congruence|exact Nb].
  - intros u U1 U2. rewrite B5. apply outside. intros d Hd. unfold pools in Hd. rewrite map_map in Hd. apply in_map_iff in Hd as (s & <- & Hs). cbn [side_trade fst]. destruct (Tk s Hs) as [T1 T2]. destruct (side_tokens s) as [-> ->]. rewrite T1, T2. split; congruence.
  - intros e He. destruct (Forall2_In_r _ _ _ _ G3 He) as ([i [[d dx] dy]] & I1 & I2). rewrite (shown_gain _ _ _ _ _ _ _ _ I2). apply moving_in in I1 as (_ & I1 & I3). apply nth_error_In in I1. apply in_map_iff in I1 as (s & Es & Hs). injection Es as <- <- <-.
    destruct (side_tokens s) as [-> ->]. destruct (Tk s Hs) as [-> ->]. destruct (string_dec a a); [|congruence]. destruct (string_dec b a); [congruence|]. rewrite Forall_forall in K. pose proof (side_pool s (K s Hs)) as Hk.
    destruct (trade_gain _ _ _ _ Hk R2 (dxdy_value _ _ Hk R2)) as ([L|L] & Z & _); [lra|]. apply Z in L as [L1 L2]. exfalso. destruct I3; contradiction.
Qed.

(** ** start prices *)
Section CALL.
Variables (ot op : list string -> list string) (solve : list (list R) -> list R -> list R) (h : heap) (cc : container).
Local Notation call := (optimize ot op solve h cc).
Local Notation cs := (map (obj h) (curves cc)).
Hypothesis Ot : order ot.
Hypothesis Hk : forall r, In r (curves cc) -> 0 < k (obj h r) /\ x (obj h r) <> 0.
Lemma not_target target : ~ In target (tokens_t ot cs target).
Proof. intros X. apply tokens_t_in in X; [|exact Ot]. apply (proj1 X). reflexivity. Qed.
Definition unreachable (target : string) : Prop := exists t, t <> target /\ (exists c, In c cs /\ (tknx c = t \/ tkny c = t)) /\ forall c, In c cs -> on_tokens t target c -> used_up c.
Lemma quoted_not target t v : quoted h cc target t v -> ~ (forall c, In c cs -> on_tokens t target c -> used_up c).
Proof.
  intros (A & HA & NA & _) U. destruct A as [|a A]; [congruence|]. destruct (proj1 (active_in _ _ a HA) (or_introl eq_refl)) as [I1 I2]. unfold trading in I1. apply filter_In in I1 as [I1 I3]. apply I2, (U a I1). apply on_tokens_iff, I3.
Qed.
Lemma start_none target : 
  (exists v, starting h cc target (tokens_t ot cs target) NoStart = Ret (Some v) /\ Forall2 (quoted h cc target) (tokens_t ot cs target) v /\ ~ unreachable target) \/
  (starting h cc target (tokens_t ot cs target) NoStart = Ret None /\ unreachable target).
Proof.
  cbn [starting]. destruct (estimates_value h cc target (tokens_t ot cs target) Hk (not_target target)) as [(v & E & F)|(E & t & I1 & U)]; rewrite E.
  - left. exists v. split; [reflexivity|]. split; [exact F|]. intros (t & Nt & It & U). assert (I1 : In t (tokens_t ot cs target)) by (apply tokens_t_in; auto). destruct (forall2_in_l _ _ _ _ F I1) as (w & _ & Q). exact (quoted_not _ _ _ Q U).
  - right. split; [reflexivity|]. apply tokens_t_in in I1 as [J1 J2]; [|exact Ot]. exists t. auto.
Qed.
Lemma call_none a target want eps maxiter : admissible h cc a target ->
  (unreachable target -> call a want eps maxiter NoStart = match want with PStart => Ret (Prices target (map (fun t => (t, None)) (tokens_t ot cs target))) | _ => Raise RuntimeError end) /\
  (~ unreachable target -> exists v, Forall2 (quoted h cc target) (tokens_t ot cs target) v /\
     call a PStart eps maxiter NoStart = Ret (Prices target (combine (tokens_t ot cs target) (map Some v))) /\
     call a want eps maxiter NoStart = call a want eps maxiter (StartDict (combine (tokens_t ot cs target) v)) /\
     call a want eps maxiter NoStart = call a want eps maxiter (StartFrame [(target, combine (tokens_t ot cs target) v)])).
Proof.
  intros A. destruct (start_none target) as [(v & E & F & N)|(E & U)]; (split; [intros U'|intros N']); try contradiction.
  - exists v. split; [exact F|]. assert (L : List.length v = List.length (tokens_t ot cs target)) by (clear - F; induction F; cbn; congruence).
    assert (S : starting h cc target (tokens_t ot cs target) (StartDict (combine (tokens_t ot cs target) v)) = Ret (Some v)) by (cbn [starting]; rewrite start_combine; [reflexivity|apply tokens_t_nodup, Ot|exact L]).
    split; [|split].
    + destruct (call_value ot op solve h cc a target PStart eps maxiter NoStart A) as (s & _ & _ & ->). rewrite E. reflexivity.
    + apply (call_starting ot op solve h cc a target); [exact A|]. rewrite E, S. reflexivity.
    + rewrite (call_frame ot op solve h cc a target want eps maxiter [(target, combine (tokens_t ot cs target) v)] _ A ltac:(cbn [frame_column]; rewrite String.eqb_refl; reflexivity)).
      apply (call_starting ot op solve h cc a target); [exact A|]. rewrite E, S. reflexivity.
  - destruct (call_value ot op solve h cc a target want eps maxiter NoStart A) as (s & As & O & ->). rewrite E. cbn [rbind]. destruct want; [| |reflexivity]; unfold margp_optimizer; rewrite As, O; cbn [negb];
    (destruct A as [_ A]; apply tokens_in in A; destruct cs as [|c l] eqn:Z; [destruct A|]; assert (Q : str_in target (token_set (c :: l)) = true) by (apply str_in_iff; exact A); rewrite Q; reflexivity).
Qed.
(** answers *)
Lemma call_reports a target want eps maxiter start m : order op -> Forall proper cs -> admissible h cc a target -> call a want eps maxiter start = Ret (Result (Converged m)) ->
  want <> PStart /\ (m_minimal m = true <-> want = Minimal) /\ exists P best, reports m cs target (m_p m) P best.
Proof.
  intros Op H A E. destruct (call_value ot op solve h cc a target want eps maxiter start A) as (s & As & O & V). rewrite V in E. destruct (starting _ _ _ _ _) as [p0|]; cbn [rbind] in E; [|discriminate]. destruct want.
  - destruct (margp_optimizer _ _ _ _ _ _ _ _ _ _) as [o|] eqn:M; cbn [rbind] in E; [|discriminate]. injection E as ->. destruct (converged_reports _ _ _ _ _ _ _ _ _ _ _ Ot Op H M) as (_ & Mm & _ & R). rewrite O in R. split; [discriminate|]. split; [rewrite Mm; split; discriminate|exact R].
  - destruct (margp_optimizer _ _ _ _ _ _ _ _ _ _) as [o|] eqn:M; cbn [rbind] in E; [|discriminate]. injection E as ->. destruct (converged_reports _ _ _ _ _ _ _ _ _ _ _ Ot Op H M) as (_ & Mm & _ & R). rewrite O in R. split; [discriminate|]. split; [rewrite Mm; split; reflexivity|exact R].
  - discriminate.
Qed.
End CALL.
Definition lessened (o : outcome) : outcome := match o with NotConverged i => NotConverged i | Converged m => Converged (mkMargp (m_curves m) (m_target m) (m_tokens m) (m_p m) (m_dtokens m) (m_dt m) (m_n m) (m_value m) true) end.
Lemma call_minimal ot op solve h cc a eps maxiter start : optimize ot op solve h cc a Minimal eps maxiter start =
  match optimize ot op solve h cc a Full eps maxiter start with Ret (Result o) => Ret (Result (lessened o)) | r => r end.
Proof.
  unfold optimize. destruct (match a with ByName t => arb t | ByObject s => Ret s end) as [s|]; [|reflexivity]. cbn [rbind]. destruct (is_arbsfc s) eqn:As; [|reflexivity]. cbn [negb].
  destruct (map (obj h) (curves cc)) as [|c l] eqn:Z; [reflexivity|]. destruct (str_in (s_ov s) (token_set (c :: l))) eqn:T; [|reflexivity]. cbn [negb]. destruct (starting _ _ _ _ _) as [p0|]; [|reflexivity]. cbn [rbind].
  unfold margp_optimizer. rewrite As, T. cbn [negb]. destruct (start_prices _ _ _) as [q0|]; [|reflexivity]. cbn [rbind]. destruct (rmap rlog10 q0) as [plog|]; [|reflexivity]. cbn [rbind].
  destruct (newton _ _ _ _ _ _ _) as [[i q]|]; [|reflexivity]. cbn [rbind]. destruct (Nat.eqb i _); [reflexivity|]. destruct (dtkn_d _ _ _ _ _) as [d|]; reflexivity.
Qed.
