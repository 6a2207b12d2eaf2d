(** margp_optimizer in terms of prices and trades (C97-C99). *)
From Coq Require Import Reals Lra Bool List String Lia ZArith Permutation.
From Verif Require Import CurveModel CurveProofs PairModel PairSpec HelperModel CpcModel CpcSpec CpcProofs CpcProofs2
  ContainerModel ContainerSpec ContainerProofs ContainerProofs2 OptModel OptSpec OptProofs OptProofs2 OptProofs3 OptProofs5 OptProofs6 OptProofs7 OptProofs8 OptProofs9.
Import ListNotations.
Local Open Scope R_scope.

Lemma marginal_mtrade P c : pool_ok c -> (forall t, 0 < P t) -> marginal P (mtrade P c).
Proof.
  intros H PP. unfold mtrade, marginal. pose proof (PP (tknx c)) as Px. pose proof (PP (tkny c)) as Py. assert (Pr : 0 < P (tknx c) / P (tkny c)) by (apply Rdiv_lt_0_compat; assumption).
  split; [apply g_allowed; assumption|]. intros dx' dy' A. pose proof (g_best c _ _ _ H Pr A) as B. set (q := P (tknx c) / P (tkny c)) in *.
  assert (Eq : P (tknx c) = P (tkny c) * q) by (unfold q; field; lra). rewrite Eq. apply (Rmult_le_compat_l (P (tkny c))) in B; [|lra]. lra.
Qed.
Lemma marginal_unique P c dx dy dx' dy' : pool_ok c -> (forall t, 0 < P t) -> marginal P (c, dx, dy) -> marginal P (c, dx', dy') -> dx = dx' /\ dy = dy'.
Proof.
  intros H PP. pose proof (PP (tknx c)) as Px. pose proof (PP (tkny c)) as Py. set (q := P (tknx c) / P (tkny c)). assert (Hq : 0 < q) by (apply Rdiv_lt_0_compat; assumption).
  assert (Eq : P (tknx c) = P (tkny c) * q) by (unfold q; field; lra). destruct (trade_optimal c q H Hq) as (a & b & _ & A & _ & O).
  assert (U : forall u v, marginal P (c, u, v) -> u = a /\ v = b).
  { intros u v [M1 M2]. destruct (O u v M1) as [L|L]; [|exact L]. exfalso. specialize (M2 a b A). rewrite Eq in M2. apply (Rmult_lt_compat_l (P (tkny c))) in L; [|exact Py]. lra. }
  intros M M'. destruct (U _ _ M) as [-> ->]. destruct (U _ _ M') as [-> ->]. split; reflexivity.
Qed.
Lemma marginal_all P cs : Forall proper cs -> (forall t, 0 < P t) -> Forall (marginal P) (map (mtrade P) cs).
Proof. intros H PP. rewrite Forall_forall in H. apply Forall_forall. intros e He. apply in_map_iff in He as (c & <- & Hc). apply marginal_mtrade; [apply H, Hc|exact PP]. Qed.
Lemma marginal_is P best : Forall proper (pools best) -> (forall t, 0 < P t) -> Forall (marginal P) best -> best = map (mtrade P) (pools best).
Proof.
  intros H PP. induction best as [|[[c dx] dy] best IH]; [reflexivity|]. intros M. inversion M as [|? ? M1 M2]; subst. cbn [pools map fst] in *. inversion H as [|? ? H1 H2]; subst.
  f_equal; [|apply IH; assumption]. pose proof (marginal_mtrade P c (proj1 H1) PP) as M0. unfold mtrade in M0. destruct (marginal_unique P c _ _ _ _ (proj1 H1) PP M1 M0) as [-> ->]. reflexivity.
Qed.
Lemma price_map ts v : NoDup ts -> List.length v = List.length ts -> map (price_of ts v) ts = v.
Proof.
  revert v. induction ts as [|t ts IH]; intros [|a v] D L; try discriminate; [reflexivity|]. inversion D as [|? ? D1 D2]; subst. cbn [map]. f_equal.
  - cbn [price_of]. rewrite String.eqb_refl. reflexivity.
  - rewrite <- (IH v D2) at 2 by (cbn in L; lia). apply map_ext_in. intros u Hu. cbn [price_of]. destruct (String.eqb t u) eqn:E; [apply String.eqb_eq in E; subst u; contradiction|reflexivity].
Qed.
Lemma tokens_t_nodup ot cs target : order ot -> NoDup (tokens_t ot cs target).
Proof. intros Ot. apply NoDup_filter, perm_nodup; [exact Ot|apply NoDup_nodup]. Qed.
Lemma prices_of ot cs target v : order ot -> Forall (fun a => 0 < a) v -> List.length v = List.length (tokens_t ot cs target) ->
  prices target (tokens_t ot cs target) v (price_of (tokens_t ot cs target) v).
Proof.
  intros Ot P L. split; [intros t; apply price_pos, P|]. split; [intros t Ht; apply price_out, Ht|]. split; [apply price_out, target_out|]. apply price_map; [apply tokens_t_nodup, Ot|exact L].
Qed.
Lemma dtkn_meaning ot op cs target v : order ot -> order op -> Forall proper cs -> Forall (fun a => 0 < a) v -> List.length v = List.length (tokens_t ot cs target) ->
  exists P best d, prices target (tokens_t ot cs target) v P /\ pools best = cs /\ Forall (marginal P) best /\
    dtkn_d ot op cs target v = Ret (d, map (net best) (tokens_t ot cs target)) /\ (forall t, dget d t = net best t).
Proof.
  intros Ot Op H Pv L. set (P := price_of (tokens_t ot cs target) v). destruct (aggregate ot op cs target v Ot Op H Pv L) as (d & E & _ & V). fold P in E, V.
  exists P, (map (mtrade P) cs), d. split; [apply prices_of; assumption|]. split; [apply pools_mtrade|]. split; [apply marginal_all; [exact H|intros t; apply price_pos, Pv]|]. split; assumption.
Qed.
Lemma dtkn_length ot op cs target v : List.length v <> List.length (tokens_t ot cs target) -> dtkn_d ot op cs target v = Raise AssertionError.
Proof. intros L. unfold dtkn_d. rewrite (proj2 (PeanoNat.Nat.eqb_neq _ _) L). reflexivity. Qed.

Lemma marginal_duality P toks best l : Forall proper (pools best) -> (forall t, 0 < P t) -> NoDup toks -> (forall c, In c (pools best) -> In (tknx c) toks /\ In (tkny c) toks) ->
  Forall (marginal P) best -> pools l = pools best -> all_allowed l -> worth P toks (net best) <= worth P toks (net l) /\ worth P toks (net best) <= 0.
Proof.
  intros H PP D C M E A. rewrite (marginal_is P best H PP M). split; [apply duality; assumption|apply duality_zero; assumption].
Qed.
Lemma marginal_arbitrage P t best : Forall proper (pools best) -> (forall u, 0 < P u) -> P t = 1 -> Forall (marginal P) best -> (exists c, In c (pools best) /\ (tknx c = t \/ tkny c = t)) ->
  (forall u, u <> t -> net best u = 0) -> arbitrage t best.
Proof.
  intros H PP E M I1 Z. pose proof (marginal_is P best H PP M) as Eb. rewrite Eb. apply zero_arbitrage; try assumption; [apply tokens_in, I1|]. intros u Nu _. rewrite <- Eb. apply Z, Nu.
Qed.
Lemma marginal_near P t toks best l : Forall proper (pools best) -> (forall u, 0 < P u) -> P t = 1 -> Forall (marginal P) best -> NoDup (t :: toks) ->
  (forall u, In u (t :: toks) <-> exists c, In c (pools best) /\ (tknx c = u \/ tkny c = u)) ->
  pools l = pools best -> all_allowed l -> (forall u, u <> t -> net l u <= 0) -> net best t + worth P toks (net best) <= net l t.
Proof.
  intros H PP E M D C El Al Nl. pose proof (marginal_is P best H PP M) as Eb.
  assert (Dual : worth P (t :: toks) (net best) <= worth P (t :: toks) (net l)).
  { apply marginal_duality; try assumption. intros c Hc. split; apply C; exists c; auto. }
  assert (L : worth P (t :: toks) (net l) <= net l t) by (apply worth_le_target; try assumption; left; reflexivity).
  cbn [worth fold_right] in Dual. rewrite E in Dual. unfold worth in *. cbn [fold_right] in L. rewrite E in L. lra.
Qed.

(** ** results *)
Lemma reports_of ot cs target minimal v n m : order ot -> Forall proper cs -> Forall (fun a => 0 < a) v -> List.length v = List.length (tokens_t ot cs target) ->
  reports0 ot cs target minimal v n m -> let P := price_of (tokens_t ot cs target) v in reports m cs target v P (map (mtrade P) cs).
Proof.
  intros Ot H Pv L (R1 & R2 & R3 & R4 & R5 & R6 & R7 & R8 & R9 & R10) P. unfold reports. rewrite R3. split; [exact R1|]. split; [exact R2|]. split; [exact R4|]. split; [apply tokens_t_nodup, Ot|].
  split; [intros t; rewrite tokens_t_in by exact Ot; rewrite tokens_in; reflexivity|]. split; [apply prices_of; assumption|]. split; [apply pools_mtrade|].
  split; [apply marginal_all; [exact H|intros t; apply price_pos, Pv]|]. auto.
Qed.
Lemma converged_reports ot op solve cs s eps maxiter pstart estimates minimal m : order ot -> order op -> Forall proper cs ->
  margp_optimizer ot op solve cs s eps maxiter pstart estimates minimal = Ret (Converged m) ->
  is_arbsfc s = true /\ m_minimal m = minimal /\ (exists c, In c cs /\ (tknx c = s_ov s \/ tkny c = s_ov s)) /\ exists P best, reports m cs (s_ov s) (m_p m) P best.
Proof.
  intros Ot Op H E. destruct (converged_inv _ _ _ _ _ _ _ _ _ _ _ Ot Op H E) as (A & I1 & Pv & L & R). split; [exact A|]. split; [apply R|]. split; [apply tokens_in, I1|].
  eexists. eexists. exact (reports_of ot cs (s_ov s) minimal (m_p m) (m_n m) m Ot H Pv L R).
Qed.
Lemma run_outcome ot op solve cs s eps maxiter pstart estimates minimal p0 : order ot -> order op -> Forall proper cs ->
  (forall J b, List.length b = List.length p0 -> List.length (solve J b) = List.length b) ->
  is_arbsfc s = true -> (exists c, In c cs /\ (tknx c = s_ov s \/ tkny c = s_ov s)) ->
  start_prices (tokens_t ot cs (s_ov s)) pstart estimates = Ret p0 -> Forall (fun v => 0 < v) p0 -> List.length p0 = List.length (tokens_t ot cs (s_ov s)) ->
  exists q d, q O = map (fun v => ln v / ln 10) p0 /\ newton_run solve (dtkn_log ot op cs (s_ov s)) q d /\
    let out := margp_optimizer ot op solve cs s eps maxiter pstart estimates minimal in
    (rounds maxiter = O -> out = Raise NameError) /\
    (forall m, (m < rounds maxiter - 1)%nat -> norm (d m) < tolerance eps -> (forall j, (j < m)%nat -> tolerance eps <= norm (d j)) ->
      exists r P best, out = Ret (Converged r) /\ m_n r = m /\ m_minimal r = minimal /\ reports r cs (s_ov s) (if Nat.eqb m 0 then p0 else map (fun a => exp (a * ln 10)) (q (S m))) P best) /\
    ((0 < rounds maxiter)%nat -> (forall j, (j < rounds maxiter - 1)%nat -> tolerance eps <= norm (d j)) -> out = Ret (NotConverged (rounds maxiter - 1))).
Proof.
  intros Ot Op H S A I1 E P L. rewrite L in S. destruct (margp_outcome ot op solve cs s eps maxiter pstart estimates minimal p0 Ot Op H S A) as (q & d & Q0 & Rn & O1 & O2 & O3); try assumption.
  { apply tokens_in. exact I1. }
  exists q, d. split; [exact Q0|]. split; [exact Rn|]. cbv zeta in *. split; [exact O1|]. split; [|exact O3]. intros m Hm Hn Hj. destruct (O2 m Hm Hn Hj) as (r & Er & Rr).
  assert (Ev : m_p r = (if Nat.eqb m 0 then p0 else map pow10 (q (Datatypes.S m)))) by apply Rr. destruct (converged_inv _ _ _ _ _ _ _ _ _ _ _ Ot Op H Er) as (_ & _ & Pv & Lv & _). rewrite Ev in Pv, Lv.
  exists r. eexists. eexists. split; [exact Er|]. split; [apply Rr|]. split; [apply Rr|]. exact (reports_of ot cs (s_ov s) minimal _ m r Ot H Pv Lv Rr).
Qed.
Lemma results_value m cs target P best : Forall proper cs -> reports m cs target (m_p m) P best -> m_minimal m = false ->
  (forall a b, m_price m a b = Ret (P a / P b)) /\ dxdyvalues m = Ret (map (fun e => (snd (fst e), snd e)) best) /\
  (exists cs', curves_new m = Ret (Some cs') /\ Forall2 (fun e c' => settled (P (tknx (fst (fst e))) / P (tkny (fst (fst e)))) (fst (fst e)) (snd (fst e)) (snd e) c') best cs') /\
  exists l, trade_instructions m = Ret l /\ NoDup (map ti_cid l) /\ (forall i, In i l -> exists e, nth_error best (ti_cid i) = Some e /\ instructs i e) /\
    (forall n c dx dy, nth_error best n = Some (c, dx, dy) -> dx <> 0 \/ dy <> 0 -> exists i, In i l /\ ti_cid i = n).
Proof.
  intros H (R1 & R2 & R3 & R4 & R5 & (P1 & P2 & P3 & P4) & R6 & R7 & R8) N.
  assert (Pv : Forall (fun a => 0 < a) (m_p m)). { rewrite <- P4. apply Forall_forall. intros a Ha. apply in_map_iff in Ha as (t & <- & _). apply P1. }
  assert (EP : forall t, price_of (m_tokens m) (m_p m) t = P t).
  { intros t. destruct (in_dec string_dec t (m_tokens m)) as [I1|I1]; [|rewrite price_out by exact I1; symmetry; apply P2, I1]. rewrite <- P4. clear - I1.
    induction (m_tokens m) as [|u ts IH]; [destruct I1|]. cbn [map price_of]. destruct (String.eqb u t) eqn:E; [apply String.eqb_eq in E; subst u; reflexivity|].
    apply String.eqb_neq in E. destruct I1 as [I1|I1]; [congruence|]. apply IH, I1. }
  assert (Eb : best = map (mtrade (price_of (m_tokens m) (m_p m))) (m_curves m)).
  { rewrite R1. rewrite (marginal_is P best) by (try assumption; rewrite R6; exact H). rewrite R6. apply map_ext. intros c. unfold mtrade. rewrite !EP. reflexivity. }
  assert (Hm : Forall proper (m_curves m)) by (rewrite R1; exact H). rewrite Eb. split; [|split; [|split]].
  - intros a b. rewrite result_price by assumption. rewrite !EP. reflexivity.
  - apply result_dxdy; assumption.
  - destruct (result_curves m Hm Pv N) as (cs' & E1 & E2). exists cs'. split; [exact E1|]. revert E2. generalize (map (mtrade (price_of (m_tokens m) (m_p m))) (m_curves m)). intros l E2.
    clear E1. induction E2 as [|e c' l l' S1 S2 IH]; [constructor|]. constructor; [|exact IH]. rewrite !EP in S1. exact S1.
  - apply result_instructions; assumption.
Qed.
