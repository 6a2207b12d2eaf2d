(** The iteration of margp_optimizer (C98) and its results (C99). *)
From Coq Require Import Reals Lra Bool List String Lia ZArith Permutation.
From Verif Require Import CurveModel CurveProofs PairModel PairSpec HelperModel CpcModel CpcSpec CpcProofs CpcProofs2
  ContainerModel ContainerSpec ContainerProofs ContainerProofs2 OptModel OptSpec OptProofs OptProofs2 OptProofs3 OptProofs5 OptProofs6.
Import ListNotations.
Local Open Scope R_scope.

(** ** the iteration never fails *)
Lemma add_length j d v : List.length (add_at j d v) = List.length v.
Proof. revert j. induction v as [|a v IH]; intros [|j]; cbn [add_at List.length]; auto. Qed.
Lemma zipw_length f u v : List.length u = List.length v -> List.length (zipw f u v) = List.length v.
Proof. revert v. induction u as [|a u IH]; intros [|b v] H; cbn [zipw List.length] in *; try discriminate; auto. Qed.
Lemma jacobian_total (f : list R -> res (list R)) (g : list R -> list R) n v : (forall u, List.length u = n -> f u = Ret (g u)) -> List.length v = n ->
  exists J, jacobian f v None = Ret J.
Proof.
  intros F L. unfold jacobian. cbn [dflt]. rewrite (F v L). cbn [rbind].
  assert (E : 0 < JACEPS) by (unfold JACEPS; apply Rinv_0_lt_compat, pow_lt; lra).
  eexists. apply (rmap_ok _ (fun j => map (fun d => d / (if req (nth j v 0) 0 then JACEPS else Rabs (nth j v 0) * JACEPS))
    (zipw Rminus (g (add_at j (if req (nth j v 0) 0 then JACEPS else Rabs (nth j v 0) * JACEPS) v)) (g v)))).
  intros j _. cbv zeta. rewrite F by (rewrite add_length; exact L). cbn [rbind]. apply rmap_ok. intros d _. apply rdiv_ok.
  destruct (req (nth j v 0) 0) eqn:Z; [lra|]. assert (N : nth j v 0 <> 0) by (intros G; apply req_iff in G; congruence). apply Rabs_pos_lt in N. apply Rgt_not_eq, Rmult_lt_0_compat; assumption.
Qed.

Lemma newton_hit solve f q d eps p0 : newton_run solve f q d -> forall n i m, (i <= m < i + n)%nat -> norm (d m) < eps -> (forall j, (i <= j < m)%nat -> eps <= norm (d j)) ->
  newton solve f eps p0 n i (q i) = Ret (m, if Nat.eqb m 0 then p0 else map pow10 (q (S m))).
Proof.
  intros H. induction n as [|n IH]; intros i m B Hm Hj; [lia|]. destruct (H i) as (w & J & E1 & E2 & E3 & E4). cbn [newton]. rewrite E1, E2. cbn [rbind]. rewrite <- E3, <- E4.
  destruct (PeanoNat.Nat.eq_dec i m) as [->|N]; [rewrite rlt_true by exact Hm; reflexivity|]. rewrite rlt_false by (apply Hj; lia). destruct n as [|n]; [lia|]. apply IH; [lia|exact Hm|]. intros j B'. apply Hj. lia.
Qed.
Lemma newton_miss solve f q d eps p0 : newton_run solve f q d -> forall n i, (forall j, (i <= j < i + S n)%nat -> eps <= norm (d j)) ->
  newton solve f eps p0 (S n) i (q i) = Ret ((i + n)%nat, map pow10 (q (S (i + n)))).
Proof.
  intros H. induction n as [|n IH]; intros i Hj; destruct (H i) as (w & J & E1 & E2 & E3 & E4).
  - cbn [newton]. rewrite E1, E2. cbn [rbind]. rewrite <- E3, <- E4. rewrite rlt_false by (apply Hj; lia). rewrite PeanoNat.Nat.add_0_r. reflexivity.
  - remember (S n) as n'. cbn [newton]. rewrite E1, E2. cbn [rbind]. rewrite <- E3, <- E4. rewrite rlt_false by (apply Hj; lia). subst n'. rewrite IH by (intros j B; apply Hj; lia).
    do 2 f_equal; [lia|]. do 2 f_equal. lia.
Qed.
Definition next (solve : list (list R) -> list R -> list R) (f : list R -> res (list R)) (v : list R) : list R * list R :=
  match f v, jacobian f v None with Ret w, Ret J => (solve J (map Ropp w), zipw Rplus v (solve J (map Ropp w))) | _, _ => ([], v) end.
Fixpoint orbit solve f v i : list R := match i with O => v | S i => snd (next solve f (orbit solve f v i)) end.
Lemma run_exists solve (f : list R -> res (list R)) (g : list R -> list R) n v : (forall u, List.length u = n -> f u = Ret (g u) /\ List.length (g u) = n) -> List.length v = n ->
  (forall J b, List.length b = n -> List.length (solve J b) = n) -> exists q d, q O = v /\ newton_run solve f q d.
Proof.
  intros F L S. exists (orbit solve f v), (fun i => fst (next solve f (orbit solve f v i))). split; [reflexivity|].
  assert (A : forall i, List.length (orbit solve f v i) = n).
  { induction i as [|i IH]; [exact L|]. cbn [orbit]. unfold next. destruct (F _ IH) as [E1 E2]. rewrite E1. destruct (jacobian f (orbit solve f v i) None); [|exact IH]. cbn [snd].
    rewrite zipw_length; rewrite S; rewrite ?map_length; auto. }
  intros i. destruct (F _ (A i)) as [E1 E2]. destruct (jacobian_total f g n (orbit solve f v i) (fun u Hu => proj1 (F u Hu)) (A i)) as [J EJ].
  exists (g (orbit solve f v i)), J. cbn [orbit]. unfold next. rewrite E1, EJ. cbn [fst snd]. auto.
Qed.
Lemma pow10_pos l : Forall (fun v => 0 < v) (map pow10 l).
Proof. apply Forall_forall. intros v Hv. apply in_map_iff in Hv as (u & <- & _). apply exp_pos. Qed.
Lemma log_total ot op cs target u : order ot -> order op -> Forall proper cs -> List.length u = List.length (tokens_t ot cs target) ->
  dtkn_log ot op cs target u = Ret (map (net (map (mtrade (price_of (tokens_t ot cs target) (map pow10 u))) cs)) (tokens_t ot cs target)).
Proof.
  intros Ot Op H L. unfold dtkn_log. destruct (aggregate ot op cs target (map pow10 u) Ot Op H (pow10_pos u) ltac:(rewrite map_length; exact L)) as (d & E & _). rewrite E. reflexivity.
Qed.
Lemma rlog_inv l m : rmap rlog10 l = Ret m -> Forall (fun v => 0 < v) l /\ m = map (fun v => ln v / ln 10) l.
Proof.
  intros H. apply rmap_forall2 in H. induction H as [|a b l m E H IH]; [split; [constructor|reflexivity]|]. destruct IH as [I1 I2]. unfold rlog10 in E. destruct (rlt 0 a) eqn:L; [|discriminate].
  apply rlt_iff in L. split; [constructor; assumption|]. cbn [map]. congruence.
Qed.
Lemma rlog_ok l : Forall (fun v => 0 < v) l -> rmap rlog10 l = Ret (map (fun v => ln v / ln 10) l).
Proof. intros H. apply rmap_ok. intros a Ha. rewrite Forall_forall in H. unfold rlog10. rewrite rlt_true by (apply H, Ha). reflexivity. Qed.
Lemma pow10_log v : 0 < v -> pow10 (ln v / ln 10) = v.
Proof.
  intros H. unfold pow10. assert (ln 10 <> 0). { apply Rgt_not_eq. rewrite <- ln_1. apply ln_increasing; lra. }
  replace (ln v / ln 10 * ln 10) with (ln v) by (field; assumption). apply exp_ln, H.
Qed.

(** ** the outcome *)
Lemma tolerance_eq eps : opt_or (fun e => req e 0) eps MOEPS = tolerance eps.
Proof. destruct eps as [e|]; [|reflexivity]. cbn [opt_or tolerance]. unfold req. destruct (Req_EM_T e 0); reflexivity. Qed.
Lemma rounds_eq n : Z.to_nat (opt_or (Z.eqb 0) n MOMAXITER) = rounds n.
Proof. destruct n as [n|]; [|reflexivity]. cbn [opt_or rounds]. destruct (Z.eq_dec n 0) as [->|N]; [reflexivity|]. rewrite (proj2 (Z.eqb_neq 0 n)) by congruence. reflexivity. Qed.
Lemma margp_unfold ot op solve cs s eps maxiter pstart estimates minimal p0 : is_arbsfc s = true -> In (s_ov s) (token_set cs) ->
  start_prices (tokens_t ot cs (s_ov s)) pstart estimates = Ret p0 -> Forall (fun v => 0 < v) p0 ->
  margp_optimizer ot op solve cs s eps maxiter pstart estimates minimal =
  let* r := newton solve (dtkn_log ot op cs (s_ov s)) (tolerance eps) p0 (rounds maxiter) 0 (map (fun v => ln v / ln 10) p0) in
  let '(i, p) := r in if Nat.eqb i (rounds maxiter - 1) then Ret (NotConverged i) else
    let* d := dtkn_d ot op cs (s_ov s) p in Ret (Converged (mkMargp cs (s_ov s) (tokens_t ot cs (s_ov s)) p (fst d) (snd d) i (dget (fst d) (s_ov s)) minimal)).
Proof.
  intros A I1 E P. unfold margp_optimizer. rewrite A. cbn [negb]. rewrite tolerance_eq, rounds_eq. destruct cs as [|c cs]; [destruct I1|]. rewrite (proj2 (str_in_iff _ _) I1). cbn [negb].
  rewrite E. cbn [rbind]. rewrite rlog_ok by exact P. reflexivity.
Qed.
(** the result [m] reports the prices [p0] found in round [n] *)
Definition reports0 (ot : list string -> list string) (cs : list cpc) (target : string) (minimal : bool) (p0 : list R) (n : nat) (m : margp) : Prop :=
  m_curves m = cs /\ m_target m = target /\ m_tokens m = tokens_t ot cs target /\ m_p m = p0 /\ m_n m = n /\ m_minimal m = minimal /\
  map fst (m_dtokens m) = ot (token_set cs) /\
  let best := map (mtrade (price_of (tokens_t ot cs target) p0)) cs in
  (forall t, dget (m_dtokens m) t = net best t) /\ m_dt m = map (net best) (tokens_t ot cs target) /\ m_value m = net best target.
Lemma margp_outcome ot op solve cs s eps maxiter pstart estimates minimal p0 : order ot -> order op -> Forall proper cs ->
  (forall J b, List.length b = List.length (tokens_t ot cs (s_ov s)) -> List.length (solve J b) = List.length b) ->
  is_arbsfc s = true -> In (s_ov s) (token_set cs) ->
  start_prices (tokens_t ot cs (s_ov s)) pstart estimates = Ret p0 -> Forall (fun v => 0 < v) p0 -> List.length p0 = List.length (tokens_t ot cs (s_ov s)) ->
  exists q d, q O = map (fun v => ln v / ln 10) p0 /\ newton_run solve (dtkn_log ot op cs (s_ov s)) q d /\
    let out := margp_optimizer ot op solve cs s eps maxiter pstart estimates minimal in
    (rounds maxiter = O -> out = Raise NameError) /\
    (forall m, (m < rounds maxiter - 1)%nat -> norm (d m) < tolerance eps -> (forall j, (j < m)%nat -> tolerance eps <= norm (d j)) ->
      exists r, out = Ret (Converged r) /\ reports0 ot cs (s_ov s) minimal (if Nat.eqb m 0 then p0 else map pow10 (q (S m))) m r) /\
    ((0 < rounds maxiter)%nat -> (forall j, (j < rounds maxiter - 1)%nat -> tolerance eps <= norm (d j)) -> out = Ret (NotConverged (rounds maxiter - 1))).
Proof.
  intros Ot Op H S A I1 E P L. set (ts := tokens_t ot cs (s_ov s)) in *. set (f := dtkn_log ot op cs (s_ov s)).
  destruct (run_exists solve f (fun u => map (net (map (mtrade (price_of ts (map pow10 u))) cs)) ts) (List.length ts) (map (fun v => ln v / ln 10) p0)) as (q & d & Q0 & R).
  - intros u Hu. split; [apply log_total; assumption|apply map_length].
  - rewrite map_length. exact L.
  - intros J b Hb. rewrite S by exact Hb. exact Hb.
  - exists q, d. split; [exact Q0|]. split; [exact R|]. cbv zeta. rewrite (margp_unfold ot op solve cs s eps maxiter pstart estimates minimal p0 A I1 E P). fold ts f. rewrite <- Q0. split; [|split].
    + intros ->. reflexivity.
    + intros m Hm Hn Hj. rewrite (newton_hit solve f q d (tolerance eps) p0 R (rounds maxiter) 0 m); [|lia|exact Hn|intros j B; apply Hj; lia]. cbn [rbind].
      rewrite (proj2 (PeanoNat.Nat.eqb_neq m (rounds maxiter - 1))) by lia. set (pm := if Nat.eqb m 0 then p0 else map pow10 (q (Datatypes.S m))).
      assert (Pm : Forall (fun v => 0 < v) pm) by (unfold pm; destruct (Nat.eqb m 0); [exact P|apply pow10_pos]).
      assert (Lm : List.length pm = List.length ts).
      { unfold pm. destruct (Nat.eqb m 0); [exact L|]. rewrite map_length. assert (LQ : forall i, List.length (q i) = List.length ts).
        { induction i as [|i IH]; [rewrite Q0, map_length; exact L|]. destruct (R i) as (w & J & W1 & W2 & W3 & W4). rewrite W4. unfold f in W1. rewrite (log_total ot op cs (s_ov s) (q i) Ot Op H IH) in W1. fold ts in W1.
          assert (Lw : List.length w = List.length ts) by (assert (Ew : w = map (net (map (mtrade (price_of ts (map pow10 (q i)))) cs)) ts) by congruence; rewrite Ew; apply map_length).
          assert (Ld : List.length (d i) = List.length ts) by (rewrite W3, S by (rewrite map_length; exact Lw); rewrite map_length; exact Lw).
          rewrite zipw_length by congruence. exact Ld. }
        apply LQ. }
      destruct (aggregate ot op cs (s_ov s) pm Ot Op H Pm Lm) as (dd & D1 & D2 & D3). rewrite D1. cbn [rbind fst snd]. eexists. split; [reflexivity|].
      unfold reports0. cbn [m_curves m_target m_tokens m_p m_n m_minimal m_dtokens m_dt m_value]. cbv zeta. fold ts. repeat split; auto.
    + intros N Hj. destruct (rounds maxiter) as [|n] eqn:En; [lia|]. replace (Datatypes.S n - 1)%nat with n in * by lia. destruct (Rlt_dec (norm (d n)) (tolerance eps)) as [B|B].
      * rewrite (newton_hit solve f q d (tolerance eps) p0 R (Datatypes.S n) 0 n) by (try lia; try exact B; intros j Bj; apply Hj; lia). cbn [rbind]. rewrite PeanoNat.Nat.eqb_refl. reflexivity.
      * rewrite (newton_miss solve f q d (tolerance eps) p0 R n 0); [cbn [rbind]; rewrite PeanoNat.Nat.add_0_l, PeanoNat.Nat.eqb_refl; reflexivity|].
        intros j Bj. destruct (PeanoNat.Nat.eq_dec j n) as [->|Nj]; [lra|]. apply Hj. lia.
Qed.
Lemma start_dict ts d : (forall t, In t ts -> In t (map fst d)) -> exists p0, start_prices ts (Some d) None = Ret p0 /\ List.length p0 = List.length ts.
Proof.
  intros H. unfold start_prices. assert (X : forall t, In t ts -> exists v, match find (fun e : string * R => String.eqb (fst e) t) d with Some e => Ret (snd e) | None => Raise KeyError end = Ret v).
  { intros t Ht. destruct (find _ d) as [e|] eqn:F; [exists (snd e); reflexivity|]. exfalso. apply H in Ht. apply in_map_iff in Ht as (e & <- & He). apply (find_none _ _ F) in He. rewrite String.eqb_refl in He. discriminate. }
  clear H. induction ts as [|t ts IH]; [exists []; split; reflexivity|]. destruct (X t (or_introl eq_refl)) as [v Ev]. destruct IH as (p1 & E1 & L1); [intros u Hu; apply X; right; exact Hu|].
  exists (v :: p1). cbn [rmap]. rewrite Ev. cbn [rbind]. rewrite E1. cbn [rbind List.length]. split; [reflexivity|]. congruence.
Qed.
Lemma margp_rejects ot op solve cs s eps maxiter pstart estimates minimal : is_arbsfc s = false \/ ~ In (s_ov s) (token_set cs) ->
  margp_optimizer ot op solve cs s eps maxiter pstart estimates minimal = Raise AssertionError.
Proof.
  intros H. unfold margp_optimizer. destruct (is_arbsfc s) eqn:A; cbn [negb]; [|reflexivity]. destruct H as [H|H]; [discriminate|]. destruct cs as [|c cs]; [reflexivity|].
  destruct (str_in (s_ov s) (token_set (c :: cs))) eqn:E; [exfalso; apply H, str_in_iff, E|]. reflexivity.
Qed.

(** ** what is known of a result *)
Lemma newton_pos solve f eps p0 : Forall (fun v => 0 < v) p0 -> forall n i q r, newton solve f eps p0 n i q = Ret r -> Forall (fun v => 0 < v) (snd r).
Proof.
  intros P. induction n as [|n IH]; intros i q r; cbn [newton]; [discriminate|]. destruct (f q) as [w|]; cbn [rbind]; [|discriminate]. destruct (jacobian f q None) as [J|]; cbn [rbind]; [|discriminate].
  destruct (rlt _ eps).
  - intros [= <-]. cbn [snd]. destruct (Nat.eqb i 0); [exact P|apply pow10_pos].
  - destruct n as [|n]; [intros [= <-]; apply pow10_pos|]. apply IH.
Qed.
Lemma converged_inv ot op solve cs s eps maxiter pstart estimates minimal m : order ot -> order op -> Forall proper cs ->
  margp_optimizer ot op solve cs s eps maxiter pstart estimates minimal = Ret (Converged m) ->
  is_arbsfc s = true /\ In (s_ov s) (token_set cs) /\ Forall (fun v => 0 < v) (m_p m) /\ List.length (m_p m) = List.length (tokens_t ot cs (s_ov s)) /\
  reports0 ot cs (s_ov s) minimal (m_p m) (m_n m) m.
Proof.
  intros Ot Op H E. destruct (is_arbsfc s) eqn:A; [|rewrite margp_rejects in E by (left; exact A); discriminate].
  destruct (in_dec string_dec (s_ov s) (token_set cs)) as [I1|I1]; [|rewrite margp_rejects in E by (right; exact I1); discriminate]. split; [reflexivity|]. split; [exact I1|].
  destruct (start_prices (tokens_t ot cs (s_ov s)) pstart estimates) as [p0|e] eqn:S.
  2:{ exfalso. unfold margp_optimizer in E. rewrite A in E. cbn [negb] in E. destruct cs; [destruct I1|]. rewrite (proj2 (str_in_iff _ _) I1) in E. cbn [negb] in E. rewrite S in E. discriminate. }
  destruct (rmap rlog10 p0) as [l|e] eqn:Lg.
  2:{ exfalso. unfold margp_optimizer in E. rewrite A in E. cbn [negb] in E. destruct cs; [destruct I1|]. rewrite (proj2 (str_in_iff _ _) I1) in E. cbn [negb] in E. rewrite S in E. cbn [rbind] in E. rewrite Lg in E. discriminate. }
  destruct (rlog_inv _ _ Lg) as [P _]. rewrite (margp_unfold ot op solve cs s eps maxiter pstart estimates minimal p0 A I1 S P) in E.
  destruct (newton _ _ _ _ _ _ _) as [[i p1]|] eqn:N; cbn [rbind] in E; [|discriminate]. apply newton_pos in N; [|exact P]. cbn [snd] in N. destruct (Nat.eqb i _); [discriminate|].
  destruct (PeanoNat.Nat.eq_dec (List.length p1) (List.length (tokens_t ot cs (s_ov s)))) as [L|L].
  - destruct (aggregate ot op cs (s_ov s) p1 Ot Op H N L) as (d & D1 & D2 & D3). rewrite D1 in E. cbn [rbind fst snd] in E.
    assert (Em : m = mkMargp cs (s_ov s) (tokens_t ot cs (s_ov s)) p1 d (map (net (map (mtrade (price_of (tokens_t ot cs (s_ov s)) p1)) cs)) (tokens_t ot cs (s_ov s))) i (dget d (s_ov s)) minimal) by congruence.
    rewrite Em. unfold reports0. cbn [m_curves m_target m_tokens m_p m_n m_minimal m_dtokens m_dt m_value]. cbv zeta. repeat split; auto.
  - exfalso. unfold dtkn_d in E. rewrite (proj2 (PeanoNat.Nat.eqb_neq _ _) L) in E. discriminate.
Qed.
Lemma target_out ot cs target : ~ In target (tokens_t ot cs target).
Proof. unfold tokens_t. rewrite filter_In. intros [_ G]. rewrite String.eqb_refl in G. discriminate. Qed.
Lemma tokens_t_in ot cs target t : order ot -> (In t (tokens_t ot cs target) <-> t <> target /\ In t (token_set cs)).
Proof.
  intros Ot. unfold tokens_t. rewrite filter_In, (perm_in ot _ _ Ot). rewrite negb_true_iff, String.eqb_neq. tauto.
Qed.
