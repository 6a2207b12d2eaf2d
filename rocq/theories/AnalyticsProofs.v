(** Vectors and order books. *)
From Coq Require Import ZArith QArith List Bool String Lia Lqa.
From Verif Require Import PairModel PairProofs CurveModel SimModel AnalyticsModel AnalyticsSpec.
Import ListNotations.
Local Open Scope nat_scope.

Lemma diff_length l : List.length (diff l) = pred (List.length l).
Proof. induction l as [|a [|b l] IH]; [reflexivity|reflexivity|]. change (diff (a :: b :: l)) with (fsub b a :: diff (b :: l)). cbn [List.length]. rewrite IH. reflexivity. Qed.
Lemma mid_length l : List.length (midpoints l) = pred (List.length l).
Proof. induction l as [|a [|b l] IH]; [reflexivity|reflexivity|]. change (midpoints (a :: b :: l)) with (fmul (Fin (1 # 2)) (fadd a b) :: midpoints (b :: l)). cbn [List.length]. rewrite IH. reflexivity. Qed.
Lemma diff_at l : forall i, S i < List.length l -> fat (diff l) i = fsub (fat l (S i)) (fat l i).
Proof.
  induction l as [|a [|b l] IH]; cbn [List.length]; try lia. intros [|i] H; [reflexivity|]. change (diff (a :: b :: l)) with (fsub b a :: diff (b :: l)).
  unfold fat in *. cbn [nth]. specialize (IH i). cbn [List.length nth] in IH. rewrite IH by lia. reflexivity.
Qed.
Lemma mid_at l : forall i, S i < List.length l -> fat (midpoints l) i = fmul (Fin (1 # 2)) (fadd (fat l i) (fat l (S i))).
Proof.
  induction l as [|a [|b l] IH]; cbn [List.length]; try lia. intros [|i] H; [reflexivity|]. change (midpoints (a :: b :: l)) with (fmul (Fin (1 # 2)) (fadd a b) :: midpoints (b :: l)).
  unfold fat in *. cbn [nth]. specialize (IH i). cbn [List.length nth] in IH. rewrite IH by lia. reflexivity.
Qed.
Lemma vop_length f l : forall l', List.length l = List.length l' -> List.length (vop f l l') = List.length l.
Proof. induction l as [|a l IH]; intros [|b l'] H; cbn in *; try discriminate; [reflexivity|]. rewrite IH by lia. reflexivity. Qed.
Lemma vop_at f l : forall l' i, List.length l = List.length l' -> i < List.length l -> fat (vop f l l') i = f (fat l i) (fat l' i).
Proof. induction l as [|a l IH]; intros [|b l'] i H Hi; cbn in *; try discriminate; try lia. destruct i as [|i]; [reflexivity|]. unfold fat. cbn [nth]. apply (IH l' i); lia. Qed.
Lemma fin_at v i : i < List.length v -> fat (map Fin v) i = Fin (at_ v i).
Proof. intros H. unfold fat, at_. rewrite (nth_indep _ NaN (Fin 0%Q)) by (rewrite map_length; exact H). apply (map_nth Fin). Qed.

Lemma is_sub a b x y : is a x -> is b y -> is (fsub a b) (x - y)%Q.
Proof. intros (u & -> & U) (v & -> & V). exists (u + - v)%Q. split; [reflexivity|]. rewrite U, V. ring. Qed.
Lemma is_div a b x y : is a x -> is b y -> ~ (y == 0)%Q -> is (fdiv a b) (x / y)%Q.
Proof. intros (u & -> & U) (v & -> & V) N. exists (u / v)%Q. unfold fdiv. destruct (Qeq_bool v 0) eqn:E; [apply Qeq_bool_iff in E; exfalso; apply N; rewrite <- V; exact E|]. split; [reflexivity|]. rewrite U, V. reflexivity. Qed.
Lemma is_mid a b x y : is a x -> is b y -> is (fmul (Fin (1 # 2)) (fadd a b)) ((x + y) / 2)%Q.
Proof. intros (u & -> & U) (v & -> & V). eexists. split; [reflexivity|]. rewrite U, V. field. Qed.
Lemma is_neg a x : is a x -> is (fneg a) (- x)%Q.
Proof. intros (u & -> & U). exists (- u)%Q. split; [reflexivity|]. rewrite U. reflexivity. Qed.
Lemma is_eq a x y : is a x -> (x == y)%Q -> is a y.
Proof. intros (u & -> & U) E. exists u. split; [reflexivity|]. rewrite U. exact E. Qed.

Lemma trg_step b src trg i : shows b src trg -> S i < List.length src -> is (fat (marg_trg_amounts b) i) (at_ trg (S i) - at_ trg i)%Q.
Proof. intros (_ & T & L) H. unfold marg_trg_amounts. rewrite T, diff_at by (rewrite map_length; lia). rewrite !fin_at by lia. apply is_sub; eexists; (split; [reflexivity|reflexivity]). Qed.
Lemma src_step b src trg i : shows b src trg -> S i < List.length src -> is (fat (marg_src_amounts b) i) (at_ src (S i) - at_ src i)%Q.
Proof. intros (T & _ & L) H. unfold marg_src_amounts. rewrite T, diff_at by (rewrite map_length; lia). rewrite !fin_at by lia. apply is_sub; eexists; (split; [reflexivity|reflexivity]). Qed.
Lemma trg_len b src trg : shows b src trg -> List.length (marg_trg_amounts b) = pred (List.length src).
Proof. intros (_ & T & L). unfold marg_trg_amounts. rewrite diff_length, T, map_length. lia. Qed.
Lemma src_len b src trg : shows b src trg -> List.length (marg_src_amounts b) = pred (List.length src).
Proof. intros (T & _ & L). unfold marg_src_amounts. rewrite diff_length, T, map_length. lia. Qed.
Lemma marg_len b src trg : shows b src trg -> List.length (marg_prices b) = pred (List.length src).
Proof. intros H. unfold marg_prices. rewrite vop_length; rewrite (trg_len _ _ _ H); [reflexivity|]. rewrite (src_len _ _ _ H). reflexivity. Qed.
Lemma marg_at b src trg i : shows b src trg -> S i < List.length src -> ~ (at_ src (S i) == at_ src i)%Q -> is (fat (marg_prices b) i) (slope src trg i).
Proof.
  intros H Hi N. unfold marg_prices. rewrite vop_at by (rewrite (trg_len _ _ _ H), ?(src_len _ _ _ H); lia). unfold slope. apply is_div; [exact (trg_step _ _ _ _ H Hi)|exact (src_step _ _ _ _ H Hi)|]. intros E. apply N. lra.
Qed.
Lemma dmarg_len b src trg : shows b src trg -> List.length (dmarg_prices b) = pred (pred (List.length src)).
Proof. intros H. unfold dmarg_prices. destruct (b_rev b); rewrite ?map_length, diff_length, (marg_len _ _ _ H); reflexivity. Qed.
Lemma dmarg_at b src trg i : shows b src trg -> S (S i) < List.length src -> ~ (at_ src (S i) == at_ src i)%Q -> ~ (at_ src (S (S i)) == at_ src (S i))%Q ->
  is (fat (dmarg_prices b) i) (if b_rev b then slope src trg i - slope src trg (S i) else slope src trg (S i) - slope src trg i)%Q.
Proof.
  intros H Hi N1 N2. assert (D : is (fat (diff (marg_prices b)) i) (slope src trg (S i) - slope src trg i)%Q).
  { rewrite diff_at by (rewrite (marg_len _ _ _ H); lia). apply is_sub; apply (marg_at b src trg); try assumption; lia. }
  unfold dmarg_prices. destruct (b_rev b); [|exact D]. unfold fat. rewrite (nth_indep _ NaN (fneg NaN)) by (rewrite map_length, diff_length, (marg_len _ _ _ H); lia). rewrite map_nth. apply is_neg in D. apply (is_eq _ _ _ D). ring.
Qed.
Lemma mids_at b src trg i : shows b src trg -> S (S i) < List.length src -> is (fat (midpoints (marg_trg_amounts b)) i) ((at_ trg (S (S i)) - at_ trg i) / 2)%Q.
Proof.
  intros H Hi. rewrite mid_at by (rewrite (trg_len _ _ _ H); lia). eapply is_eq; [apply is_mid; apply (trg_step b src trg); try assumption; lia|]. field.
Qed.
Lemma mids_len b src trg : shows b src trg -> List.length (midpoints (marg_trg_amounts b)) = pred (pred (List.length src)).
Proof. intros H. rewrite mid_length, (trg_len _ _ _ H). reflexivity. Qed.
Lemma liq_len b src trg : shows b src trg -> List.length (ob_liquidity b) = pred (pred (List.length src)).
Proof. intros H. unfold ob_liquidity. rewrite vop_length; rewrite (mids_len _ _ _ H); [reflexivity|]. rewrite (dmarg_len _ _ _ H). reflexivity. Qed.
Lemma liq_at b src trg i : shows b src trg -> S (S i) < List.length src -> ~ (at_ src (S i) == at_ src i)%Q -> ~ (at_ src (S (S i)) == at_ src (S i))%Q -> ~ (slope src trg (S i) == slope src trg i)%Q ->
  is (fat (ob_liquidity b) i) ((at_ trg (S (S i)) - at_ trg i) / 2 / (if b_rev b then slope src trg i - slope src trg (S i) else slope src trg (S i) - slope src trg i))%Q.
Proof.
  intros H Hi N1 N2 N3. unfold ob_liquidity. rewrite vop_at by (rewrite (mids_len _ _ _ H), ?(dmarg_len _ _ _ H); lia). apply is_div; [exact (mids_at _ _ _ _ H Hi)|exact (dmarg_at _ _ _ _ H Hi N1 N2)|].
  destruct (b_rev b); intros E; apply N3; lra.
Qed.
Lemma price_at b src trg i : shows b src trg -> i < List.length src -> ~ (at_ src i == 0)%Q -> is (fat (prices b) i) (at_ trg i / at_ src i)%Q /\
  (~ (at_ trg i == 0)%Q -> is (fat (pricesr b true) i) (at_ src i / at_ trg i)%Q).
Proof.
  intros H Hi N. pose proof H as (S1 & T & L). assert (P : is (fat (prices b) i) (at_ trg i / at_ src i)%Q).
  { unfold prices. rewrite S1, T, vop_at by (rewrite !map_length; lia). rewrite !fin_at by lia. apply is_div; [eexists; split; reflexivity|eexists; split; reflexivity|exact N]. }
  split; [exact P|]. intros N2. unfold pricesr, reciprocals, fat. rewrite (nth_indep _ NaN (fdiv (Fin 1) NaN)).
  2:{ rewrite map_length. unfold prices. rewrite vop_length; rewrite ?S1, ?T, ?map_length; lia. }
  rewrite map_nth. eapply is_eq; [eapply (is_div (Fin 1) _ 1%Q); [eexists; split; reflexivity|exact P|]|].
  - intros E. apply N2. setoid_replace (at_ trg i) with (at_ trg i / at_ src i * at_ src i)%Q by (field; exact N). rewrite E. ring.
  - field. split; assumption.
Qed.
Lemma margr_at b src trg i : shows b src trg -> S i < List.length src -> ~ (at_ src (S i) == at_ src i)%Q -> ~ (at_ trg (S i) == at_ trg i)%Q ->
  is (fat (marg_pricesr b true) i) ((at_ src (S i) - at_ src i) / (at_ trg (S i) - at_ trg i))%Q.
Proof.
  intros H Hi N1 N2. pose proof (marg_at b src trg i H Hi N1) as P. unfold marg_pricesr, reciprocals, fat. rewrite (nth_indep _ NaN (fdiv (Fin 1) NaN)) by (rewrite map_length, (marg_len _ _ _ H); lia).
  rewrite map_nth. assert (A : ~ (at_ src (S i) - at_ src i == 0)%Q) by (intros E; apply N1; lra). assert (B : ~ (at_ trg (S i) - at_ trg i == 0)%Q) by (intros E; apply N2; lra).
  eapply is_eq; [eapply (is_div (Fin 1) _ 1%Q); [eexists; split; reflexivity|exact P|]|]; unfold slope.
  - intros E. apply B. setoid_replace (at_ trg (S i) - at_ trg i)%Q with ((at_ trg (S i) - at_ trg i) / (at_ src (S i) - at_ src i) * (at_ src (S i) - at_ src i))%Q by (field; exact A). rewrite E. ring.
  - field. split; assumption.
Qed.

(** ** the area under the order book *)
Fixpoint qtot (l : list Q) : Q := match l with [] => 0%Q | a :: r => (a + qtot r)%Q end.
Lemma dot_total m : forall d, List.length m = List.length d -> (forall i, i < List.length d -> exists x y, is (fat d i) x /\ ~ (x == 0)%Q /\ is (fat m i) y) ->
  forall q, List.length q = List.length m -> (forall i, i < List.length m -> is (fat m i) (at_ q i)) -> is (dot (map fillna d) (map fillna (vop fdiv m d))) (qtot q).
Proof.
  induction m as [|a m IH]; intros [|b d] L H [|v q] Lq Hq; cbn [List.length] in *; try discriminate; try lia; [eexists; split; reflexivity|].
  destruct (H 0 ltac:(lia)) as (x & y & (x' & Ex & X) & N & (y' & Ey & Y)). unfold fat in Ex, Ey. cbn [nth] in Ex, Ey. subst a b.
  destruct (Hq 0 ltac:(lia)) as (y'' & Ey & Y2). unfold fat, at_ in Ey, Y2. cbn [nth] in Ey, Y2. injection Ey as <-.
  assert (R : is (dot (map fillna d) (map fillna (vop fdiv m d))) (qtot q)).
  { apply IH; try lia; intros i Hi; [destruct (H (S i) ltac:(lia)) as (u & w & A & B & C); exists u, w; auto|exact (Hq (S i) ltac:(lia))]. }
  destruct R as (r & Er & R). cbn [vop map dot]. rewrite Er. unfold fdiv. destruct (Qeq_bool x' 0) eqn:E; [apply Qeq_bool_iff in E; exfalso; apply N; rewrite <- X; exact E|].
  cbn [fillna fmul fadd]. eexists. split; [reflexivity|]. cbn [qtot]. rewrite R, <- Y2. field. intros E'. apply N. rewrite <- X. exact E'.
Qed.
Lemma tele t n : S n < List.length t -> (qtot (map (fun i => (at_ t (S (S i)) - at_ t i) / 2) (seq 0 n)) == ((at_ t n + at_ t (S n)) - (at_ t 0%nat + at_ t 1%nat)) / 2)%Q.
Proof.
  assert (G : forall k, (qtot (map (fun i => (at_ t (S (S i)) - at_ t i) / 2) (seq k n)) == ((at_ t (n + k) + at_ t (S (n + k))) - (at_ t k + at_ t (S k))) / 2)%Q).
  { induction n as [|n IH]; intros k; cbn [seq map qtot]; [cbn [plus]; field|]. rewrite (IH (S k)). rewrite Nat.add_succ_r. cbn [plus]. field. }
  intros _. rewrite (G 0). rewrite Nat.add_0_r. reflexivity.
Qed.
Lemma area b src trg n : shows b src trg -> List.length src = S (S n) -> (forall i, S i < List.length src -> ~ (at_ src (S i) == at_ src i)%Q) ->
  (forall i, S (S i) < List.length src -> ~ (slope src trg (S i) == slope src trg i)%Q) ->
  exists a, vecdot (dmarg_prices b) (ob_liquidity b) = Ret a /\ is a (((at_ trg n + at_ trg (S n)) - (at_ trg 0%nat + at_ trg 1%nat)) / 2)%Q.
Proof.
  intros H Hn N1 N2. unfold vecdot. rewrite (dmarg_len _ _ _ H), (liq_len _ _ _ H), Nat.eqb_refl. eexists. split; [reflexivity|]. assert (L := dmarg_len _ _ _ H). assert (M := mids_len _ _ _ H). rewrite Hn in L, M. cbn [pred] in L, M.
  assert (T : List.length trg = S (S n)) by (destruct H as (_ & _ & X); congruence).
  eapply is_eq; [|apply (tele trg n); rewrite T; lia]. unfold ob_liquidity. apply dot_total; [lia| | |].
  - intros i Hi. rewrite L in Hi. assert (A : S (S i) < List.length src) by lia. do 2 eexists. split; [apply (dmarg_at b src trg i H A); apply N1; lia|]. split; [|apply (mids_at b src trg i H A)].
    specialize (N2 i A). destruct (b_rev b); intros E; apply N2; lra.
  - rewrite map_length, seq_length. lia.
  - intros i Hi. rewrite M in Hi. eapply is_eq; [apply (mids_at b src trg i H); lia|]. set (g := fun i => ((at_ trg (S (S i)) - at_ trg i) / 2)%Q). change (g i == nth i (map g (seq 0 n)) 0)%Q. rewrite (nth_indep _ 0%Q (g 0)) by (rewrite map_length, seq_length; exact Hi).
    rewrite map_nth, seq_nth by exact Hi. reflexivity.
Qed.
(** two equal marginal prices in a row: the area is not a number *)
Lemma dot_nan l : forall l' i, List.length l = List.length l' -> i < List.length l -> fmul (fat l i) (fat l' i) = NaN -> dot l l' = NaN.
Proof.
  induction l as [|a l IH]; intros [|b l'] i H Hi E; cbn [List.length] in *; try lia. destruct i as [|i]; unfold fat in E; cbn [nth] in E; cbn [dot].
  - rewrite E. reflexivity.
  - rewrite (IH l' i); [|lia|lia|exact E]. destruct (fmul a b); reflexivity.
Qed.
Lemma fillna_at l i : i < List.length l -> fat (map fillna l) i = fillna (fat l i).
Proof. intros H. unfold fat. rewrite (nth_indep _ NaN (fillna NaN)) by (rewrite map_length; exact H). apply map_nth. Qed.
Lemma area_flat b src trg i : shows b src trg -> S (S i) < List.length src -> ~ (at_ src (S i) == at_ src i)%Q -> ~ (at_ src (S (S i)) == at_ src (S i))%Q ->
  (slope src trg (S i) == slope src trg i)%Q -> ~ (at_ trg (S (S i)) == at_ trg i)%Q -> vecdot (dmarg_prices b) (ob_liquidity b) = Ret NaN.
Proof.
  intros H Hi N1 N2 E N3. unfold vecdot. assert (L := dmarg_len _ _ _ H). assert (M := mids_len _ _ _ H). assert (LL := liq_len _ _ _ H). rewrite L, LL, Nat.eqb_refl. f_equal.
  apply (dot_nan _ _ i); [rewrite !map_length; lia|rewrite map_length; lia|]. rewrite !fillna_at by lia.
  destruct (dmarg_at b src trg i H Hi N1 N2) as (d & Ed & D). destruct (mids_at b src trg i H Hi) as (m & Em & Mm).
  unfold ob_liquidity. rewrite vop_at by lia. rewrite Ed, Em. assert (Z : Qeq_bool d 0 = true) by (apply Qeq_bool_iff; rewrite D; destruct (b_rev b); lra).
  unfold fdiv. rewrite Z. destruct (Qeq_bool m 0) eqn:E0; [apply Qeq_bool_iff in E0; exfalso; apply N3; rewrite Mm in E0; unfold Qdiv in E0; change (/ 2)%Q with (1 # 2) in E0; lra|]. cbn [fillna fmul]. rewrite Z. reflexivity.
Qed.
Lemma positive b src trg i : shows b src trg -> increasing src -> increasing trg -> worsening (b_rev b) src trg -> S (S i) < List.length src ->
  (exists q, is (fat (ob_liquidity b) i) q /\ 0 < q)%Q /\
  (exists p, is (fat (ob_prices b) i) p /\ if b_rev b then slope src trg (S i) < p /\ p < slope src trg i else slope src trg i < p /\ p < slope src trg (S i))%Q.
Proof.
  intros H Is It W Hi. assert (T : List.length trg = List.length src) by (destruct H as (_ & _ & X); congruence).
  assert (A := Is i ltac:(lia)). assert (B := Is (S i) Hi). assert (C := It i ltac:(lia)). assert (D := It (S i) ltac:(lia)). specialize (W i Hi).
  assert (N1 : ~ (at_ src (S i) == at_ src i)%Q) by lra. assert (N2 : ~ (at_ src (S (S i)) == at_ src (S i))%Q) by lra. split.
  - eexists. split; [apply (liq_at b src trg i H Hi N1 N2); destruct (b_rev b); lra|]. set (u := at_ trg (S (S i))) in *. set (v := at_ trg i) in *. destruct (b_rev b); (apply Qlt_shift_div_l; [lra|]; unfold Qdiv; change (/ 2)%Q with (1 # 2); lra).
  - eexists. split.
    + unfold ob_prices. rewrite mid_at by (rewrite (marg_len _ _ _ H); lia). apply is_mid; apply (marg_at b src trg); try assumption; lia.
    + unfold Qdiv. change (/ 2)%Q with (1 # 2). destruct (b_rev b); split; lra.
Qed.

(** ** truncation *)
Lemma kept_fin trg k : kept (map (fun t => Some (Fin t)) trg ++ repeat None k) = map Fin trg.
Proof. induction trg as [|t trg IH]; cbn [map app kept missing]; [induction k; [reflexivity|exact IHk]|]. rewrite IH. reflexivity. Qed.
Lemma book_spec src trg k st tt side : List.length trg <= List.length src ->
  (side = "ASK_amm_sells_src_tkn"%string \/ side = "BID_amm_buys_src_tkn"%string -> exists b, new_book (map Fin src) (map (fun t => Some (Fin t)) trg ++ repeat None k) st tt side = Ret b /\
    shows b (firstn (List.length trg) src) trg /\ (b_rev b = true <-> side = "BID_amm_buys_src_tkn"%string) /\ prices_u b = (tt ++ " per " ++ st)%string /\ pricesr_u b true = (st ++ " per " ++ tt)%string) /\
  (side <> "ASK_amm_sells_src_tkn"%string -> side <> "BID_amm_buys_src_tkn"%string -> new_book (map Fin src) (map (fun t => Some (Fin t)) trg ++ repeat None k) st tt side = Raise ValueError).
Proof.
  intros L. unfold new_book, truncate. rewrite kept_fin, map_length, firstn_map. split.
  - intros [-> | ->]; (eexists; split; [reflexivity|]; unfold shows; cbn [b_src b_trg b_rev]; rewrite firstn_length, Nat.min_l by exact L; repeat split; try reflexivity; intros X; discriminate X).
  - intros N1 N2. unfold OB_ASK, OB_BID. destruct (String.eqb_spec side "ASK_amm_sells_src_tkn"); [contradiction|]. destruct (String.eqb_spec side "BID_amm_buys_src_tkn"); [contradiction|]. reflexivity.
Qed.

(** ** linspace0 *)
Lemma lin_err xmax n eps eps2 : (n < -1 -> linspace0 xmax n eps eps2 = Raise ValueError)%Z /\ (n = -1 -> linspace0 xmax n eps eps2 = Raise IndexError)%Z.
Proof. unfold linspace0. split; intros H; [destruct (Z.ltb_spec (n + 1) 0); [reflexivity|lia]|]. subst n. reflexivity. Qed.
Lemma at_set_last v a i : 0 < List.length v -> at_ (set_last a v) i = if Nat.eqb i (pred (List.length v)) then a else at_ v i.
Proof.
  intros L. destruct (exists_last (l := v)) as (r & z & ->); [destruct v; [cbn in L; lia|discriminate]|]. unfold set_last. rewrite removelast_last. destruct (r ++ [z]) eqn:E; [destruct r; discriminate|]. rewrite <- E. rewrite app_length. cbn [List.length]. replace (pred (List.length r + 1)) with (List.length r) by lia. unfold at_.
  destruct (Nat.eqb_spec i (List.length r)) as [->|N]; [rewrite app_nth2, Nat.sub_diag by lia; reflexivity|].
  destruct (Nat.lt_ge_cases i (List.length r)) as [Lt|Ge]; [rewrite !app_nth1 by exact Lt; reflexivity|]. rewrite !app_nth2 by lia. destruct (i - List.length r) as [|[|k]] eqn:D; [lia|reflexivity|reflexivity].
Qed.
Lemma lin_spec xmax n eps eps2 : (0 < n)%Z -> let e := match eps with Some e => e | None => 1 # 10000 end in let e2 := match eps2 with Some e => e | None => 1 # 100000 end in
  exists v, linspace0 xmax n eps eps2 = Ret v /\ List.length v = S (Z.to_nat n) /\ at_ v 0 = e /\ at_ v (Z.to_nat n) = ((1 - e2) * xmax)%Q /\
   (forall i, 0 < i < Z.to_nat n -> (at_ v i == inject_Z (Z.of_nat i) * xmax / inject_Z n)%Q).
Proof.
  intros H e e2. unfold linspace0. destruct (Z.ltb_spec (n + 1) 0); [lia|]. destruct (Z.eqb_spec (n + 1) 0); [lia|]. fold EPSILON. eexists. split; [reflexivity|].
  set (g := map (fun i => inject_Z (Z.of_nat i) * (xmax / inject_Z n))%Q (seq 0 (Z.to_nat (n + 1)))).
  assert (Lg : List.length g = S (Z.to_nat n)) by (unfold g; rewrite map_length, seq_length; lia).
  assert (G : forall i, i <= Z.to_nat n -> at_ g i = (inject_Z (Z.of_nat i) * (xmax / inject_Z n))%Q).
  { intros i Hi. unfold at_, g. rewrite (nth_indep _ 0%Q ((fun i => inject_Z (Z.of_nat i) * (xmax / inject_Z n))%Q 0)) by (rewrite map_length, seq_length; lia). rewrite (map_nth (fun i => inject_Z (Z.of_nat i) * (xmax / inject_Z n))%Q), seq_nth by lia. reflexivity. }
  set (f := set_first (match eps with Some e => e | None => EPSILON end) g). assert (Lf : List.length f = S (Z.to_nat n)) by (unfold f; destruct g; [discriminate|exact Lg]).
  assert (Fa : forall i, at_ f i = if Nat.eqb i 0 then e else at_ g i). { intros i. unfold f. destruct g as [|z g']; [discriminate|]. destruct i; reflexivity. }
  set (w := set_last _ f). assert (W : forall i, at_ w i = if Nat.eqb i (Z.to_nat n) then ((1 - e2) * xmax)%Q else at_ f i) by (intros i; unfold w; rewrite at_set_last, Lf by lia; reflexivity).
  split; [|split; [|split]].
  - unfold w, set_last. destruct f as [|z f'] eqn:Ef; [discriminate|]. rewrite <- Ef in *. rewrite app_length. cbn [List.length]. assert (X : List.length (removelast f) = Z.to_nat n). { destruct (exists_last (l := f)) as (r & y & Er); [rewrite Ef; discriminate|]. rewrite Er in *. rewrite removelast_last. rewrite app_length in Lf. cbn in Lf. lia. } lia.
  - rewrite W. destruct (Nat.eqb_spec 0 (Z.to_nat n)); [lia|]. rewrite Fa. reflexivity.
  - rewrite W, Nat.eqb_refl. reflexivity.
  - intros i Hi. rewrite W. destruct (Nat.eqb_spec i (Z.to_nat n)); [lia|]. rewrite Fa. destruct (Nat.eqb_spec i 0); [lia|]. rewrite G by lia. field. intros X. change 0%Q with (inject_Z 0) in X. rewrite inject_Z_injective in X. lia.
Qed.

(** ** the grid is increasing *)
Lemma lin_increasing xmax n eps eps2 v : (2 <= n)%Z -> (0 < xmax)%Q -> linspace0 xmax n eps eps2 = Ret v ->
  (increasing v <-> (match eps with Some e => e | None => 1 # 10000 end < xmax / inject_Z n)%Q /\ (match eps2 with Some e => e | None => 1 # 100000 end * inject_Z n < 1)%Q).
Proof.
  intros Hn Hx Hv. destruct (lin_spec xmax n eps eps2 ltac:(lia)) as (v' & E & L & F & La & I). rewrite Hv in E. injection E as <-. cbv zeta in *.
  set (e := match eps with Some e => e | None => 1 # 10000 end) in *. set (e2 := match eps2 with Some e => e | None => 1 # 100000 end) in *.
  assert (N0 : (0 < inject_Z n)%Q) by (change 0%Q with (inject_Z 0); rewrite <- Zlt_Qlt; lia). assert (NZ : ~ (inject_Z n == 0)%Q) by lra.
  set (h := (xmax / inject_Z n)%Q). assert (Hh : (0 < h)%Q) by (unfold h; apply Qlt_shift_div_l; [exact N0|]; lra).
  assert (Xh : (xmax == inject_Z n * h)%Q) by (unfold h; field; exact NZ).
  assert (I' : forall i, 0 < i < Z.to_nat n -> (at_ v i == inject_Z (Z.of_nat i) * h)%Q) by (intros i Hi; rewrite (I i Hi); unfold h; field; exact NZ).
  assert (E1 : (at_ v 1 == h)%Q) by (rewrite I' by lia; change (inject_Z (Z.of_nat 1)) with 1%Q; ring).
  destruct (Z.to_nat n) as [|[|k]] eqn:Ek; try lia. assert (Nk : (inject_Z n == inject_Z (Z.of_nat (S k)) + 1)%Q).
  { change 1%Q with (inject_Z 1). rewrite <- inject_Z_plus. rewrite inject_Z_injective. lia. }
  assert (Ek1 : (at_ v (S k) == inject_Z n * h - h)%Q) by (rewrite I' by lia; rewrite Nk; ring). split.
  - intros G. split; [pose proof (G 0 ltac:(lia)) as A; rewrite F, E1 in A; exact A|].
    pose proof (G (S k) ltac:(lia)) as A. rewrite La, Ek1, Xh in A. assert (B : (h * (e2 * inject_Z n) < h * 1)%Q).
    { setoid_replace (h * (e2 * inject_Z n))%Q with (inject_Z n * h - (1 - e2) * (inject_Z n * h))%Q by ring. lra. }
    apply Qmult_lt_l in B; assumption.
  - intros [A B] i Hi. rewrite L in Hi. destruct i as [|i]; [rewrite F, E1; exact A|]. destruct (Nat.eq_dec i k) as [->|Nik].
    + rewrite La, Ek1, Xh. assert (C : (h * (e2 * inject_Z n) < h * 1)%Q) by (apply Qmult_lt_l; assumption).
      setoid_replace ((1 - e2) * (inject_Z n * h))%Q with (inject_Z n * h - h * (e2 * inject_Z n))%Q by ring. lra.
    + rewrite !I' by lia. replace (Z.of_nat (S (S i))) with (Z.of_nat (S i) + 1)%Z by lia. rewrite inject_Z_plus. change (inject_Z 1) with 1%Q.
      setoid_replace ((inject_Z (Z.of_nat (S i)) + 1) * h)%Q with (inject_Z (Z.of_nat (S i)) * h + h)%Q by ring. lra.
Qed.

(** ** the amounts add up *)
Lemma tele1 t n : forall k, (qtot (map (fun i => at_ t (S i) - at_ t i) (seq k n)) == at_ t (n + k)%nat - at_ t k)%Q.
Proof. induction n as [|n IH]; intros k; cbn [seq map qtot plus]; [ring|]. rewrite IH. rewrite Nat.add_succ_r. ring. Qed.
Lemma total b src trg n : shows b src trg -> List.length src = S n -> (forall i, S i < List.length src -> ~ (at_ src (S i) == at_ src i)%Q) ->
  exists a, vecdot (marg_src_amounts b) (marg_prices b) = Ret a /\ is a (at_ trg n - at_ trg 0%nat)%Q.
Proof.
  intros H Hn N1. assert (L := src_len _ _ _ H). assert (M := trg_len _ _ _ H). unfold vecdot. rewrite L, (marg_len _ _ _ H), Nat.eqb_refl. eexists. split; [reflexivity|].
  rewrite Hn in L, M. cbn [pred] in L, M. pose proof (tele1 trg n 0) as T. rewrite Nat.add_0_r in T. eapply is_eq; [|exact T]. unfold marg_prices. apply dot_total; [lia| | |].
  - intros i Hi. rewrite L in Hi. do 2 eexists. split; [apply (src_step b src trg i H); lia|]. split; [|apply (trg_step b src trg i H); lia]. specialize (N1 i ltac:(lia)). intros E. apply N1. lra.
  - rewrite map_length, seq_length. lia.
  - intros i Hi. rewrite M in Hi. eapply is_eq; [apply (trg_step b src trg i H); lia|]. set (g := fun i => (at_ trg (S i) - at_ trg i)%Q). change (g i == nth i (map g (seq 0 n)) 0)%Q.
    rewrite (nth_indep _ 0%Q (g 0)) by (rewrite map_length, seq_length; exact Hi). rewrite map_nth, seq_nth by exact Hi. reflexivity.
Qed.

(** ** sums of products *)
Lemma vecdot_counts l l' q q' : Forall2 counts l q -> Forall2 counts l' q' -> List.length l = List.length l' -> exists v, vecdot l l' = Ret v /\ is v (sumproduct q q').
Proof.
  intros H H' L. unfold vecdot. rewrite L, Nat.eqb_refl. eexists. split; [reflexivity|]. revert l' q' H' L.
  induction H as [|a x l q A H IH]; intros l' q' H' L; destruct H' as [|b y l' q' B H']; try discriminate; cbn [map dot sumproduct]; [eexists; split; reflexivity|].
  destruct (IH _ _ H' ltac:(cbn in L; lia)) as (r & E & R). rewrite E.
  assert (F : forall a x, counts a x -> exists z, fillna a = Fin z /\ (z == x)%Q).
  { intros a0 x0 [[-> Z]|(z & -> & Z)]; [exists 0%Q; split; [reflexivity|symmetry; exact Z]|exists z; auto]. }
  destruct (F _ _ A) as (u & -> & U). destruct (F _ _ B) as (w & -> & W). cbn [fmul fadd]. eexists. split; [reflexivity|]. rewrite U, W, R. reflexivity.
Qed.
Lemma vecdot_refused l l' : List.length l <> List.length l' -> vecdot l l' = Raise ValueError.
Proof. intros H. unfold vecdot. destruct (Nat.eqb_spec (List.length l) (List.length l')); [contradiction|reflexivity]. Qed.
