(** Bridges, generated paths, volatility *)
From Coq Require Import Reals ZArith List Bool String Lra Lia.
From Verif Require Import CurveModel CurveProofs PathModel PathSpec.
Import ListNotations.
Local Open Scope R_scope.

(** ** partial sums *)
Fixpoint psum (f : nat -> R) (s i : nat) : R := match i with O => 0 | S i => f s + psum f (S s) i end.
Lemma psum_last f i : forall s, psum f s (S i) = psum f s i + f (s + i)%nat.
Proof. induction i as [|i IH]; intros s; [cbn; rewrite Nat.add_0_r; ring|]. change (psum f s (S (S i))) with (f s + psum f (S s) (S i)). rewrite IH. cbn [psum]. replace (S s + i)%nat with (s + S i)%nat by lia. ring. Qed.
Lemma psum_walk z i : psum z 0 i = walk z i.
Proof. induction i as [|i IH]; [reflexivity|]. rewrite psum_last, IH. reflexivity. Qed.
Lemma psum_affine f s i a b : psum (fun k => a * f k + b) s i = a * psum f s i + INR i * b.
Proof. revert s. induction i as [|i IH]; intros s; [cbn; ring|]. cbn [psum]. rewrite IH, S_INR. ring. Qed.
Lemma psum_scale f i a : forall s, psum (fun k => a * f k) s i = a * psum f s i.
Proof. induction i as [|i IH]; intros s; cbn [psum]; [ring|]. rewrite IH. ring. Qed.
Lemma run_length op l : forall a, List.length (running op a l) = S (List.length l).
Proof. induction l as [|x l IH]; intros a; cbn; [reflexivity|]. rewrite IH. reflexivity. Qed.
Lemma run_plus f n : forall s a i, (i <= n)%nat -> nth i (running Rplus a (map f (seq s n))) 0 = a + psum f s i.
Proof.
  induction n as [|n IH]; intros s a i Hi; [assert (i = 0)%nat as -> by lia; cbn; ring|]. destruct i as [|i]; [cbn; ring|]. cbn [seq map running nth psum]. rewrite IH by lia. ring.
Qed.
Lemma run_mult f n : forall s a i, (i <= n)%nat -> nth i (running Rmult a (map (fun k => exp (f k)) (seq s n))) 0 = a * exp (psum f s i).
Proof.
  induction n as [|n IH]; intros s a i Hi; [assert (i = 0)%nat as -> by lia; cbn; rewrite exp_0; ring|]. destruct i as [|i]; [cbn; rewrite exp_0; ring|]. cbn [seq map running nth psum]. rewrite IH by lia. rewrite exp_plus. ring.
Qed.
Lemma asum_psum f n : forall s, asum (map f (seq s n)) = psum f s n.
Proof. unfold asum. induction n as [|n IH]; intros s; [reflexivity|]. cbn. rewrite IH. reflexivity. Qed.
Lemma last_nth {A} (l : list A) d : last l d = nth (pred (List.length l)) l d.
Proof. induction l as [|a l IH]; [reflexivity|]. destruct l as [|b l]; [reflexivity|]. change (last (a :: b :: l) d) with (last (b :: l) d). rewrite IH. reflexivity. Qed.
Lemma put_last_same l b : l <> [] -> last l 0 = b -> put_last b l = l.
Proof. intros N E. unfold put_last. destruct l as [|a l]; [contradiction|]. rewrite <- E. symmetry. apply app_removelast_last. discriminate. Qed.

(** ** bridges *)
Lemma bridge_spec a b sig n z : (0 < n)%Z -> 0 <= sig * (a + b) -> b <> 0 ->
  exists path, gaussian_bridge a b sig n z = Ret path /\ List.length path = S (Z.to_nat n) /\
   forall i, (i <= Z.to_nat n)%nat -> nth i path 0 = a + (b - a) * (INR i / IZR n) + sig * (a + b) / 2 * sqrt (1 / IZR n) * (walk z i - INR i / IZR n * walk z (Z.to_nat n)).
Proof.
  intros Hn Hs Hb. unfold gaussian_bridge. destruct (Z.eqb_spec n 0); [lia|]. destruct (Z.ltb_spec n 0); [lia|]. assert (P : 0 < IZR n) by (apply (IZR_lt 0); exact Hn).
  set (scale := sqrt (1 / IZR n) * sig * (a + b) / 2). assert (Sc : 0 <= scale). { unfold scale. pose proof (sqrt_pos (1 / IZR n)) as Q. pose proof (Rmult_le_pos _ _ Q Hs). lra. }
  rewrite (rlt_false scale 0) by lra. set (m := Z.to_nat n). assert (Nn : INR m = IZR n) by (unfold m; rewrite INR_IZR_INZ, Z2Nat.id by lia; reflexivity).
  set (incs := map (fun k => scale * z k) (seq 0 m)). set (c := (- asum incs + b - a) / IZR n).
  assert (Ai : asum incs = scale * walk z m). { unfold incs. rewrite asum_psum. rewrite <- psum_walk. apply psum_scale. }
  assert (Cm : map (fun x => x + c) incs = map (fun k => scale * z k + c) (seq 0 m)) by (unfold incs; rewrite map_map; reflexivity).
  set (path := running Rplus a (map (fun x => x + c) incs)). assert (L : List.length path = S m) by (unfold path; rewrite run_length, Cm, map_length, seq_length; reflexivity).
  assert (V : forall i, (i <= m)%nat -> nth i path 0 = a + (scale * walk z i + INR i * c)). { intros i Hi. unfold path. rewrite Cm, run_plus by exact Hi. rewrite psum_affine, psum_walk. reflexivity. }
  assert (E : last path 0 = b). { rewrite last_nth, L. cbn [pred]. rewrite V by lia. unfold c. rewrite Ai, Nn. field. lra. }
  rewrite (req_false b 0) by exact Hb. rewrite E. replace (b / b - 1) with 0 by (field; exact Hb). rewrite Rabs_R0. rewrite rlt_true by (apply Rinv_0_lt_compat, pow_lt; lra).
  rewrite put_last_same by (try exact E; intros X; rewrite X in L; discriminate). exists path. split; [reflexivity|]. split; [exact L|]. intros i Hi. rewrite V by exact Hi. unfold c. rewrite Ai. unfold scale. field. lra.
Qed.
Lemma bridge_ends a b sig n z path : (0 <= n)%Z -> gaussian_bridge a b sig n z = Ret path -> hd 0 path = a /\ last path 0 = b.
Proof.
  intros Hn. unfold gaussian_bridge. destruct (Z.eqb_spec n 0); [intros E; injection E as <-; split; reflexivity|]. destruct (Z.ltb_spec n 0); [lia|]. destruct (rlt _ 0); [discriminate|]. destruct (req b 0); [discriminate|]. destruct (rlt _ _); [|discriminate].
  intros E. injection E as <-. set (l := map _ _). split; [|unfold put_last; destruct (running Rplus a l) as [|x y] eqn:Q; [destruct l; discriminate|]; apply last_last].
  assert (Hl : l <> []). { unfold l. intros X. apply (f_equal (@List.length R)) in X. rewrite !map_length, seq_length in X. cbn in X. lia. } destruct l as [|x l]; [contradiction|]. destruct l; reflexivity.
Qed.
Lemma bridge_errors a b sig n z : ((n < 0)%Z -> gaussian_bridge a b sig n z = Raise ValueError) /\ ((0 < n)%Z -> sig * (a + b) < 0 -> gaussian_bridge a b sig n z = Raise ValueError) /\
  ((0 < n)%Z -> 0 <= sig * (a + b) -> b = 0 -> gaussian_bridge a b sig n z = Raise AssertionError) /\ gaussian_bridge a b sig 0 z = Ret [a; b].
Proof.
  unfold gaussian_bridge. repeat split.
  - intros H. destruct (Z.eqb_spec n 0); [lia|]. destruct (Z.ltb_spec n 0); [reflexivity|lia].
  - intros H S. destruct (Z.eqb_spec n 0); [lia|]. destruct (Z.ltb_spec n 0); [lia|]. rewrite rlt_true; [reflexivity|]. assert (0 < sqrt (1 / IZR n)) by (apply sqrt_lt_R0; apply Rdiv_lt_0_compat; [lra|apply (IZR_lt 0); exact H]).
    replace (sqrt (1 / IZR n) * sig * (a + b) / 2) with (- (sqrt (1 / IZR n) * (- (sig * (a + b))) / 2)) by field. assert (0 < sqrt (1 / IZR n) * - (sig * (a + b))) by (apply Rmult_lt_0_compat; lra). lra.
  - intros H S ->. destruct (Z.eqb_spec n 0); [lia|]. destruct (Z.ltb_spec n 0); [lia|]. rewrite rlt_false; [rewrite req_true by reflexivity; reflexivity|]. pose proof (Rmult_le_pos _ _ (sqrt_pos (1 / IZR n)) S). lra.
Qed.

(** ** generated paths *)
Lemma gen_spec g z : 0 <= g_sig g * sqrt (g_dt g) -> (0 <= g_N g)%Z -> exists path, gen_path g z = Ret path /\ List.length path = S (Z.to_nat (g_N g)) /\
  forall i, (i <= Z.to_nat (g_N g))%nat -> nth i path 0 = g_s0 g * exp ((g_mu g - g_sig g ^ 2 / 2) * (INR i * g_dt g) + g_sig g * sqrt (g_dt g) * walk z i).
Proof.
  intros Hs HN. unfold gen_path. rewrite rlt_false by lra. destruct (Z.ltb_spec (g_N g) 0); [lia|]. eexists. split; [reflexivity|]. split; [rewrite run_length, map_length, seq_length; reflexivity|].
  intros i Hi. set (m := g_mu g * g_dt g - 5 / 10 * g_sig g * g_sig g * g_dt g). set (s := g_sig g * sqrt (g_dt g)).
  rewrite (run_mult (fun k => m + s * z k)) by exact Hi. f_equal. f_equal. transitivity (psum (fun k => s * z k + m) 0 i); [generalize 0%nat; induction i as [|i IH]; intros q; cbn [psum]; [reflexivity|rewrite IH by lia; ring]|]. rewrite psum_affine, psum_walk. unfold m. field.
Qed.
Lemma gen_new mu sig s0 time N : let t := match time with Some t => t | None => 1 end in let n := match N with Some n => n | None => 200%Z end in
  (n = 0%Z -> new_generator mu sig s0 time N = Raise ZeroDivision) /\ (n <> 0%Z -> t / IZR n < 0 -> new_generator mu sig s0 time N = Raise ValueError) /\
  (n <> 0%Z -> 0 <= t / IZR n -> exists g, new_generator mu sig s0 time N = Ret g /\ g_mu g = match mu with Some v => v | None => 0 end /\ g_sig g = match sig with Some v => v | None => / 2 end /\ g_s0 g = match s0 with Some v => v | None => 100 end /\
     g_N g = n /\ g_dt g = t / IZR n).
Proof.
  intros t n. unfold new_generator. change (dflt 1 time) with t. fold n. repeat split.
  - intros E. unfold rdiv. rewrite E, req_true by reflexivity. reflexivity.
  - intros E L. rewrite rdiv_ok by (apply not_0_IZR; exact E). cbn [rbind]. rewrite rlt_true by exact L. reflexivity.
  - intros E L. rewrite rdiv_ok by (apply not_0_IZR; exact E). cbn [rbind]. rewrite rlt_false by lra. eexists. split; [reflexivity|]. cbn [g_mu g_sig g_s0 g_N g_dt]. unfold dflt. repeat split. destruct sig; [reflexivity|field].
Qed.
Lemma gen_times g : (0 <= g_N g)%Z -> List.length (times g) = S (Z.to_nat (g_N g)) /\ List.length (datetimes g) = S (Z.to_nat (g_N g)) /\
  forall i, (i <= Z.to_nat (g_N g))%nat -> nth i (times g) 0 = INR i * g_dt g /\ nth i (datetimes g) 0 = 36525 / 100 * (INR i * g_dt g).
Proof.
  intros H. unfold times, datetimes. rewrite !map_length, seq_length. replace (Z.to_nat (g_N g + 1)) with (S (Z.to_nat (g_N g))) by lia. split; [reflexivity|]. split; [reflexivity|]. intros i Hi.
  split; [rewrite (nth_indep _ 0 (INR 0 * g_dt g)) by (rewrite map_length, seq_length; lia); rewrite (map_nth (fun i => INR i * g_dt g) _ 0%nat), seq_nth by lia; reflexivity|].
  rewrite (nth_indep _ 0 (INR 0 * (g_dt g * YEAR))) by (rewrite map_length, seq_length; lia); rewrite (map_nth (fun i => INR i * (g_dt g * YEAR)) _ 0%nat), seq_nth by lia. unfold YEAR. cbn [Nat.add]. ring.
Qed.

(** ** volatility *)
Lemma diff_length l : List.length (rdiff l) = pred (List.length l).
Proof. induction l as [|a l IH]; [reflexivity|]. destruct l as [|b l]; [reflexivity|]. cbn [rdiff List.length] in *. rewrite IH. reflexivity. Qed.
Lemma diff_nth l i : (S i < List.length l)%nat -> nth i (rdiff l) 0 = nth (S i) l 0 - nth i l 0.
Proof.
  revert i. induction l as [|a l IH]; intros i Hi; [cbn in Hi; lia|]. destruct l as [|b l]; [cbn in Hi; lia|]. destruct i as [|i]; [reflexivity|]. change (rdiff (a :: b :: l)) with ((b - a) :: rdiff (b :: l)). cbn [nth]. rewrite IH by (cbn in *; lia). reflexivity.
Qed.
Lemma diff_map_mult k l : rdiff (map (Rmult k) l) = map (Rmult k) (rdiff l).
Proof. induction l as [|a l IH]; [reflexivity|]. destruct l as [|b l]; [reflexivity|]. cbn [map rdiff] in *. rewrite IH. f_equal. ring. Qed.
Lemma diff_ln k l : 0 < k -> Forall (fun x => 0 < x) l -> rdiff (map ln (map (Rmult k) l)) = rdiff (map ln l).
Proof.
  intros K. induction 1 as [|a l Ha Hl IH]; [reflexivity|]. destruct l as [|b l]; [reflexivity|]. inversion Hl; subst. cbn [map rdiff] in *. rewrite IH. f_equal. rewrite !ln_mult by assumption. ring.
Qed.
Lemma asum_scale k l : asum (map (Rmult k) l) = k * asum l.
Proof. unfold asum. induction l as [|a l IH]; cbn; [ring|]. rewrite IH. ring. Qed.
Lemma mean_scale k l : mean (map (Rmult k) l) = k * mean l.
Proof. unfold mean. rewrite asum_scale, map_length. unfold Rdiv. ring. Qed.
Lemma std_scale k l : 0 <= k -> std (map (Rmult k) l) = k * std l.
Proof.
  intros K. unfold std. rewrite mean_scale, map_map. replace (mean (map (fun x => (k * x - k * mean l) ^ 2) l)) with (k ^ 2 * mean (map (fun x => (x - mean l) ^ 2) l)).
  - rewrite sqrt_mult_alt by apply pow2_ge_0. rewrite sqrt_pow2 by exact K. reflexivity.
  - rewrite <- mean_scale, map_map. f_equal. apply map_ext. intros x. ring.
Qed.
Lemma asum_zero l : Forall (fun x => 0 <= x) l -> asum l = 0 -> Forall (fun x => x = 0) l.
Proof.
  unfold asum. induction 1 as [|a l Ha Hl IH]; [constructor|]. cbn. intros E. assert (0 <= fold_right Rplus 0 l) by (clear - Hl; induction Hl; cbn; lra). constructor; [lra|apply IH; lra].
Qed.
Lemma asum_nonneg l : Forall (fun x => 0 <= x) l -> 0 <= asum l. Proof. unfold asum. induction 1; cbn; lra. Qed.
Lemma asum_same l d : (forall x, In x l -> x = d) -> asum l = INR (List.length l) * d.
Proof. unfold asum. induction l as [|a l IH]; intros H; [cbn; ring|]. cbn [fold_right List.length]. rewrite IH by (intros x X; apply H; right; exact X). rewrite (H a (or_introl eq_refl)), S_INR. ring. Qed.
Lemma std_zero l : std l = 0 <-> forall x y, In x l -> In y l -> x = y.
Proof.
  destruct l as [|a l]; [split; [intros _ x y []|intros _; unfold std, mean, asum, Rdiv; cbn; rewrite Rmult_0_l; apply sqrt_0]|]. set (l0 := a :: l). assert (P : 0 < INR (List.length l0)) by (apply lt_0_INR; cbn; lia).
  assert (Nn : Forall (fun x => 0 <= x) (map (fun x => (x - mean l0) ^ 2) l0)) by (apply Forall_forall; intros x X; apply in_map_iff in X as (y & <- & _); apply pow2_ge_0). split.
  - intros S. assert (Z : asum (map (fun x => (x - mean l0) ^ 2) l0) = 0).
    { unfold std in S. apply sqrt_eq_0 in S.
      - unfold mean at 1 in S. rewrite map_length in S. apply (f_equal (fun t => t * INR (List.length l0))) in S. unfold Rdiv in S. rewrite Rmult_assoc, Rinv_l in S by lra. lra.
      - unfold mean at 1. rewrite map_length. apply Rmult_le_pos; [apply asum_nonneg; exact Nn|left; apply Rinv_0_lt_compat; exact P]. }
    apply (asum_zero _ Nn) in Z. rewrite Forall_forall in Z. assert (G : forall x, In x l0 -> x = mean l0). { intros x X. assert (E : (x - mean l0) ^ 2 = 0) by (apply Z, in_map_iff; eauto). replace ((x - mean l0) ^ 2) with (Rsqr (x - mean l0)) in E by (unfold Rsqr; ring). apply Rsqr_0_uniq in E. lra. }
    intros x y X Y. rewrite (G x X), (G y Y). reflexivity.
  - intros H. assert (M : mean l0 = a). { unfold mean. rewrite (asum_same l0 a) by (intros x X; apply H; [exact X|left; reflexivity]). field. lra. }
    unfold std. rewrite M. unfold mean. rewrite (asum_same _ 0); [unfold Rdiv; rewrite Rmult_0_r, Rmult_0_l; apply sqrt_0|]. intros x X. apply in_map_iff in X as (y & <- & Y). rewrite (H y a Y (or_introl eq_refl)). ring.
Qed.
Lemma std_diff_zero l : std (rdiff l) = 0 <-> arithmetic l.
Proof.
  rewrite std_zero. split.
  - intros H. destruct (rdiff l) as [|d r] eqn:E.
    + exists 0. intros i Hi. apply (f_equal (@List.length R)) in E. rewrite diff_length in E. cbn in E. lia.
    + exists d. intros i Hi. rewrite <- (diff_nth l i Hi), E. apply H; [rewrite <- E; apply nth_In; rewrite diff_length; lia|left; reflexivity].
  - intros (d & D) x y X Y. assert (G : forall x, In x (rdiff l) -> x = d). { intros w W. apply In_nth with (d := 0) in W as (i & Hi & <-). rewrite diff_length in Hi. rewrite diff_nth by lia. apply D. lia. } rewrite (G x X), (G y Y). reflexivity.
Qed.
Lemma ln_quot x y : 0 < x -> 0 < y -> ln (x / y) = ln x - ln y.
Proof. intros X Y. unfold Rdiv. rewrite ln_mult by (try assumption; apply Rinv_0_lt_compat; assumption). rewrite ln_Rinv by assumption. ring. Qed.
Lemma ln_progression l : Forall (fun x => 0 < x) l -> (arithmetic (map ln l) <-> geometric l).
Proof.
  intros P. assert (Pn : forall i, (i < List.length l)%nat -> 0 < nth i l 0) by (intros i Hi; rewrite Forall_forall in P; apply P, nth_In; exact Hi).
  assert (Nl : forall i, (i < List.length l)%nat -> nth i (map ln l) 0 = ln (nth i l 0)) by (intros i Hi; rewrite (nth_indep _ 0 (ln 0)) by (rewrite map_length; exact Hi); apply map_nth).
  unfold arithmetic, geometric. rewrite map_length. split; intros (d & D).
  - exists (exp d). intros i Hi. rewrite <- (D i Hi). rewrite !Nl by lia. rewrite <- (ln_quot (nth (S i) l 0)) by (apply Pn; lia). rewrite exp_ln; [reflexivity|]. apply Rdiv_lt_0_compat; apply Pn; lia.
  - exists (ln d). intros i Hi. rewrite <- (D i Hi). rewrite !Nl by lia. rewrite ln_quot by (apply Pn; lia). reflexivity.
Qed.
Lemma vol_spec path t : (2 <= List.length path)%nat -> 0 < t -> Forall (fun x => 0 < x) path ->
  exists sd sig, estimate_vol_np path t = Ret (sd, sig) /\ 0 <= sd /\ 0 <= sig /\ (sd = 0 <-> arithmetic path) /\ (sig = 0 <-> geometric path) /\
   (forall k, 0 < k -> estimate_vol_np (map (Rmult k) path) t = Ret (k * sd, sig)) /\ (forall k, 0 < k -> estimate_vol_np path (k * t) = Ret (sd / sqrt k, sig / sqrt k)).
Proof.
  intros L T P. set (n := IZR (Z.of_nat (List.length path) - 1)). assert (N : 0 < n) by (apply (IZR_lt 0); lia). assert (D : 0 < t / n) by (apply Rdiv_lt_0_compat; assumption). assert (Sq : 0 < sqrt (t / n)) by (apply sqrt_lt_R0; exact D).
  assert (G : forall l s, IZR (Z.of_nat (List.length l) - 1) = n -> 0 < s -> estimate_vol_np l s = Ret (std (rdiff l) / sqrt (s / n), std (rdiff (map ln l)) / sqrt (s / n))).
  { intros l s E Hs. unfold estimate_vol_np. rewrite E. rewrite rdiv_ok by lra. cbn [rbind]. assert (Ds : 0 < s / n) by (apply Rdiv_lt_0_compat; assumption). rewrite rlt_false by lra. pose proof (sqrt_lt_R0 _ Ds). rewrite !rdiv_ok by lra. reflexivity. }
  assert (Sp : forall l, 0 <= std l) by (intros l; apply sqrt_pos).
  assert (Dv : forall l, std l / sqrt (t / n) = 0 <-> std l = 0). { intros l. split; [intros E; apply (f_equal (fun x => x * sqrt (t / n))) in E; unfold Rdiv in E; rewrite Rmult_assoc, Rinv_l in E by lra; lra|intros ->; unfold Rdiv; ring]. }
  do 2 eexists. split; [apply G; [reflexivity|exact T]|]. split; [apply Rmult_le_pos; [apply Sp|left; apply Rinv_0_lt_compat; exact Sq]|]. split; [apply Rmult_le_pos; [apply Sp|left; apply Rinv_0_lt_compat; exact Sq]|].
  split; [rewrite Dv; apply std_diff_zero|]. split; [rewrite Dv, std_diff_zero; apply ln_progression; exact P|]. split.
  - intros k K. rewrite G by (try exact T; rewrite map_length; reflexivity). rewrite diff_map_mult, std_scale by lra. rewrite diff_ln by assumption. f_equal. f_equal. field. lra.
  - intros k K. rewrite G by (try reflexivity; apply Rmult_lt_0_compat; assumption). replace (k * t / n) with (k * (t / n)) by (field; lra). rewrite sqrt_mult by lra. pose proof (sqrt_lt_R0 k K). f_equal. f_equal; field; lra.
Qed.
Lemma asum_tail f n s : asum (map f (seq s n)) = walk (fun k => f (s + k)%nat) n.
Proof. rewrite asum_psum. revert s. induction n as [|n IH]; intros s; [reflexivity|]. rewrite psum_last, IH. reflexivity. Qed.
Lemma list_asum l : asum l = walk (fun i => nth i l 0) (List.length l).
Proof.
  transitivity (asum (map (fun i => nth i l 0) (seq 0 (List.length l)))); [|apply asum_tail]. f_equal. apply (nth_ext _ _ 0 0); [rewrite map_length, seq_length; reflexivity|]. intros i Hi.
  rewrite (nth_indep (map _ _) 0 (nth 0 l 0)) by (rewrite map_length, seq_length; exact Hi). rewrite (map_nth (fun i => nth i l 0) _ 0%nat), seq_nth by exact Hi. reflexivity.
Qed.
Lemma walk_ext f g n : (forall i, (i < n)%nat -> f i = g i) -> walk f n = walk g n.
Proof. induction n as [|n IH]; intros H; [reflexivity|]. cbn. rewrite IH, H by (try lia; intros; apply H; lia). reflexivity. Qed.
Lemma std_value l : std l = let n := INR (List.length l) in sqrt (walk (fun i => (nth i l 0 - walk (fun i => nth i l 0) (List.length l) / n) ^ 2) (List.length l) / n).
Proof.
  cbv zeta. unfold std. unfold mean at 1. rewrite list_asum, map_length. f_equal. f_equal. apply walk_ext. intros i Hi. set (g := fun x => (x - mean l) ^ 2). rewrite (nth_indep _ 0 (g 0)) by (rewrite map_length; exact Hi). rewrite map_nth. unfold g, mean. rewrite list_asum. reflexivity.
Qed.
Lemma std_diff_value l (f : nat -> R) : (forall i, (S i < List.length l)%nat -> nth (S i) l 0 - nth i l 0 = f i) -> let m := (List.length l - 1)%nat in std (rdiff l) = sqrt (walk (fun i => (f i - walk f m / INR m) ^ 2) m / INR m).
Proof.
  intros H m. rewrite std_value. cbv zeta. rewrite diff_length. replace (pred (List.length l)) with m by (unfold m; lia). assert (E : forall i, (i < m)%nat -> nth i (rdiff l) 0 = f i) by (intros i Hi; rewrite diff_nth by (unfold m in Hi; lia); apply H; unfold m in Hi; lia).
  rewrite (walk_ext (fun i => nth i (rdiff l) 0) f m E). f_equal. f_equal. apply walk_ext. intros i Hi. rewrite E by exact Hi. reflexivity.
Qed.
Lemma vol_value path t : (2 <= List.length path)%nat -> 0 < t ->
  let n := INR (List.length path - 1) in let d i := nth (S i) path 0 - nth i path 0 in let e i := ln (nth (S i) path 0) - ln (nth i path 0) in
  let sdev f := sqrt (walk (fun i => (f i - walk f (List.length path - 1) / n) ^ 2) (List.length path - 1) / n) in
  estimate_vol_np path t = Ret (sdev d / sqrt (t / n), sdev e / sqrt (t / n)).
Proof.
  intros L T n d e sdev. assert (N : IZR (Z.of_nat (List.length path) - 1) = n) by (unfold n; rewrite INR_IZR_INZ; f_equal; lia). assert (P : 0 < n) by (apply lt_0_INR; lia). assert (D : 0 < t / n) by (apply Rdiv_lt_0_compat; assumption). pose proof (sqrt_lt_R0 _ D).
  unfold estimate_vol_np. rewrite N, rdiv_ok by lra. cbn [rbind]. rewrite rlt_false by lra. rewrite !rdiv_ok by lra. cbn [rbind]. rewrite (std_diff_value path d) by reflexivity.
  rewrite (std_diff_value (map ln path) e); [rewrite map_length; reflexivity|]. rewrite map_length. intros i Hi. rewrite !(nth_indep (map ln path) 0 (ln 0)) by (rewrite map_length; lia). rewrite !map_nth. reflexivity.
Qed.
Lemma vol_errors path t (s : series) : (List.length path = 1%nat -> estimate_vol_np path t = Raise ZeroDivision) /\ ((2 <= List.length path)%nat -> t < 0 -> estimate_vol_np path t = Raise ValueError) /\ estimate_vol [] = Raise IndexError /\
  (s <> [] -> estimate_vol s = estimate_vol_np (map snd s) ((fst (last s (0, 0)) - fst (hd (0, 0) s)) / (36525 / 100))).
Proof.
  split; [|split; [|split; [reflexivity|intros N; destruct s; [contradiction|reflexivity]]]].
  - intros E. unfold estimate_vol_np. rewrite E. change (Z.of_nat 1 - 1)%Z with 0%Z. unfold rdiv at 1. rewrite req_true by reflexivity. reflexivity.
  - intros L T. unfold estimate_vol_np. set (n := IZR (Z.of_nat (List.length path) - 1)). assert (N : 0 < n) by (apply (IZR_lt 0); lia). rewrite rdiv_ok by lra. cbn [rbind]. rewrite rlt_true; [reflexivity|]. assert (0 < - t / n) by (apply Rdiv_lt_0_compat; lra). replace (t / n) with (- (- t / n)) by (field; lra). lra.
Qed.
Lemma gen_errors g z : (g_sig g * sqrt (g_dt g) < 0 -> gen_path g z = Raise ValueError) /\ ((g_N g < 0)%Z -> gen_path g z = Raise ValueError).
Proof.
  unfold gen_path. split; intros H; [rewrite rlt_true by exact H; reflexivity|]. destruct (rlt _ 0); [reflexivity|]. destruct (Z.ltb_spec (g_N g) 0); [reflexivity|lia].
Qed.
Lemma gen_positive g z path : (0 <= g_N g)%Z -> gen_path g z = Ret path -> hd 0 path = g_s0 g /\ (0 < g_s0 g -> Forall (fun x => 0 < x) path).
Proof.
  intros N E. destruct (Rlt_dec (g_sig g * sqrt (g_dt g)) 0) as [L|L]; [rewrite (proj1 (gen_errors g z) L) in E; discriminate|].
  destruct (gen_spec g z) as (p & E' & Len & V); [lra|exact N|]. rewrite E in E'. injection E' as <-. split.
  - specialize (V 0%nat ltac:(lia)). cbn [INR walk] in V. rewrite Rmult_0_l, !Rmult_0_r, Rplus_0_l, exp_0, Rmult_1_r in V. rewrite <- V. destruct path; reflexivity.
  - intros S. apply Forall_forall. intros x X. apply In_nth with (d := 0) in X as (i & Hi & <-). rewrite V by lia. apply Rmult_lt_0_compat; [exact S|apply exp_pos].
Qed.
Lemma pathtime_spec (s : series) : (s = [] -> pathtime_days s = Raise IndexError /\ pathtime_yrs s = Raise IndexError) /\ (s <> [] -> let d := fst (last s (0, 0)) - fst (hd (0, 0) s) in pathtime_days s = Ret d /\ pathtime_yrs s = Ret (d / (36525 / 100))).
Proof. split; [intros ->; split; reflexivity|]. intros N. destruct s; [contradiction|]. split; reflexivity. Qed.
