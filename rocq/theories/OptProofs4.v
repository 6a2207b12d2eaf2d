(** The simple optimizer for pools on one pair (C94). *)
From Coq Require Import Reals Lra Bool List String Lia.
From Verif Require Import CurveModel CurveProofs PairModel PairSpec PairProofs HelperModel HelperProofs CpcModel CpcSpec CpcProofs CpcProofs2 CpcProofs3
  ContainerModel ContainerSpec ContainerProofs ContainerProofs2 OptModel OptSpec OptProofs OptProofs2 OptProofs3.
Import ListNotations.
Local Open Scope R_scope.

Lemma oriented a b c : isprimary norm_cpc a b = true -> on_pair a b c ->
  side_tknx (wrap c) = a /\ side_tkny (wrap c) = b /\ (pool_ok c -> CpcModel.p (pool_of (wrap c)) = price_in a c /\ y_act (pool_of (wrap c)) = holding c b).
Proof.
  intros P O. assert (N : a <> b) by (intros ->; rewrite isprimary_same in P; discriminate). unfold wrap, price_in, holding.
  destruct O as [[Ex Ey]|[Ex Ey]]; rewrite Ex, Ey.
  - rewrite P. cbn [side_tknx side_tkny pool_of]. split; [exact Ex|]. split; [exact Ey|]. intros H. destruct (string_dec a a) as [_|]; [|congruence].
    destruct (string_dec a b) as [|_]; [congruence|]. split; [|reflexivity]. unfold CpcModel.p, y. destruct H as (_ & H & _). unfold CpcModel.y. field. lra.
  - rewrite (isprimary_flip norm_cpc a b N), P. cbn [negb side_tknx side_tkny pool_of inv_tknx inv_tkny]. unfold inv_tknx, inv_tkny. split; [exact Ey|]. split; [exact Ex|]. intros H.
    destruct (string_dec b a) as [|_]; [congruence|]. destruct (string_dec b b) as [_|]; [|congruence]. rewrite mirror_p by exact H. split; [|reflexivity].
    destruct (pool_pos c H) as (Hy & Hk & Hx & Hxy & _). unfold CpcModel.p, CpcModel.y. field. split; lra.
Qed.
Lemma as_set_one (s : string) l : l <> [] -> (forall t, In t l -> t = s) -> as_set l = [s].
Proof.
  intros N A. unfold as_set. pose proof (NoDup_nodup string_dec l) as D. assert (I1 : forall t, In t (nodup string_dec l) -> t = s) by (intros t Ht; apply A; apply (nodup_In string_dec), Ht).
  assert (I2 : In s (nodup string_dec l)). { apply nodup_In. destruct l as [|t l]; [congruence|]. rewrite <- (A t (or_introl eq_refl)). left. reflexivity. }
  destruct (nodup string_dec l) as [|u [|v r]]; [destruct I2|f_equal; apply I1; left; reflexivity|]. exfalso.
  rewrite (I1 u), (I1 v) in D by (try (left; reflexivity); right; left; reflexivity). inversion D as [|? ? D1 _]. apply D1. left. reflexivity.
Qed.
Lemma one_pair_ok a b cs : isprimary norm_cpc a b = true -> Forall proper cs -> Forall (on_pair a b) cs -> cs <> [] ->
  one_pair cs = Ret (map wrap cs) /\ Forall side_ok (map wrap cs) /\ map wrap cs <> [] /\ a <> b /\ (forall s, In s (map wrap cs) -> side_tknx s = a /\ side_tkny s = b).
Proof.
  intros P H O N. rewrite Forall_forall in H, O. assert (T : forall s, In s (map wrap cs) -> side_tknx s = a /\ side_tkny s = b).
  { intros s Hs. apply in_map_iff in Hs as (c & <- & Hc). destruct (oriented a b c P (O c Hc)) as (E1 & E2 & _). split; assumption. }
  assert (N' : map wrap cs <> []) by (destruct cs; [congruence|discriminate]).
  split; [|split; [|split; [exact N'|split; [|exact T]]]].
  - unfold one_pair. rewrite (as_set_one (pair_str a b)); [reflexivity| |].
    + intros E. apply N'. destruct (map wrap cs); [reflexivity|discriminate].
    + intros t Ht. apply in_map_iff in Ht as (s & <- & Hs). destruct (T s Hs) as [E1 E2]. unfold side_pair. rewrite E1, E2. reflexivity.
  - apply Forall_forall. intros s Hs. apply in_map_iff in Hs as (c & <- & Hc). unfold side_ok. rewrite wrap_curve. apply H, Hc.
  - intros E. rewrite E, isprimary_same in P. discriminate.
Qed.
Lemma pools_in e l cs : pools l = cs -> In e l -> In (fst (fst e)) cs.
Proof. intros <- H. unfold pools. apply (in_map (fun e => fst (fst e))). exact H. Qed.

(** what the sum of the marginal trades is *)
Lemma sum_dual a b cs p0 : isprimary norm_cpc a b = true -> Forall proper cs -> Forall (on_pair a b) cs -> cs <> [] -> 0 < p0 ->
  exists best, pools best = cs /\ all_allowed best /\ dxdy_sum (map wrap cs) p0 = Ret (net best a, net best b) /\
    p0 * net best a + net best b <= 0 /\
    forall l, pools l = cs -> all_allowed l -> p0 * net best a + net best b <= p0 * net l a + net l b.
Proof.
  intros P H O N Hp. destruct (one_pair_ok a b cs P H O N) as (E & K & NE & D & T). rewrite Forall_forall in H, O.
  assert (Q : forall c, In c cs -> pool_ok c /\ side_tknx (wrap c) = a /\ side_tkny (wrap c) = b).
  { intros c Hc. split; [apply H, Hc|]. apply T. apply in_map, Hc. }
  destruct (sum_attained p0 a b cs Hp D Q) as (S1 & S2 & S3 & S4). exists (map (marginal_trade p0) cs). rewrite S3, S4.
  assert (B : forall l, pools l = cs -> all_allowed l -> p0 * GX (map wrap cs) p0 + GY (map wrap cs) p0 <= p0 * net l a + net l b).
  { intros l Hl Al. rewrite <- Hl. apply sum_best; [exact Hp|exact D|]. intros e He. destruct (Q _ (pools_in e l cs Hl He)) as (Q1 & Q2 & Q3).
    unfold all_allowed in Al. rewrite Forall_forall in Al. auto. }
  split; [exact S1|]. split; [exact S2|]. split; [apply sum_value; assumption|]. split; [|exact B].
  pose proof (B (map (fun c => (c, 0, 0)) cs)) as B0.
  assert (Z : forall t, net (map (fun c => (c, 0, 0)) cs) t = 0).
  { intros t. clear. induction cs as [|c cs IH]; [reflexivity|]. cbn [map net flow]. rewrite IH. destruct (string_dec _ _), (string_dec _ _); ring. }
  rewrite !Z in B0. apply Rle_trans with (p0 * 0 + 0); [apply B0|lra].
  - unfold pools. rewrite map_map. cbn [fst]. apply map_id.
  - unfold all_allowed. apply Forall_forall. intros e He. apply in_map_iff in He as (c & <- & Hc). cbn [fst snd]. apply stay_allowed, H, Hc.
Qed.
(** a price at which one token nets to nothing gives the best trades for the other one *)
Lemma dual_optimal a b cs p0 best : 0 < p0 -> pools best = cs -> all_allowed best ->
  (forall l, pools l = cs -> all_allowed l -> p0 * net best a + net best b <= p0 * net l a + net l b) ->
  (net best b = 0 -> optimal a b best) /\ (net best a = 0 -> optimal b a best).
Proof.
  intros Hp E A B. split; intros Z; (split; [exact A|]; split; [exact Z|]; rewrite E; intros l El Al L; specialize (B l El Al); rewrite Z in B).
  - apply (Rmult_le_reg_l p0); lra.
  - assert (p0 * net l a <= 0) by (rewrite <- (Rmult_0_r p0); apply Rmult_le_compat_l; lra). lra.
Qed.
Lemma valx_value a b cs p0 : isprimary norm_cpc a b = true -> Forall proper cs -> Forall (on_pair a b) cs -> cs <> [] -> 0 < p0 ->
  dxdy_valy (map wrap cs) p0 = Ret (p0 * GX (map wrap cs) p0 + GY (map wrap cs) p0) /\ dxdy_valx (map wrap cs) p0 = Ret (GX (map wrap cs) p0 + GY (map wrap cs) p0 / p0).
Proof.
  intros P H O N Hp. destruct (one_pair_ok a b cs P H O N) as (E & K & _). unfold dxdy_valx, dxdy_valy. rewrite sum_value by assumption. cbn [rbind fst snd].
  rewrite rdiv_ok by lra. split; f_equal; field; lra.
Qed.
Lemma valx_bound a b cs p0 v best : isprimary norm_cpc a b = true -> Forall proper cs -> Forall (on_pair a b) cs -> cs <> [] -> 0 < p0 ->
  dxdy_valx (map wrap cs) p0 = Ret v -> pools best = cs -> all_allowed best -> net best b <= 0 -> v <= net best a.
Proof.
  intros P H O N Hp E Eb Ab L. destruct (valx_value a b cs p0 P H O N Hp) as [_ V]. rewrite V in E.
  destruct (sum_dual a b cs p0 P H O N Hp) as (m & E1 & A1 & S1 & _ & B1). destruct (one_pair_ok a b cs P H O N) as (_ & K & _). rewrite sum_value in S1 by assumption.
  assert (X : GX (map wrap cs) p0 = net m a) by congruence. assert (Y : GY (map wrap cs) p0 = net m b) by congruence. rewrite X, Y in E.
  specialize (B1 best Eb Ab). assert (v = (p0 * net m a + net m b) / p0) by (injection E as <-; field; lra). subst v.
  apply (Rmult_le_reg_l p0); [exact Hp|]. replace (p0 * ((p0 * net m a + net m b) / p0)) with (p0 * net m a + net m b) by (field; lra). lra.
Qed.
(** no value without a positive price *)
Lemma side_positive s p0 r : side_dxdy s p0 = Ret r -> 0 < p0.
Proof.
  assert (Q : forall c p0 r, dxdyfromp_f c (Some p0) false = Ret r -> 0 < p0).
  { intros c q r'. unfold dxdyfromp_f, xyfromp_f. cbn [dflt]. destruct (rsqrt q) as [sq|] eqn:Es; cbn [rbind]; [|discriminate]. destruct (kbar c) as [sk|]; cbn [rbind]; [|discriminate].
    destruct (rdiv sk sq) as [v|] eqn:Ed; cbn [rbind]; [|discriminate]. intros _. apply rdiv_inv in Ed. unfold rsqrt in Es. destruct (rlt q 0) eqn:L; [discriminate|].
    assert (sqrt q = sq) by congruence. destruct (Rlt_dec 0 q) as [G|G]; [exact G|]. exfalso. apply (proj1 Ed). subst sq. apply sqrt_neg_0. lra. }
  unfold side_dxdy. destruct s as [c|c].
  - destruct (dxdyfromp_f c (Some p0) false) eqn:E; [|discriminate]. intros _. eapply Q. exact E.
  - unfold inv_dxdyfromp_f, inv_arg. destruct (rdiv 1 p0) as [q|] eqn:E0; cbn [rbind]; [|discriminate]. destruct (dxdyfromp_f c (Some q) false) eqn:E; cbn [rbind]; [|discriminate]. intros _.
    apply Q in E. apply rdiv_inv in E0. destruct E0 as [Z ->]. destruct (Rtotal_order p0 0) as [L|[L|L]]; [|congruence|exact L]. exfalso.
    apply Rinv_lt_0_compat in L. unfold Rdiv in E. lra.
Qed.
Lemma sum_positive l p0 r : l <> [] -> dxdy_sum l p0 = Ret r -> 0 < p0.
Proof.
  destruct l as [|s l]; [congruence|]. intros _. unfold dxdy_sum, dxdy_vec. cbn [rmap]. destruct (side_dxdy s p0) eqn:E; cbn [rbind]; [|discriminate]. intros _. eapply side_positive. exact E.
Qed.
Lemma globalmax_bound a b cs n r : isprimary norm_cpc a b = true -> Forall proper cs -> Forall (on_pair a b) cs -> cs <> [] -> simple_globalmax n cs = Ret r ->
  0 < so_p r /\ (exists best, pools best = cs /\ all_allowed best /\ so_result_ r = net best a + net best b / so_p r) /\
  forall l, pools l = cs -> all_allowed l -> net l b <= 0 -> so_result_ r <= net l a.
Proof.
  intros P H O N E. destruct (one_pair_ok a b cs P H O N) as (E1 & K & NE & D & T). unfold simple_globalmax in E. rewrite E1 in E. cbn [rbind] in E.
  destruct (rmap side_p _) as [ps|]; cbn [rbind] in E; [|discriminate]. destruct (rdiv _ _) as [avg|]; cbn [rbind] in E; [|discriminate].
  destruct (simple_float _) as [q|]; cbn [rbind] in E; [|discriminate]. destruct (dxdy_valx (map wrap cs) q) as [v|] eqn:V; cbn [rbind] in E; [|discriminate].
  assert (Er : r = mkSO v q (map wrap cs)) by congruence. rewrite Er. cbn [so_p so_result_].
  assert (Hq : 0 < q). { unfold dxdy_valx, dxdy_valy in V. destruct (dxdy_sum (map wrap cs) q) eqn:S; [|discriminate]. eapply sum_positive; [exact NE|exact S]. }
  split; [exact Hq|]. split; [|intros l El Al L; eapply valx_bound; eassumption].
  destruct (sum_dual a b cs q P H O N Hq) as (m & M1 & M2 & M3 & _). exists m. split; [exact M1|]. split; [exact M2|].
  destruct (valx_value a b cs q P H O N Hq) as [_ V']. rewrite V' in V. rewrite sum_value in M3 by assumption. congruence.
Qed.

(** the outcome of simple_optimizer *)
Lemma turned a b t o cs : isprimary norm_cpc a b = true -> (t = a /\ o = b) \/ (t = b /\ o = a) -> a <> b ->
  (t = a \/ t = b) /\ forall p0, other (String.eqb t a) (map wrap cs) p0 = (if string_dec t a then GY (map wrap cs) p0 else GX (map wrap cs) p0) /\
    wanted (String.eqb t a) (map wrap cs) p0 = (if string_dec t a then GX (map wrap cs) p0 else GY (map wrap cs) p0).
Proof.
  intros P [[-> ->]|[-> ->]] N.
  - split; [left; reflexivity|]. intros p0. rewrite String.eqb_refl. destruct (string_dec a a) as [_|]; [|congruence]. split; reflexivity.
  - split; [right; reflexivity|]. intros p0. rewrite (proj2 (String.eqb_neq b a)) by congruence. destruct (string_dec b a) as [|_]; [congruence|]. split; reflexivity.
Qed.
Lemma so_wanted a b t o cs p0 : isprimary norm_cpc a b = true -> (t = a /\ o = b) \/ (t = b /\ o = a) -> Forall proper cs -> Forall (on_pair a b) cs -> cs <> [] -> 0 < p0 ->
  exists best, pools best = cs /\ all_allowed best /\ wanted (String.eqb t a) (map wrap cs) p0 = net best t /\ other (String.eqb t a) (map wrap cs) p0 = net best o /\
    (net best o = 0 -> optimal t o best).
Proof.
  intros P T H O N Hp. destruct (one_pair_ok a b cs P H O N) as (_ & K & _ & D & _). destruct (turned a b t o cs P T D) as [_ W]. destruct (W p0) as [W1 W2].
  destruct (sum_dual a b cs p0 P H O N Hp) as (m & M1 & M2 & M3 & _ & M4). rewrite sum_value in M3 by assumption.
  assert (X : GX (map wrap cs) p0 = net m a) by congruence. assert (Y : GY (map wrap cs) p0 = net m b) by congruence.
  destruct (dual_optimal a b cs p0 m Hp M1 M2 M4) as [Q1 Q2]. exists m. split; [exact M1|]. split; [exact M2|]. rewrite W1, W2.
  destruct T as [[-> ->]|[-> ->]].
  - destruct (string_dec a a) as [_|]; [|congruence]. split; [exact X|]. split; [exact Y|exact Q1].
  - destruct (string_dec b a) as [|_]; [congruence|]. split; [exact Y|]. split; [exact X|exact Q2].
Qed.
Lemma price_range a b cs : isprimary norm_cpc a b = true -> Forall proper cs -> Forall (on_pair a b) cs -> cs <> [] ->
  exists cl ch, In cl cs /\ In ch cs /\ (forall c, In c cs -> 0 < price_in a cl <= price_in a c /\ price_in a c <= price_in a ch) /\
    low (map wrap cs) = 99 / 100 * price_in a cl /\ high (map wrap cs) = 101 / 100 * price_in a ch.
Proof.
  intros P H O N. rewrite Forall_forall in H, O.
  assert (Q : forall c, In c cs -> CpcModel.p (pool_of (wrap c)) = price_in a c /\ 0 < price_in a c).
  { intros c Hc. destruct (H c Hc) as [K _]. destruct (oriented a b c P (O c Hc)) as (_ & _ & E). destruct (E K) as [E1 _]. split; [exact E1|]. rewrite <- E1.
    apply (side_price (wrap c)). unfold side_ok. rewrite wrap_curve. exact K. }
  assert (E : side_prices (map wrap cs) = map (price_in a) cs). { unfold side_prices. rewrite map_map. apply map_ext_in. intros c Hc. apply Q, Hc. }
  unfold low, high. rewrite E. assert (N' : map (price_in a) cs <> []) by (destruct cs; [congruence|discriminate]).
  destruct (rmin_spec _ N') as [I1 I2]. destruct (rmax_spec _ N') as [J1 J2]. apply in_map_iff in I1 as (cl & E1 & H1). apply in_map_iff in J1 as (ch & E2 & H2).
  exists cl, ch. split; [exact H1|]. split; [exact H2|]. rewrite E1, E2. split; [|split; ring]. intros c Hc. pose proof (in_map (price_in a) _ _ Hc) as I3.
  split; [split; [rewrite <- E1; apply Q, H1|apply I2, I3]|apply J2, I3].
Qed.
Lemma so_result_optimal a b t o cs n r : isprimary norm_cpc a b = true -> (t = a /\ o = b) \/ (t = b /\ o = a) -> Forall proper cs -> Forall (on_pair a b) cs ->
  (exists c, In c cs /\ 0 < holding c b) -> simple_optimizer n cs t = Ret (Some r) ->
  0 < so_p r /\ (exists trades, pools trades = cs /\ all_allowed trades /\ so_result_ r = net trades t) /\
  exists q best, 0 < q /\ Rabs (so_p r - q) <= / 10 ^ 6 / 2 /\ pools best = cs /\ optimal t o best /\ dxdy_sum (map wrap cs) q = Ret (net best a, net best b).
Proof.
  intros P T H O (c & Hc & Yc) S. assert (N : cs <> []) by (intros ->; destruct Hc). destruct (one_pair_ok a b cs P H O N) as (E & K & NE & D & Tk).
  destruct (turned a b t o cs P T D) as [Tt W].
  assert (X : exists s, In s (map wrap cs) /\ 0 < y_act (pool_of s)).
  { exists (wrap c). split; [apply in_map, Hc|]. rewrite Forall_forall in H, O. destruct (oriented a b c P (O c Hc)) as (_ & _ & G). destruct (G (proj1 (H c Hc))) as [_ ->]. exact Yc. }
  destruct (so_root n cs t (map wrap cs) a b r K NE E D Tk Tt X S) as (R1 & R2 & R3 & q & Q1 & Q2 & Q3). split; [exact R2|]. split.
  - destruct (so_wanted a b t o cs (so_p r) P T H O N R2) as (m & M1 & M2 & M3 & _). exists m. split; [exact M1|]. split; [exact M2|]. rewrite R1. exact M3.
  - destruct (ends (map wrap cs) K NE) as [[L1 L2] _]. assert (Hq : 0 < q) by lra.
    destruct (sum_dual a b cs q P H O N Hq) as (m & M1 & M2 & M3 & _ & M4). destruct (W q) as [W1 W2]. pose proof M3 as M5. rewrite sum_value in M5 by assumption.
    assert (GXm : GX (map wrap cs) q = net m a) by congruence. assert (GYm : GY (map wrap cs) q = net m b) by congruence.
    destruct (dual_optimal a b cs q m Hq M1 M2 M4) as [Z1 Z2]. exists q, m. split; [exact Hq|]. split; [exact Q2|]. split; [exact M1|]. split; [|exact M3].
    rewrite Q3 in W1. destruct T as [[-> ->]|[-> ->]]; [destruct (string_dec a a) as [_|]; [|congruence]|destruct (string_dec b a) as [|_]; [congruence|]].
    + apply Z1. rewrite <- GYm. symmetry. exact W1.
    + apply Z2. rewrite <- GXm. symmetry. exact W1.
Qed.
Lemma so_outcome a b t cs : isprimary norm_cpc a b = true -> t = a \/ t = b -> Forall proper cs -> Forall (on_pair a b) cs -> cs <> [] ->
  exists m, (forall n, (m < n)%nat -> simple_optimizer n cs t = Raise AttributeError) \/
    exists r cl ch, In cl cs /\ In ch cs /\ 99 / 100 * price_in a cl <= so_p r <= 101 / 100 * price_in a ch /\ forall n, (m < n)%nat -> simple_optimizer n cs t = Ret (Some r).
Proof.
  intros P T H O N. destruct (one_pair_ok a b cs P H O N) as (E & K & NE & D & Tk). destruct (so_stops cs t (map wrap cs) a b K NE E D Tk T) as (M & [S|(r & S1 & S2 & S3 & S4)]).
  - exists M. left. exact S.
  - exists M. right. destruct (price_range a b cs P H O N) as (cl & ch & I1 & I2 & _ & E1 & E2). exists r, cl, ch. rewrite E1, E2 in S1. auto.
Qed.
Lemma so_same_price a b t cs P0 n : isprimary norm_cpc a b = true -> t = a \/ t = b -> Forall proper cs -> Forall (on_pair a b) cs -> cs <> [] ->
  (forall c, In c cs -> price_in a c = P0) -> / 10 ^ 6 < P0 / 50 -> simple_optimizer (S n) cs t = Raise AttributeError.
Proof.
  intros P T H O N A L. destruct (one_pair_ok a b cs P H O N) as (E & K & NE & D & Tk). apply (so_agree cs t (map wrap cs) a b P0); try assumption.
  intros s Hs. apply in_map_iff in Hs as (c & <- & Hc). rewrite Forall_forall in H, O. destruct (oriented a b c P (O c Hc)) as (_ & _ & G). destruct (G (proj1 (H c Hc))) as [-> _]. apply A, Hc.
Qed.
Lemma so_tiny a b t cs n : isprimary norm_cpc a b = true -> t = a \/ t = b -> Forall proper cs -> Forall (on_pair a b) cs -> cs <> [] ->
  (forall c, In c cs -> 101 / 100 * price_in a c <= / 10 ^ 6) ->
  exists r cl ch, simple_optimizer (S n) cs t = Ret (Some r) /\ In cl cs /\ In ch cs /\ (forall c, In c cs -> price_in a cl <= price_in a c <= price_in a ch) /\
    so_p r = (99 / 100 * price_in a cl + 101 / 100 * price_in a ch) / 2.
Proof.
  intros P T H O N A. destruct (one_pair_ok a b cs P H O N) as (E & K & NE & D & Tk). destruct (price_range a b cs P H O N) as (cl & ch & I1 & I2 & I3 & E1 & E2).
  destruct (so_short cs t (map wrap cs) a b n K NE E D Tk T) as (r & S1 & S2).
  - rewrite E1, E2. specialize (A ch I2). pose proof (I3 cl I1). unfold GOALSEEKEPS. lra.
  - exists r, cl, ch. split; [exact S1|]. split; [exact I1|]. split; [exact I2|]. split; [intros c Hc; split; apply (I3 c Hc)|]. rewrite S2, E1, E2. reflexivity.
Qed.
Lemma so_rejects n cs t : Forall proper cs -> (forall a b, Forall (on_pair a b) cs -> cs <> [] -> t <> a /\ t <> b) -> simple_optimizer n cs t = Raise AssertionError.
Proof.
  intros H A. unfold simple_optimizer. destruct (one_pair cs) as [l|e] eqn:E.
  - cbn [rbind]. destruct (one_pair_inv cs l H E) as (-> & N & K & tx & ty & D & Tk).
    rewrite (rmap_ok _ (fun s => CpcModel.p (pool_of s))) by (intros s Hs; apply side_price; rewrite Forall_forall in K; apply K, Hs). cbn [rbind].
    assert (O : Forall (on_pair tx ty) cs).
    { apply Forall_forall. intros c Hc. destruct (Tk (wrap c) (in_map _ _ _ Hc)) as [T1 T2]. unfold wrap in *. destruct (isprimary _ _ _); cbn in T1, T2; [left|right]; split; assumption. }
    destruct (A tx ty O N) as [N1 N2]. destruct (map wrap cs) as [|s0 l']; [reflexivity|]. destruct (Tk s0 (or_introl eq_refl)) as [-> ->].
    rewrite (proj2 (String.eqb_neq t tx)), (proj2 (String.eqb_neq t ty)) by assumption. reflexivity.
  - cbn [rbind]. f_equal. unfold one_pair in E. destruct (as_set _) as [|? [|? ?]]; congruence.
Qed.
