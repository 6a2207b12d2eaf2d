(** The simple optimizer (C94). *)
From Coq Require Import Reals Lra Bool List String Lia.
From Verif Require Import CurveModel CurveProofs PairModel PairSpec PairProofs HelperModel HelperProofs CpcModel CpcSpec CpcProofs CpcProofs2 CpcProofs3
  ContainerModel ContainerSpec ContainerProofs ContainerProofs2 OptModel OptSpec OptProofs OptProofs2.
Import ListNotations.
Local Open Scope R_scope.

(** ** the trade at a price as a function of the price *)
Definition gx (c : cpc) (p0 : R) : R := match dxdyfromp_f c (Some p0) false with Ret (a, _, _) => a | Raise _ => 0 end.
Definition gy (c : cpc) (p0 : R) : R := match dxdyfromp_f c (Some p0) false with Ret (_, b, _) => b | Raise _ => 0 end.
Lemma dxdy_value c p0 : pool_ok c -> 0 < p0 -> dxdyfromp_f c (Some p0) false = Ret (gx c p0, gy c p0, p0).
Proof. intros H Hp. destruct (trade_optimal c p0 H Hp) as (a & b & E & _). unfold gx, gy. rewrite E. reflexivity. Qed.
Lemma g_allowed c p0 : pool_ok c -> 0 < p0 -> allowed c (gx c p0) (gy c p0).
Proof.
  intros H Hp. destruct (trade_optimal c p0 H Hp) as (a & b & E & A & _). rewrite dxdy_value in E by assumption.
  assert (a = gx c p0) by congruence. assert (b = gy c p0) by congruence. subst. exact A.
Qed.
Lemma g_best c p0 dx dy : pool_ok c -> 0 < p0 -> allowed c dx dy -> p0 * gx c p0 + gy c p0 <= p0 * dx + dy.
Proof.
  intros H Hp A. destruct (trade_optimal c p0 H Hp) as (a & b & E & _ & _ & O). rewrite dxdy_value in E by assumption.
  assert (a = gx c p0) by congruence. assert (b = gy c p0) by congruence. subst. destruct (O _ _ A) as [G|[-> ->]]; lra.
Qed.
Lemma cont_ext f g t0 : (forall t, 0 < t -> f t = g t) -> 0 < t0 -> continuity_pt f t0 -> continuity_pt g t0.
Proof.
  intros E H. apply continuity_pt_locally_ext with (a := t0); [exact H|]. intros z Hz. apply E. unfold R_dist in Hz. apply Rabs_def2 in Hz. lra.
Qed.
Lemma cont_atleast f b t0 : continuity_pt f t0 -> continuity_pt (fun t => atleast (Some b) (f t)) t0.
Proof.
  intros H. assert (C : continuity_pt (fun t => (b + f t + Rabs (b - f t)) / 2) t0).
  { apply (continuity_pt_mult (fun t => b + f t + Rabs (b - f t)) (fct_cte (/ 2))); [|apply continuity_pt_const; intros u v; reflexivity].
    apply (continuity_pt_plus (fun t => b + f t) (fun t => Rabs (b - f t))).
    - apply (continuity_pt_plus (fct_cte b) f); [apply continuity_pt_const; intros u v; reflexivity|exact H].
    - apply (continuity_pt_comp (fun t => b - f t) Rabs); [|apply Rcontinuity_abs].
      apply (continuity_pt_minus (fct_cte b) f); [apply continuity_pt_const; intros u v; reflexivity|exact H]. }
  apply continuity_pt_locally_ext with (a := 1) (f := fun t => (b + f t + Rabs (b - f t)) / 2); [lra| |exact C]. intros z _. cbn [atleast].
  destruct (Rlt_dec (f z) b) as [L|L]; [rewrite rlt_true, Rabs_right by lra; lra|rewrite rlt_false by lra]. rewrite Rabs_left1 by lra. lra.
Qed.
Lemma cont_atmost f o t0 : continuity_pt f t0 -> continuity_pt (fun t => atmost o (f t)) t0.
Proof.
  intros H. destruct o as [b|]; [|exact H]. assert (C : continuity_pt (fun t => (b + f t - Rabs (b - f t)) / 2) t0).
  { apply (continuity_pt_mult (fun t => b + f t - Rabs (b - f t)) (fct_cte (/ 2))); [|apply continuity_pt_const; intros u v; reflexivity].
    apply (continuity_pt_minus (fun t => b + f t) (fun t => Rabs (b - f t))).
    - apply (continuity_pt_plus (fct_cte b) f); [apply continuity_pt_const; intros u v; reflexivity|exact H].
    - apply (continuity_pt_comp (fun t => b - f t) Rabs); [|apply Rcontinuity_abs].
      apply (continuity_pt_minus (fct_cte b) f); [apply continuity_pt_const; intros u v; reflexivity|exact H]. }
  apply continuity_pt_locally_ext with (a := 1) (f := fun t => (b + f t - Rabs (b - f t)) / 2); [lra| |exact C]. intros z _. cbn [atmost].
  destruct (Rlt_dec b (f z)) as [L|L]; [rewrite rlt_true, Rabs_left1 by lra; lra|rewrite rlt_false by lra]. rewrite Rabs_right by lra. lra.
Qed.
Lemma g_cont c p0 : pool_ok c -> 0 < p0 -> continuity_pt (gx c) p0 /\ continuity_pt (gy c) p0.
Proof.
  intros H Hp. pose proof (proj1 H) as Hk.
  assert (V : forall t, 0 < t -> gx c t = atmost (x_max c) (atleast (Some (x_min c)) (sqrt (k c) / sqrt t)) - x c /\
                                gy c t = atmost (y_max c) (atleast (Some (y_min c)) (sqrt (k c) * sqrt t)) - y c).
  { intros t Ht. assert (0 < sqrt t) by (apply sqrt_lt_R0; exact Ht). unfold gx, gy, dxdyfromp_f, xyfromp_f, kbar. cbn [dflt].
    rewrite !rsqrt_ok by lra. cbn [rbind]. rewrite rdiv_ok by lra. cbn [rbind]. split; reflexivity. }
  assert (S : continuity_pt sqrt p0) by (apply continuity_pt_sqrt; lra). assert (0 < sqrt p0) by (apply sqrt_lt_R0; exact Hp). split.
  - apply cont_ext with (f := fun t => atmost (x_max c) (atleast (Some (x_min c)) (sqrt (k c) / sqrt t)) - x c); [intros t Ht; symmetry; apply V; exact Ht|exact Hp|].
    apply (continuity_pt_minus (fun t => atmost (x_max c) (atleast (Some (x_min c)) (sqrt (k c) / sqrt t))) (fct_cte (x c))); [|apply continuity_pt_const; intros u v; reflexivity].
    apply cont_atmost, cont_atleast. apply (continuity_pt_div (fct_cte (sqrt (k c))) sqrt); [apply continuity_pt_const; intros u v; reflexivity|exact S|lra].
  - apply cont_ext with (f := fun t => atmost (y_max c) (atleast (Some (y_min c)) (sqrt (k c) * sqrt t)) - y c); [intros t Ht; symmetry; apply V; exact Ht|exact Hp|].
    apply (continuity_pt_minus (fun t => atmost (y_max c) (atleast (Some (y_min c)) (sqrt (k c) * sqrt t))) (fct_cte (y c))); [|apply continuity_pt_const; intros u v; reflexivity].
    apply cont_atmost, cont_atleast. apply (continuity_pt_mult (fct_cte (sqrt (k c))) sqrt); [apply continuity_pt_const; intros u v; reflexivity|exact S].
Qed.

(** ** sides *)
Definition pool_of (s : side) : cpc := match s with Direct c => c | Inverted c => mirror c end.
Definition curve_of (s : side) : cpc := match s with Direct c => c | Inverted c => c end.
Definition side_ok (s : side) : Prop := pool_ok (curve_of s).
Lemma side_pool s : side_ok s -> pool_ok (pool_of s).
Proof. destruct s as [c|c]; intros H; [exact H|]. apply mirror_ok. exact H. Qed.
Lemma side_value s p0 : side_ok s -> 0 < p0 -> side_dxdy s p0 = Ret (gx (pool_of s) p0, gy (pool_of s) p0).
Proof.
  intros H Hp. pose proof (dxdy_value (pool_of s) p0 (side_pool s H) Hp) as V. unfold side_dxdy. destruct s as [c|c]; cbn [pool_of] in *.
  - rewrite V. reflexivity.
  - destruct (mirror_xyfromp c p0 false H Hp) as [_ E]. rewrite E, V. reflexivity.
Qed.
Lemma side_price s : side_ok s -> side_p s = Ret (CpcModel.p (pool_of s)) /\ 0 < CpcModel.p (pool_of s).
Proof.
  intros H. split; [|apply current_inside, side_pool, H]. destruct s as [c|c]; cbn [side_p pool_of]; [reflexivity|]. cbn in H.
  rewrite mirror_p by exact H. unfold inv_p. rewrite rdiv_ok by (apply Rgt_not_eq, current_inside, H). f_equal. unfold Rdiv. ring.
Qed.
Lemma side_tokens s : tknx (pool_of s) = side_tknx s /\ tkny (pool_of s) = side_tkny s.
Proof. destruct s; split; reflexivity. Qed.

Definition GX (l : list side) (p0 : R) : R := total (map (fun s => gx (pool_of s) p0) l).
Definition GY (l : list side) (p0 : R) : R := total (map (fun s => gy (pool_of s) p0) l).
Lemma sum_value l p0 : Forall side_ok l -> 0 < p0 -> dxdy_sum l p0 = Ret (GX l p0, GY l p0).
Proof.
  intros H Hp. rewrite Forall_forall in H. unfold dxdy_sum, dxdy_vec.
  rewrite (rmap_ok _ (fun s => (gx (pool_of s) p0, gy (pool_of s) p0))) by (intros s Hs; apply side_value; [apply H; exact Hs|exact Hp]).
  cbn [rbind]. rewrite !rsum_total, !map_map. reflexivity.
Qed.
Lemma total_cont {A} (f : A -> R -> R) (l : list A) t0 : (forall a, In a l -> continuity_pt (f a) t0) -> continuity_pt (fun t => total (map (fun a => f a t) l)) t0.
Proof.
  induction l as [|a l IH]; intros H.
  - apply continuity_pt_const. intros u v. reflexivity.
  - apply (continuity_pt_plus (f a) (fun t => total (map (fun a => f a t) l))); [apply H; left; reflexivity|apply IH; intros b Hb; apply H; right; exact Hb].
Qed.
Lemma G_cont l p0 : Forall side_ok l -> 0 < p0 -> continuity_pt (GX l) p0 /\ continuity_pt (GY l) p0.
Proof.
  intros H Hp. rewrite Forall_forall in H. split; [apply (total_cont (fun s => gx (pool_of s)))|apply (total_cont (fun s => gy (pool_of s)))];
    intros s Hs; apply g_cont; try exact Hp; apply side_pool, H, Hs.
Qed.
Lemma total_le {A} (f g : A -> R) (l : list A) : (forall a, In a l -> f a <= g a) -> total (map f l) <= total (map g l).
Proof.
  induction l as [|a l IH]; intros H; [apply Rle_refl|]. cbn [map]. rewrite !total_cons. apply Rplus_le_compat; [apply H; left; reflexivity|apply IH; intros b Hb; apply H; right; exact Hb].
Qed.
Lemma total_zero {A} (f : A -> R) (l : list A) : (forall a, In a l -> f a = 0) -> total (map f l) = 0.
Proof.
  induction l as [|a l IH]; intros H; [reflexivity|]. cbn [map]. rewrite total_cons, H, IH by (try (left; reflexivity); intros b Hb; apply H; right; exact Hb). ring.
Qed.
Lemma total_scale {A} s (f : A -> R) (l : list A) : total (map (fun a => s * f a) l) = s * total (map f l).
Proof. induction l as [|a l IH]; cbn [map]; [rewrite total_nil; ring|]. rewrite !total_cons, IH. ring. Qed.
Lemma total_plus {A} (f g : A -> R) (l : list A) : total (map (fun a => f a + g a) l) = total (map f l) + total (map g l).
Proof. induction l as [|a l IH]; cbn [map]; [rewrite !total_nil; ring|]. rewrite !total_cons, IH. ring. Qed.
Lemma G_mono l p0 p1 : Forall side_ok l -> 0 < p0 <= p1 -> GX l p1 <= GX l p0 /\ GY l p0 <= GY l p1.
Proof.
  intros H Hp. rewrite Forall_forall in H.
  assert (M : forall s, In s l -> gx (pool_of s) p1 <= gx (pool_of s) p0 /\ gy (pool_of s) p0 <= gy (pool_of s) p1).
  { intros s Hs. pose proof (side_pool s (H s Hs)) as P. apply (trade_monotone (pool_of s) p0 p1); [exact P|exact Hp|apply dxdy_value; [exact P|lra]|apply dxdy_value; [exact P|lra]]. }
  split; apply total_le; intros s Hs; apply M, Hs.
Qed.
Lemma G_sign l p0 : Forall side_ok l -> 0 < p0 ->
  ((forall s, In s l -> p0 <= CpcModel.p (pool_of s)) -> 0 <= GX l p0 /\ GY l p0 <= 0) /\
  ((forall s, In s l -> CpcModel.p (pool_of s) <= p0) -> GX l p0 <= 0 /\ 0 <= GY l p0) /\
  ((forall s, In s l -> CpcModel.p (pool_of s) = p0) -> GX l p0 = 0 /\ GY l p0 = 0).
Proof.
  intros H Hp. rewrite Forall_forall in H.
  assert (M : forall s, In s l -> _) by (intros s Hs; exact (trade_sign (pool_of s) p0 _ _ (side_pool s (H s Hs)) Hp (dxdy_value _ _ (side_pool s (H s Hs)) Hp))).
  assert (Z : total (map (fun _ : side => 0) l) = 0) by (apply total_zero; reflexivity).
  split; [|split]; intros P.
  - split; [rewrite <- Z; apply (total_le (fun _ => 0))|rewrite <- Z; apply (total_le _ (fun _ => 0))]; intros s Hs; apply M; auto.
  - split; [rewrite <- Z; apply (total_le _ (fun _ => 0))|rewrite <- Z; apply (total_le (fun _ => 0))]; intros s Hs; apply M; auto.
  - split; apply total_zero; intros s Hs; apply M; auto; symmetry; auto.
Qed.
Lemma g_strict c p0 : pool_ok c -> 0 < p0 < CpcModel.p c -> 0 < y_act c -> 0 < gx c p0 /\ gy c p0 < 0.
Proof.
  intros H [Hp L] A. destruct (reach c p0 H Hp) as (X & Y & E & HX & HY & K & B1 & B2 & B3 & B4). rewrite dxdy_value in E by assumption.
  assert (EX : gx c p0 = X - x c) by congruence. assert (EY : gy c p0 = Y - y c) by congruence.
  destruct (trade_gain c p0 _ _ H Hp (dxdy_value c p0 H Hp)) as (_ & _ & S). destruct (trade_sign c p0 _ _ H Hp (dxdy_value c p0 H Hp)) as (S1 & _ & _).
  specialize (S1 ltac:(lra)). destruct S as [[Z1 Z2]|[S|S]]; [exfalso|exact S|lra]. assert (EX' : X = x c) by lra. assert (EY' : Y = y c) by lra. rewrite EX', EY' in *.
  assert (Q : y_min c < y c) by (unfold y_min; lra). specialize (B4 Q). unfold CpcModel.p in L. rewrite lt_div in L by exact HX. lra.
Qed.
Lemma total_lt {A} (f g : A -> R) (l : list A) a : (forall a, In a l -> f a <= g a) -> In a l -> f a < g a -> total (map f l) < total (map g l).
Proof.
  induction l as [|b l IH]; intros H Ha L; [destruct Ha|]. cbn [map]. rewrite !total_cons. destruct Ha as [->|Ha].
  - apply Rplus_lt_le_compat; [exact L|]. apply total_le. intros d Hd. apply H. right. exact Hd.
  - apply Rplus_le_lt_compat; [apply H; left; reflexivity|]. apply IH; [intros d Hd; apply H; right; exact Hd|exact Ha|exact L].
Qed.
Lemma G_strict l p0 s : Forall side_ok l -> 0 < p0 -> (forall s, In s l -> p0 < CpcModel.p (pool_of s)) -> In s l -> 0 < y_act (pool_of s) -> 0 < GX l p0 /\ GY l p0 < 0.
Proof.
  intros H Hp P Hs A. rewrite Forall_forall in H. pose proof (g_strict (pool_of s) p0 (side_pool s (H s Hs)) ltac:(split; [exact Hp|apply P; exact Hs]) A) as [S1 S2].
  assert (M : forall s, In s l -> _) by (intros u Hu; exact (trade_sign (pool_of u) p0 _ _ (side_pool u (H u Hu)) Hp (dxdy_value _ _ (side_pool u (H u Hu)) Hp))).
  assert (Z : total (map (fun _ : side => 0) l) = 0) by (apply total_zero; reflexivity). split; rewrite <- Z.
  - apply (total_lt (fun _ => 0) _ l s); [|exact Hs|exact S1]. intros u Hu. apply M; [exact Hu|apply Rlt_le, P, Hu].
  - apply (total_lt _ (fun _ => 0) l s); [|exact Hs|exact S2]. intros u Hu. apply M; [exact Hu|apply Rlt_le, P, Hu].
Qed.

Lemma wrap_curve c : curve_of (wrap c) = c.
Proof. unfold wrap. destruct (isprimary _ _ _); reflexivity. Qed.
Lemma one_pair_inv cs l : Forall proper cs -> one_pair cs = Ret l -> l = map wrap cs /\ cs <> [] /\ Forall side_ok l /\
  exists tx ty, tx <> ty /\ forall s, In s l -> side_tknx s = tx /\ side_tkny s = ty.
Proof.
  intros H. unfold one_pair. set (m := map wrap cs). destruct (as_set (map side_pair m)) as [|P [|Q r]] eqn:E; try discriminate. intros [= <-].
  split; [reflexivity|]. rewrite Forall_forall in H.
  assert (NE : cs <> []) by (intros ->; discriminate E). split; [exact NE|]. split.
  { apply Forall_forall. intros s Hs. apply in_map_iff in Hs as (c & <- & Hc). unfold side_ok. rewrite wrap_curve. apply H, Hc. }
  assert (A : forall s, In s m -> side_pair s = P).
  { intros s Hs. assert (I1 : In (side_pair s) (as_set (map side_pair m))) by (apply nodup_In, in_map, Hs). rewrite E in I1. destruct I1 as [I1|[]]. symmetry. exact I1. }
  assert (T : forall s, In s m -> side_tknx s <> side_tkny s /\ no_slash (side_tknx s) = true /\ no_slash (side_tkny s) = true).
  { intros s Hs. apply in_map_iff in Hs as (c & <- & Hc). destruct (H c Hc) as (_ & N & F1 & F2). apply no_slash_free in F1, F2.
    unfold wrap. destruct (isprimary _ _ _); cbn [side_tknx side_tkny inv_tknx inv_tkny]; auto. }
  destruct m as [|s0 m'] eqn:Em; [destruct cs; [congruence|discriminate Em]|].
  exists (side_tknx s0), (side_tkny s0). destruct (T s0 (or_introl eq_refl)) as (N & F1 & F2). split; [exact N|]. intros s Hs.
  destruct (T s Hs) as (_ & F3 & F4). pose proof (A s Hs) as E1. pose proof (A s0 (or_introl eq_refl)) as E2. rewrite <- E2 in E1. apply pair_inj in E1; assumption.
Qed.
Lemma allowed_mirror c dx dy : pool_ok c -> allowed c dx dy -> allowed (mirror c) dy dx.
Proof.
  intros H (A & B & C & D). destruct (mirror_ok c H) as (_ & _ & EY & EX). destruct (pool_pos c H) as (Hy & Hk & Hx & Hxy & _).
  unfold allowed. rewrite EY, EX. cbn [mirror x_act y_act k]. split; [exact B|]. split; [exact A|]. split; [apply (Rmult_lt_reg_l (x c + dx)); lra|lra].
Qed.
(** the trade on a curve in the orientation of the wrapped curve *)
Definition turn (e : cpc * R * R) : R * R := let '(c, dx, dy) := e in match wrap c with Direct _ => (dx, dy) | Inverted _ => (dy, dx) end.
Lemma turn_flow e tx ty : tx <> ty -> side_tknx (wrap (fst (fst e))) = tx -> side_tkny (wrap (fst (fst e))) = ty -> flow tx e = fst (turn e) /\ flow ty e = snd (turn e).
Proof.
  destruct e as [[c dx] dy]. cbn [fst snd turn flow]. intros N Ex Ey. destruct (wrap c) as [d|d] eqn:W; assert (d = c) by (pose proof (wrap_curve c) as Q; rewrite W in Q; exact Q); subst d;
    cbn [side_tknx side_tkny inv_tknx inv_tkny fst snd] in *; subst tx ty; unfold inv_tknx, inv_tkny in *; split.
  - destruct (string_dec (tknx c) (tknx c)); [|congruence]. destruct (string_dec (tkny c) (tknx c)); [congruence|]. ring.
  - destruct (string_dec (tknx c) (tkny c)); [congruence|]. destruct (string_dec (tkny c) (tkny c)); [|congruence]. ring.
  - destruct (string_dec (tknx c) (tkny c)); [congruence|]. destruct (string_dec (tkny c) (tkny c)); [|congruence]. ring.
  - destruct (string_dec (tknx c) (tknx c)); [|congruence]. destruct (string_dec (tkny c) (tknx c)); [congruence|]. ring.
Qed.
Lemma turn_allowed e : pool_ok (fst (fst e)) -> allowed (fst (fst e)) (snd (fst e)) (snd e) -> allowed (pool_of (wrap (fst (fst e)))) (fst (turn e)) (snd (turn e)).
Proof.
  destruct e as [[c dx] dy]. cbn [fst snd turn]. intros H A. destruct (wrap c) as [d|d] eqn:W; assert (d = c) by (pose proof (wrap_curve c) as Q; rewrite W in Q; exact Q); subst d;
    cbn [pool_of fst snd]; [exact A|apply allowed_mirror; assumption].
Qed.
Lemma sum_best p0 tx ty trades : 0 < p0 -> tx <> ty ->
  (forall e, In e trades -> pool_ok (fst (fst e)) /\ allowed (fst (fst e)) (snd (fst e)) (snd e) /\ side_tknx (wrap (fst (fst e))) = tx /\ side_tkny (wrap (fst (fst e))) = ty) ->
  p0 * GX (map wrap (pools trades)) p0 + GY (map wrap (pools trades)) p0 <= p0 * net trades tx + net trades ty.
Proof.
  intros Hp N. induction trades as [|e l IH]; intros H; [unfold GX, GY; cbn; lra|]. specialize (IH (fun f Hf => H f (or_intror Hf))).
  destruct (H e (or_introl eq_refl)) as (H1 & H2 & H3 & H4). destruct (turn_flow e tx ty N H3 H4) as [F1 F2]. pose proof (turn_allowed e H1 H2) as A.
  unfold GX, GY in *. cbn [pools map net]. rewrite !total_cons, F1, F2.
  assert (P : pool_ok (pool_of (wrap (fst (fst e))))) by (apply side_pool; unfold side_ok; rewrite wrap_curve; exact H1).
  pose proof (g_best _ p0 _ _ P Hp A) as G. fold (pools l). lra.
Qed.
(** the trades at a price, in the orientation of the curves *)
Definition marginal_trade (p0 : R) (c : cpc) : cpc * R * R :=
  match wrap c with Direct _ => (c, gx c p0, gy c p0) | Inverted _ => (c, gy (mirror c) p0, gx (mirror c) p0) end.
Lemma marginal_ok p0 c : pool_ok c -> 0 < p0 -> fst (fst (marginal_trade p0 c)) = c /\ allowed c (snd (fst (marginal_trade p0 c))) (snd (marginal_trade p0 c)) /\
  turn (marginal_trade p0 c) = (gx (pool_of (wrap c)) p0, gy (pool_of (wrap c)) p0).
Proof.
  intros H Hp. unfold marginal_trade. destruct (wrap c) as [d|d] eqn:W; assert (d = c) by (pose proof (wrap_curve c) as Q; rewrite W in Q; exact Q); subst d; cbn [fst snd turn pool_of]; rewrite ?W.
  - split; [reflexivity|]. split; [apply g_allowed; assumption|reflexivity].
  - split; [reflexivity|]. split; [|reflexivity]. destruct (mirror_ok c H) as (P & E & _). pose proof (allowed_mirror _ _ _ P (g_allowed _ p0 P Hp)) as A. rewrite E in A. exact A.
Qed.
Lemma sum_attained p0 tx ty cs : 0 < p0 -> tx <> ty -> (forall c, In c cs -> pool_ok c /\ side_tknx (wrap c) = tx /\ side_tkny (wrap c) = ty) ->
  pools (map (marginal_trade p0) cs) = cs /\ all_allowed (map (marginal_trade p0) cs) /\
  net (map (marginal_trade p0) cs) tx = GX (map wrap cs) p0 /\ net (map (marginal_trade p0) cs) ty = GY (map wrap cs) p0.
Proof.
  intros Hp N. induction cs as [|c cs IH]; intros H; [repeat split; constructor|]. destruct (IH (fun d Hd => H d (or_intror Hd))) as (I1 & I2 & I3 & I4).
  destruct (H c (or_introl eq_refl)) as (H1 & H2 & H3). destruct (marginal_ok p0 c H1 Hp) as (E & A & T).
  assert (F : flow tx (marginal_trade p0 c) = fst (turn (marginal_trade p0 c)) /\ flow ty (marginal_trade p0 c) = snd (turn (marginal_trade p0 c))) by (apply turn_flow; [exact N|rewrite E; exact H2|rewrite E; exact H3]).
  destruct F as [F1 F2]. rewrite T in F1, F2. cbn [fst snd] in F1, F2. unfold GX, GY in *. cbn [map pools net]. fold (pools (map (marginal_trade p0) cs)). split; [rewrite E, I1; reflexivity|]. split.
  - constructor; [rewrite E; exact A|exact I2].
  - rewrite F1, F2, I3, I4, !total_cons. split; reflexivity.
Qed.

(** ** simple_optimizer *)
Lemma rmin_spec l : l <> [] -> In (rmin_list l) l /\ forall v, In v l -> rmin_list l <= v.
Proof.
  destruct l as [|a l]; [congruence|]. intros _. cbn [rmin_list]. revert a. induction l as [|b l IH]; intros a; cbn [fold_left].
  - split; [left; reflexivity|]. intros v [->|[]]. lra.
  - destruct (IH (Rmin a b)) as [I1 I2]. split.
    + destruct I1 as [I1|I1]; [|right; right; exact I1]. rewrite <- I1. unfold Rmin. destruct (Rle_dec a b); [left; reflexivity|right; left; reflexivity].
    + pose proof (I2 _ (or_introl eq_refl)) as M. pose proof (Rmin_l a b). pose proof (Rmin_r a b).
      intros v [->|[->|Hv]]; [lra|lra|]. apply I2. right. exact Hv.
Qed.
Lemma rmax_spec l : l <> [] -> In (rmax_list l) l /\ forall v, In v l -> v <= rmax_list l.
Proof.
  destruct l as [|a l]; [congruence|]. intros _. cbn [rmax_list]. revert a. induction l as [|b l IH]; intros a; cbn [fold_left].
  - split; [left; reflexivity|]. intros v [->|[]]. lra.
  - destruct (IH (Rmax a b)) as [I1 I2]. split.
    + destruct I1 as [I1|I1]; [|right; right; exact I1]. rewrite <- I1. unfold Rmax. destruct (Rle_dec a b); [right; left; reflexivity|left; reflexivity].
    + pose proof (I2 _ (or_introl eq_refl)) as M. pose proof (Rmax_l a b). pose proof (Rmax_r a b).
      intros v [->|[->|Hv]]; [lra|lra|]. apply I2. right. exact Hv.
Qed.
Definition side_prices (l : list side) : list R := map (fun s => CpcModel.p (pool_of s)) l.
Definition low (l : list side) : R := rmin_list (side_prices l) * (99 / 100).
Definition high (l : list side) : R := rmax_list (side_prices l) * (101 / 100).
Lemma ends l : Forall side_ok l -> l <> [] -> 0 < low l < high l /\ (forall s, In s l -> low l < CpcModel.p (pool_of s) < high l).
Proof.
  intros H N. rewrite Forall_forall in H. assert (N' : side_prices l <> []) by (destruct l; [congruence|discriminate]).
  destruct (rmin_spec _ N') as [I1 I2]. destruct (rmax_spec _ N') as [J1 J2]. unfold low, high.
  assert (P : forall v, In v (side_prices l) -> 0 < v) by (intros v Hv; apply in_map_iff in Hv as (s & <- & Hs); apply side_price, H, Hs).
  pose proof (P _ I1). pose proof (J2 _ I1). set (m := rmin_list (side_prices l)) in *. set (M := rmax_list (side_prices l)) in *. clearbody m M.
  split; [lra|]. intros s Hs. assert (Q : In (CpcModel.p (pool_of s)) (side_prices l)) by (apply (in_map (fun s => CpcModel.p (pool_of s))); exact Hs).
  specialize (I2 _ Q). specialize (J2 _ Q). specialize (P _ Q). lra.
Qed.
(** what is searched for a root, and what is reported *)
Definition other (inx : bool) (l : list side) : R -> R := if inx then GY l else GX l.
Definition wanted (inx : bool) (l : list side) : R -> R := if inx then GX l else GY l.
Definition searched (inx : bool) (l : list side) (p0 : R) : res R := let* s := dxdy_sum l p0 in Ret (if inx then snd s else fst s).
Lemma searched_value inx l p0 : Forall side_ok l -> 0 < p0 -> searched inx l p0 = Ret (other inx l p0).
Proof. intros H Hp. unfold searched. rewrite sum_value by assumption. destruct inx; reflexivity. Qed.
Lemma so_unfold n cs target l tx ty : Forall side_ok l -> l <> [] -> one_pair cs = Ret l -> tx <> ty -> (forall s, In s l -> side_tknx s = tx /\ side_tkny s = ty) ->
  (target = tx \/ target = ty) -> let inx := String.eqb target tx in
  simple_optimizer n cs target = let* o := goalseek n (searched inx l) (low l) (high l) in
    match o with None => Ret None | Some o =>
      let p := match o with Plain c => c | Found c => c end in
      let* s := dxdy_sum l p in
      match o with Plain _ => Raise AttributeError | Found _ => Ret (Some (mkSO (if inx then fst s else snd s) p l)) end end.
Proof.
  intros H N E T A Ht inx. unfold simple_optimizer. rewrite E. cbn [rbind].
  rewrite (rmap_ok _ (fun s => CpcModel.p (pool_of s))) by (intros s Hs; apply side_price; rewrite Forall_forall in H; apply H, Hs). cbn [rbind].
  destruct l as [|s0 l']; [congruence|]. destruct (A s0 (or_introl eq_refl)) as [-> ->].
  assert (G : String.eqb target tx || String.eqb target ty = true) by (destruct Ht as [->| ->]; rewrite String.eqb_refl; [reflexivity|apply orb_true_r]). rewrite G. cbn [negb].
  reflexivity.
Qed.
Lemma other_ends inx l : Forall side_ok l -> l <> [] -> other inx l (low l) * other inx l (high l) <= 0.
Proof.
  intros H N. destruct (ends l H N) as [[P1 P2] P3]. destruct (G_sign l (low l) H P1) as (S1 & _ & _). destruct (G_sign l (high l) H ltac:(lra)) as (_ & S2 & _).
  destruct S1 as [A1 A2]; [intros s Hs; apply Rlt_le, P3, Hs|]. destruct S2 as [B1 B2]; [intros s Hs; apply Rlt_le, P3, Hs|].
  destruct inx; cbn [other].
  - pose proof (Rmult_le_compat_l (GY l (high l)) (GY l (low l)) 0 B2 A2). lra.
  - pose proof (Rmult_le_compat_l (GX l (low l)) (GX l (high l)) 0 A1 B1). lra.
Qed.
Lemma so_stops cs target l tx ty : Forall side_ok l -> l <> [] -> one_pair cs = Ret l -> tx <> ty -> (forall s, In s l -> side_tknx s = tx /\ side_tkny s = ty) ->
  (target = tx \/ target = ty) -> exists N, (forall n, (N < n)%nat -> simple_optimizer n cs target = Raise AttributeError) \/
    exists r, low l <= so_p r <= high l /\ so_curves r = l /\ so_result_ r = wanted (String.eqb target tx) l (so_p r) /\ forall n, (N < n)%nat -> simple_optimizer n cs target = Ret (Some r).
Proof.
  intros H N E T A Ht. set (inx := String.eqb target tx). destruct (ends l H N) as [[P1 P2] P3].
  assert (F : forall t, low l <= t <= high l -> searched inx l t = Ret (other inx l t)) by (intros t Hq; apply searched_value; [exact H|lra]).
  destruct (goalseek_stops (searched inx l) (other inx l) (low l) (high l) ltac:(lra) F (other_ends inx l H N)) as (M & o & Ho).
  exists M. assert (B : low l <= match o with Plain c => c | Found c => c end <= high l).
  { specialize (Ho (S M) ltac:(lia)). unfold goalseek in Ho. rewrite !F in Ho by lra. cbn [rbind] in Ho. rewrite rlt_false in Ho by (apply other_ends; assumption).
    revert Ho. clear - F P1 P2. set (f := searched inx l) in *. set (g := other inx l) in *. generalize (S M) as n. intros n.
    assert (Q : forall n a b, low l <= a -> b <= high l -> a <= b -> seek n f a b = Ret (Some o) -> low l <= match o with Plain c => c | Found c => c end <= high l); [|apply Q; lra].
    clear n. induction n as [|n IH]; intros a b Ha Hb L; cbn [seek]; [discriminate|]. destruct (rlt GOALSEEKEPS (b - a)); [|intros [= <-]; lra].
    rewrite !F by lra. cbn [rbind]. destruct (req (g ((a + b) / 2)) 0); [intros [= <-]; lra|]. destruct (rlt _ 0); apply IH; lra. }
  destruct o as [c|c].
  - left. intros n Hn. rewrite (so_unfold n cs target l tx ty H N E T A Ht). cbv zeta. fold inx. rewrite Ho by exact Hn. cbn [rbind]. rewrite sum_value by (try assumption; lra). reflexivity.
  - right. exists (mkSO (wanted inx l c) c l). cbn [so_p so_curves so_result_]. split; [exact B|]. split; [reflexivity|]. split; [reflexivity|]. intros n Hn.
    rewrite (so_unfold n cs target l tx ty H N E T A Ht). cbv zeta. fold inx. rewrite Ho by exact Hn. cbn [rbind]. rewrite sum_value by (try assumption; lra). cbn [rbind fst snd].
    destruct inx; reflexivity.
Qed.
Lemma so_root n cs target l tx ty r : Forall side_ok l -> l <> [] -> one_pair cs = Ret l -> tx <> ty -> (forall s, In s l -> side_tknx s = tx /\ side_tkny s = ty) ->
  (target = tx \/ target = ty) -> (exists s, In s l /\ 0 < y_act (pool_of s)) -> simple_optimizer n cs target = Ret (Some r) ->
  let inx := String.eqb target tx in
  so_result_ r = wanted inx l (so_p r) /\ 0 < so_p r /\ low l <= so_p r <= high l /\ exists q, low l <= q <= high l /\ Rabs (so_p r - q) <= GOALSEEKEPS / 2 /\ other inx l q = 0.
Proof.
  intros H N E T A Ht (s & Hs & Hy) S inx. rewrite (so_unfold n cs target l tx ty H N E T A Ht) in S. cbv zeta in S. fold inx in S.
  destruct (ends l H N) as [[P1 P2] P3].
  assert (F : forall t, low l <= t <= high l -> searched inx l t = Ret (other inx l t)) by (intros t Hq; apply searched_value; [exact H|lra]).
  assert (NZ : other inx l (low l) <> 0).
  { destruct (G_strict l (low l) s H P1 (fun u Hu => proj1 (P3 u Hu)) Hs Hy) as [G1 G2]. unfold other. destruct inx; lra. }
  destruct (goalseek n (searched inx l) (low l) (high l)) as [[o|]|e] eqn:G; cbn [rbind] in S; try discriminate.
  apply (goalseek_root _ (other inx l)) in G; [|lra|exact F|intros t Hq; unfold other; destruct inx; apply G_cont; try exact H; lra|exact NZ].
  destruct o as [c|c].
  - destruct (dxdy_sum l c); cbn [rbind] in S; discriminate.
  - destruct G as (q & Q1 & Q2 & Q3 & Q4). rewrite sum_value in S by (try assumption; lra). cbn [rbind fst snd] in S. assert (Er : r = mkSO (if inx then GX l c else GY l c) c l) by congruence. rewrite Er. cbn [so_p so_result_].
    split; [unfold wanted; destruct inx; reflexivity|]. split; [lra|]. split; [lra|]. exists q. split; [lra|]. split; assumption.
Qed.
Lemma so_agree cs target l tx ty P n : Forall side_ok l -> l <> [] -> one_pair cs = Ret l -> tx <> ty -> (forall s, In s l -> side_tknx s = tx /\ side_tkny s = ty) ->
  (target = tx \/ target = ty) -> (forall s, In s l -> CpcModel.p (pool_of s) = P) -> GOALSEEKEPS < P / 50 -> simple_optimizer (S n) cs target = Raise AttributeError.
Proof.
  intros H N E T A Ht AP L. rewrite (so_unfold _ cs target l tx ty H N E T A Ht). cbv zeta. set (inx := String.eqb target tx).
  assert (N' : side_prices l <> []) by (destruct l; [congruence|discriminate]).
  assert (EA : low l = P * (99 / 100)). { unfold low. f_equal. destruct (rmin_spec _ N') as [I1 _]. apply in_map_iff in I1 as (s & <- & Hs). apply AP, Hs. }
  assert (EB : high l = P * (101 / 100)). { unfold high. f_equal. destruct (rmax_spec _ N') as [I1 _]. apply in_map_iff in I1 as (s & <- & Hs). apply AP, Hs. }
  pose proof eps_pos. assert (HP : 0 < P) by lra. unfold goalseek. rewrite !searched_value by (try assumption; rewrite ?EA, ?EB; lra). cbn [rbind].
  rewrite rlt_false by (apply other_ends; assumption). cbn [seek]. rewrite rlt_true by (rewrite EA, EB; lra).
  replace ((low l + high l) / 2) with P by (rewrite EA, EB; field). rewrite searched_value by (try assumption; lra). cbn [rbind].
  destruct (G_sign l P H HP) as (_ & _ & Z). destruct (Z AP) as [Z1 Z2]. rewrite req_true by (unfold other; destruct inx; assumption). cbn [rbind].
  rewrite sum_value by (try assumption; lra). reflexivity.
Qed.
Lemma so_short cs target l tx ty n : Forall side_ok l -> l <> [] -> one_pair cs = Ret l -> tx <> ty -> (forall s, In s l -> side_tknx s = tx /\ side_tkny s = ty) ->
  (target = tx \/ target = ty) -> high l - low l <= GOALSEEKEPS -> exists r, simple_optimizer (S n) cs target = Ret (Some r) /\ so_p r = (low l + high l) / 2.
Proof.
  intros H N E T A Ht L. destruct (ends l H N) as [[P1 P2] P3]. rewrite (so_unfold _ cs target l tx ty H N E T A Ht). cbv zeta. set (inx := String.eqb target tx).
  rewrite (goalseek_short _ (other inx l)) by (try exact L; try (apply searched_value; [exact H|lra]); apply other_ends; assumption). cbn [rbind].
  rewrite sum_value by (try assumption; lra). cbn [rbind]. eexists. split; reflexivity.
Qed.
