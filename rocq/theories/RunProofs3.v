(** Following a price path. *)
From Coq Require Import Reals Lra Lia Bool String List Arith.
From Verif Require Import CurveModel CurveSpec CurveProofs CurveProofs2 CurveProofs3 OrderModel StrategyModel RunModel RunSpec RunProofs RunProofs2.
Import ListNotations.
Local Open Scope R_scope.

(** ** Rescaling keeps a strategy tradable *)
Lemma rmin_scale f a b : 0 < f -> Rmin (a * f) (b * f) = Rmin a b * f.
Proof. intros F. unfold Rmin. destruct (Rle_dec a b) as [L|L], (Rle_dec (a * f) (b * f)) as [M|M]; try reflexivity; exfalso.
  - apply M. apply Rmult_le_compat_r; lra.
  - apply L. apply (Rmult_le_reg_r f); assumption. Qed.
Lemma rmax_scale f a b : 0 < f -> Rmax (a * f) (b * f) = Rmax a b * f.
Proof. intros F. unfold Rmax. destruct (Rle_dec a b) as [L|L], (Rle_dec (a * f) (b * f)) as [M|M]; try reflexivity; exfalso.
  - apply M. apply Rmult_le_compat_r; lra.
  - apply L. apply (Rmult_le_reg_r f); assumption. Qed.
Lemma rescale_ready s q : tradable s -> 0 < q -> exists s', rescale_strat s q 100 false = Ret s' /\ ready s' /\ (separated s -> separated s').
Proof.
  intros (R & Hy) Hq. unfold rescale_strat. destruct (rescale s) eqn:E; cbn [negb andb]; [|exists s; auto].
  rewrite rdiv_ok by lra. cbn [rbind]. set (f := q / 100). assert (F : 0 < f) by (unfold f; lra). eexists. split; [reflexivity|].
  destruct R as (S1 & S2 & B1 & B2 & A1 & A2 & SS & BS).
  assert (C : 0 <= amount (if is_zero (amt_csh s) then Some MIN_SEED_AMT else amt_csh s)). { destruct (is_zero (amt_csh s)); [|exact A2]. cbn. unfold MIN_SEED_AMT. left. apply Rinv_0_lt_compat. apply pow_lt. lra. }
  unfold ready, separated, sell_side, buy_side, sell_lo, sell_hi, buy_lo, buy_hi in *. unfold construct. cbn [p_sell_a p_sell_b p_buy_a p_buy_b amt_rsk amt_csh psell_marginal pbuy_marginal y_int_sell y_int_buy].
  rewrite !rmin_scale, !rmax_scale by exact F. rewrite (Hy eq_refl) in *. cbn [omul]. split.
  - repeat split.
    + apply Rmult_lt_0_compat; assumption. + apply Rmult_lt_compat_r; assumption. + apply Rmult_lt_0_compat; assumption. + apply Rmult_lt_compat_r; assumption. + exact A1. + exact C.
    + destruct (psell_marginal s) as [m|]; cbn [omul]; [|exact SS]. destruct (y_int_sell s); [contradiction|]. split; [apply Rmult_le_compat_r; lra|apply Rmult_lt_compat_r; lra].
    + destruct (pbuy_marginal s) as [m|]; cbn [omul]; [|exact I]. split; [apply Rmult_lt_compat_r; lra|apply Rmult_le_compat_r; lra].
  - intros P. apply Rmult_le_compat_r; lra.
Qed.

(** ** mapm *)
Lemma mapm_ok {A B} (f : A -> res B) (P : A -> B -> Prop) l : Forall (fun a => exists b, f a = Ret b /\ P a b) l -> exists m, mapm f l = Ret m /\ Forall2 P l m.
Proof. induction 1 as [|a l (b & E & H) _ (m & Em & Hm)]; [exists []; auto|]. exists (b :: m). cbn [mapm]. rewrite E, Em. auto. Qed.
Lemma mapm_app {A B} (f : A -> res B) l1 l2 : mapm f (l1 ++ l2) = let* a := mapm f l1 in let* b := mapm f l2 in Ret (a ++ b)%list.
Proof. induction l1 as [|a l1 IH]; cbn [mapm app rbind]; [destruct (mapm f l2); reflexivity|]. destruct (f a); [|reflexivity]. cbn [rbind]. rewrite IH. destruct (mapm f l1); [|reflexivity]. cbn [rbind]. destruct (mapm f l2); reflexivity. Qed.
Lemma mapm_length {A B} (f : A -> res B) l m : mapm f l = Ret m -> List.length m = List.length l.
Proof. revert m. induction l as [|a l IH]; intros m; cbn [mapm]; [intros [= <-]; reflexivity|]. destruct (f a); [|discriminate]. cbn [rbind]. destruct (mapm f l); [|discriminate]. cbn [rbind]. intros [= <-]. cbn. f_equal. apply IH. reflexivity. Qed.

Definition rsk_of (bs : list book) : R := total (map (fun b => c_y (b_rsk b)) bs).
Definition csh_of (bs : list book) : R := total (map (fun b => c_y (b_csh b)) bs).
Lemma rsk_cons b bs : rsk_of (b :: bs) = c_y (b_rsk b) + rsk_of bs. Proof. reflexivity. Qed.
Lemma csh_cons b bs : csh_of (b :: bs) = c_y (b_csh b) + csh_of bs. Proof. reflexivity. Qed.
Lemma marg_rows cs : Forall sound cs -> exists l, mapm p_marg cs = Ret l /\ List.length l = List.length cs.
Proof. induction 1 as [|c cs V _ (l & E & L)]; [exists []; auto|]. destruct (p_marg_sound c V) as [q Q]. exists (Some q :: l). cbn [mapm]. rewrite Q, E. cbn. auto. Qed.
Lemma observe_ok bs : Forall good_book bs -> exists mb ms, observe bs = Ret (mkPoint (rsk_of bs) (csh_of bs) mb ms) /\ List.length mb = List.length bs /\ List.length ms = List.length bs.
Proof.
  intros G. unfold observe. destruct (marg_rows (map b_rsk bs)) as (mb & E1 & L1). { apply Forall_map. eapply Forall_impl; [|exact G]. intros b H. apply H. }
  destruct (marg_rows (map b_csh bs)) as (ms & E2 & L2). { apply Forall_map. eapply Forall_impl; [|exact G]. intros b H. apply H. }
  exists mb, ms. rewrite E1, E2. cbn [rbind]. rewrite map_length in *. auto.
Qed.
(** ** one step of all strategies *)
Lemma fits_step s p b : 0 < p -> fits s b -> exists b', trade_book p b = Ret b' /\ fits s b' /\
  exists d x e z, c_y (b_rsk b') = c_y (b_rsk b) - d + z /\ c_y (b_csh b') = c_y (b_csh b) + x - e /\ 0 <= d <= c_y (b_rsk b) /\ 0 <= e <= c_y (b_csh b) + x /\ 0 <= x /\ 0 <= z /\
    x <= p * d /\ d * sell_lo s <= x /\ p * z <= e /\ e <= buy_hi s * z /\ (p <= sell_lo s -> d = 0) /\ (buy_hi s <= p -> e = 0).
Proof.
  intros Hp (G & T1 & T2 & L1 & L2). destruct (book_amounts p b Hp G) as (b' & E & G' & S1 & S2 & d & x & e & z & Y1 & Y2 & Hd & He & Hx & Hz & I1 & I2 & I3 & I4 & I5 & I6).
  exists b'. split; [exact E|]. split. { repeat split; try apply G'; rewrite ?(top_same _ _ S1), ?(top_same _ _ S2); try assumption; [destruct S1 as (_ & S1 & _); rewrite S1; exact L1|destruct S2 as (_ & S2 & _); rewrite S2; exact L2]. }
  assert (P : 0 < sell_lo s). { rewrite <- (Rinv_inv (sell_lo s)), <- T1. apply Rinv_0_lt_compat. apply top_pos. apply G. }
  exists d, x, e, z. rewrite T1, T2 in *. do 7 (split; [assumption|]).
  split. { apply (Rmult_le_reg_l (/ sell_lo s)); [apply Rinv_0_lt_compat; exact P|]. replace (/ sell_lo s * (d * sell_lo s)) with d by (field; lra). exact I2. }
  split; [exact I3|]. split; [exact I4|]. split.
  - intros L. apply Rle_antisym; [|apply Hd]. apply Rnot_lt_le. intros C. specialize (I5 C). assert (/ sell_lo s <= / p) by (apply Rinv_le_contravar; lra). lra.
  - intros L. apply Rle_antisym; [|apply He]. apply Rnot_lt_le. intros C. specialize (I6 C). lra.
Qed.
Lemma step_all l p bs : 0 < p -> Forall2 fits l bs -> exists bs', mapm (trade_book p) bs = Ret bs' /\ Forall2 fits l bs' /\ 0 <= rsk_of bs' /\ 0 <= csh_of bs' /\
  p * rsk_of bs' + csh_of bs' <= p * rsk_of bs + csh_of bs /\
  (forall m, Forall (fun s => buy_hi s <= m <= sell_lo s) l -> m * rsk_of bs + csh_of bs <= m * rsk_of bs' + csh_of bs') /\
  (Forall (fun s => p <= sell_lo s) l -> rsk_of bs <= rsk_of bs' /\ csh_of bs' <= csh_of bs) /\
  (Forall (fun s => buy_hi s <= p) l -> rsk_of bs' <= rsk_of bs /\ csh_of bs <= csh_of bs').
Proof.
  intros Hp. induction 1 as [|s b l bs F Fs IH].
  { exists []. split; [reflexivity|]. split; [constructor|]. cbn. repeat split; intros; lra. }
  destruct (fits_step s p b Hp F) as (b' & E & F' & d & x & e & z & Y1 & Y2 & Hd & He & Hx & Hz & I1 & I2 & I3 & I4 & I5 & I6). destruct IH as (bs' & Es & Fs' & N1 & N2 & K1 & K2 & K3 & K4).
  exists (b' :: bs'). cbn [mapm]. rewrite E, Es. split; [reflexivity|]. split; [constructor; assumption|]. rewrite !rsk_cons, !csh_cons, Y1, Y2.
  assert (X0 : d = 0 -> x = 0) by (intros ->; lra). assert (Z0 : e = 0 -> z = 0). { intros ->. apply Rle_antisym; [|exact Hz]. apply (Rmult_le_reg_l p); [exact Hp|]. lra. }
  split; [lra|]. split; [lra|]. split; [lra|]. split; [|split].
  - intros m H. inversion H as [|? ? Hm Hms]; subst. specialize (K2 m Hms).
    assert (d * m <= d * sell_lo s) by (apply Rmult_le_compat_l; lra). assert (buy_hi s * z <= m * z) by (apply Rmult_le_compat_r; lra). lra.
  - intros H. inversion H as [|? ? Hm Hms]; subst. specialize (K3 Hms). specialize (I5 Hm). specialize (X0 I5). lra.
  - intros H. inversion H as [|? ? Hm Hms]; subst. specialize (K4 Hms). specialize (I6 Hm). specialize (Z0 I6). lra.
Qed.
(** ** the whole path *)
Fixpoint chain (Rel : point -> R -> point -> Prop) (pt : point) (pts : list point) (path : list R) : Prop :=
  match pts, path with [], [] => True | q :: pts, p :: path => Rel pt p q /\ chain Rel q pts path | _, _ => False end.
Definition stepped (l : list strategy) (a : point) (p : R) (b : point) : Prop :=
  0 <= pt_rsk b /\ 0 <= pt_csh b /\ p * pt_rsk b + pt_csh b <= p * pt_rsk a + pt_csh a /\
  (forall m, Forall (fun s => buy_hi s <= m <= sell_lo s) l -> m * pt_rsk a + pt_csh a <= m * pt_rsk b + pt_csh b) /\
  (Forall (fun s => p <= sell_lo s) l -> pt_rsk a <= pt_rsk b /\ pt_csh b <= pt_csh a) /\
  (Forall (fun s => buy_hi s <= p) l -> pt_rsk b <= pt_rsk a /\ pt_csh a <= pt_csh b) /\
  List.length (pt_mbuy b) = List.length l /\ List.length (pt_msell b) = List.length l.
Lemma fits_good l bs : Forall2 fits l bs -> Forall good_book bs.
Proof. induction 1 as [|s b l bs F _ IH]; constructor; [apply F|exact IH]. Qed.
Lemma fits_len l bs : Forall2 fits l bs -> List.length l = List.length bs.
Proof. induction 1; cbn; congruence. Qed.
Lemma follow_ok l : forall path bs pt, Forall (fun p => 0 < p) path -> Forall2 fits l bs -> observe bs = Ret pt -> exists pts, follow bs path = Ret pts /\ chain (stepped l) pt pts path.
Proof.
  induction path as [|p path IH]; intros bs pt P F O; [exists []; cbn; auto|]. inversion P as [|? ? Hp Hps]; subst.
  destruct (step_all l p bs Hp F) as (bs' & E & F' & S). destruct (observe_ok bs' (fits_good _ _ F')) as (mb & ms & O' & L1 & L2). destruct (IH bs' _ Hps F' O') as (pts & E2 & C).
  cbn [follow]. rewrite E. cbn [rbind]. rewrite O'. cbn [rbind]. rewrite E2. cbn [rbind]. eexists. split; [reflexivity|]. cbn [chain]. split; [|exact C].
  destruct (observe_ok bs (fits_good _ _ F)) as (mb0 & ms0 & O0 & _). rewrite O in O0. injection O0 as ->. unfold stepped. cbn [pt_rsk pt_csh pt_mbuy pt_msell]. destruct S as (N1 & N2 & K1 & K2 & K3 & K4).
  assert (LL : List.length bs' = List.length l) by (symmetry; apply (fits_len _ _ F')). rewrite L1, L2, LL. auto 10.
Qed.
Lemma chain_length Rel : forall pts pt path, chain Rel pt pts path -> List.length pts = List.length path.
Proof. induction pts as [|q pts IH]; intros pt [|p path]; cbn; try tauto. intros (_ & H). f_equal. eapply IH. exact H. Qed.
Lemma chain_nth Rel d : forall pts pt path i, chain Rel pt pts path -> (i < List.length pts)%nat -> Rel (nth i (pt :: pts) d) (nth i path 0) (nth (S i) (pt :: pts) d).
Proof. induction pts as [|q pts IH]; intros pt [|p path] i; cbn [chain List.length]; try tauto; try lia. intros (H & C) L. destruct i as [|i]; [exact H|]. cbn [nth]. apply (IH q path i C). lia. Qed.

(** ** run_sim *)
Lemma usable_pos path : path <> [] -> Forall (fun p => 0 < p) path -> usable path = Ret path.
Proof.
  intros N F. destruct path as [|p path]; [congruence|]. inversion F as [|? ? H1 H2]; subst. cbn [usable filter]. rewrite (rlt_true 0 p H1). reflexivity.
Qed.
Lemma enter_all l : Forall ready l -> exists bs, mapm enter l = Ret bs /\ Forall2 fits l bs /\ rsk_of bs = all_rsk l /\ csh_of bs = all_csh l.
Proof.
  induction 1 as [|s l R _ (bs & E & F & A & B)]; [exists []; cbn; auto|]. destruct (enter_ok s R) as (b & Eb & Fb & Y1 & Y2 & _). exists (b :: bs). cbn [mapm]. rewrite Eb, E. cbn [rbind].
  rewrite rsk_cons, csh_cons, A, B, Y1, Y2. auto.
Qed.
Lemma same_pair_ok s0 l : Forall (fun s => slashpair s = slashpair s0) l -> forallb (fun s => String.eqb (slashpair s) (slashpair s0)) l = true.
Proof. induction 1 as [|s l H _ IH]; [reflexivity|]. cbn [forallb]. rewrite H, String.eqb_refl. exact IH. Qed.
Definition values (pts : list point) (path : list R) : list R := zip_with Rplus (zip_with Rmult (map pt_rsk pts) path) (map pt_csh pts).
Lemma values_nth d : forall pts path i, List.length pts = List.length path -> (i < List.length pts)%nat -> nth i (values pts path) 0 = pt_rsk (nth i pts d) * nth i path 0 + pt_csh (nth i pts d).
Proof. unfold values. induction pts as [|a pts IH]; intros [|p path] i L H; cbn in *; try lia. destruct i as [|i]; [reflexivity|]. apply IH; lia. Qed.
Lemma values_length : forall pts path, List.length pts = List.length path -> List.length (values pts path) = List.length path.
Proof. unfold values. induction pts as [|a pts IH]; intros [|p path] L; cbn in *; try lia. f_equal. apply IH. lia. Qed.
Lemma run_shape strats path shift : strats <> [] -> Forall (fun s => slashpair s = slashpair (hd s strats)) strats -> path <> [] -> Forall (fun p => 0 < p) path -> 0 < 1 + amount shift -> Forall tradable strats ->
  exists l bs pt pts, run_sim strats path shift = Ret (mkResults l path (map pt_rsk (pt :: pts)) (map pt_csh (pt :: pts)) (values (pt :: pts) path) (map (fun p => pt_rsk pt * p + pt_csh pt) path)
      (splice (map pt_mbuy (pt :: pts))) (splice (map pt_msell (pt :: pts)))) /\
    Forall2 (fun s s' => rescale_strat s (hd 0 path * (1 + amount shift)) 100 false = Ret s' /\ ready s' /\ (separated s -> separated s')) strats l /\
    mapm enter l = Ret bs /\ Forall2 fits l bs /\ observe bs = Ret pt /\ pt_rsk pt = all_rsk l /\ pt_csh pt = all_csh l /\ List.length (pt_mbuy pt) = List.length l /\ List.length (pt_msell pt) = List.length l /\
    follow bs (tl path) = Ret pts /\ chain (stepped l) pt pts (tl path).
Proof.
  intros N SP NP P Hs T. assert (Q : 0 < hd 0 path * (1 + amount shift)). { apply Rmult_lt_0_compat; [|exact Hs]. destruct path; [congruence|]. inversion P; assumption. }
  destruct (mapm_ok (fun s => rescale_strat s (hd 0 path * (1 + amount shift)) 100 false) (fun s s' => rescale_strat s (hd 0 path * (1 + amount shift)) 100 false = Ret s' /\ ready s' /\ (separated s -> separated s')) strats) as (l & El & Fl).
  { eapply Forall_impl; [|exact T]. intros s H. destruct (rescale_ready s _ H Q) as (s' & E & X). exists s'. auto. }
  assert (Rl : Forall ready l) by (clear -Fl; induction Fl as [|s s' a b (_ & H & _) _ IH]; constructor; assumption).
  destruct (enter_all l Rl) as (bs & Eb & Fb & Y1 & Y2). destruct (observe_ok bs (fits_good _ _ Fb)) as (mb & ms & O & L1 & L2). rewrite <- (fits_len _ _ Fb) in L1, L2.
  destruct (follow_ok l (tl path) bs _ ltac:(destruct path; [constructor|inversion P; assumption]) Fb O) as (pts & Ef & C).
  exists l, bs, (mkPoint (rsk_of bs) (csh_of bs) mb ms), pts. cbn [pt_rsk pt_csh pt_mbuy pt_msell].
  split; [|auto 12]. unfold run_sim. destruct strats as [|s0 strats]; [congruence|]. rewrite (same_pair_ok s0 (s0 :: strats)) by exact SP. cbn [negb].
  rewrite usable_pos by assumption. cbn [rbind]. change (match shift with Some s => s | None => 0 end) with (amount shift). rewrite El. cbn [rbind]. rewrite Eb. cbn [rbind]. rewrite O. cbn [rbind]. rewrite Ef. reflexivity.
Qed.
