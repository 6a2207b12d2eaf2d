(** Theorems about strategies: prices, value and rescaling (C55), validation and seeding (C56),
    ranges and Uniswap positions (C80), records (C81). *)
From Coq Require Import Reals Lra Bool String List.
From Verif Require Import CurveModel CurveSpec CurveProofs StrategyModel StrategyProofs.
Import ListNotations.
Local Open Scope R_scope.

(** ** C55 *)
(** a pair of widths and a pair of utilisations *)
Theorem C55_mgw : forall m g ws wb us ub ar ac r c, 0 < m -> 0 < g -> 0 < ws <= 1 -> 0 < wb <= 1 -> 0 <= us <= 1 -> 0 <= ub <= 1 ->
  exists s, from_mgw m g (Tuple [Some ws; Some wb]) (Tuple [Some us; Some ub]) ar ac r c = Ret s /\
    p_buy_b s < p_buy_a s < m /\ m < p_sell_a s < p_sell_b s /\ p_buy_a s * p_sell_a s = m * m /\ p_sell_a s = p_buy_a s * (1 + g / 2) ^ 2 /\
    p_sell_b s = p_sell_a s * (1 + Rmin ws (999 / 1000)) /\ p_buy_a s = p_buy_b s * (1 + Rmin wb (999 / 1000)) /\
    (us = 0 -> psell_marginal s = None) /\ (ub = 0 -> pbuy_marginal s = None) /\
    (0 < us -> exists p, psell_marginal s = Some p /\ p - p_sell_a s = Rmin us (999 / 1000) * (p_sell_b s - p_sell_a s) /\ p_sell_a s < p < p_sell_b s) /\
    (0 < ub -> exists p, pbuy_marginal s = Some p /\ p_buy_a s - p = Rmin ub (999 / 1000) * (p_buy_a s - p_buy_b s) /\ p_buy_b s < p < p_buy_a s) /\
    y_int_sell s = None /\ y_int_buy s = None /\ rescale s = true /\ rescaled_fctr s = None.
Proof. exact mgw_order. Qed.
(** single numbers stand for pairs; a zero width or gap is replaced by 0.0001 *)
Theorem C55_single : forall m g w u ar ac r c, 0 <= g -> 0 <= w <= 1 -> 0 <= u <= 1 -> exists w' g', (w = 0 /\ w' = 1 / 10000 \/ w <> 0 /\ w' = w) /\ (g = 0 /\ g' = 1 / 10000 \/ g <> 0 /\ g' = g) /\
  from_mgw m g (Scalar (Some w)) (Scalar (Some u)) ar ac r c = from_mgw m g' (Tuple [Some w'; Some w']) (Tuple [Some u; Some u]) ar ac r c.
Proof.
  intros m g w u ar ac r c Hg Hw Hu. exists (if req w 0 then 1 / 10000 else w), (if req g 0 then 1 / 10000 else g).
  split; [unfold req; destruct (Req_EM_T w 0); auto|]. split; [unfold req; destruct (Req_EM_T g 0); auto|]. apply mgw_scalar; assumption.
Qed.
(** only widths and utilisations up to 1 are accepted, and no zero in a pair of widths *)
Theorem C55_domain : forall m g w u ar ac r c s, from_mgw m g w u ar ac r c = Ret s ->
  g <> -2 /\
  ((exists x, w = Scalar (Some x) /\ 0 <= x <= 1) \/ (exists x y, w = Tuple [Some x; Some y] /\ 0 < x <= 1 /\ 0 < y <= 1)) /\
  (u = Scalar None \/ u = Tuple [] \/ (exists x, u = Scalar (Some x) /\ 0 <= x <= 1) \/ (exists x y, u = Tuple [x; y] /\ (forall v, x = Some v \/ y = Some v -> 0 <= v <= 1))).
Proof. exact mgw_domain. Qed.
Theorem C55_refused : forall m g ar ac r c,
  (forall w, w < 0 \/ 1 < w -> from_mgw m g (Scalar (Some w)) (Scalar (Some 0)) ar ac r c = Raise ValueError) /\
  (forall w u, u < 0 \/ 1 < u -> from_mgw m g w (Scalar (Some u)) ar ac r c = Raise ValueError) /\
  (forall w u1 u2, (u1 < 0 \/ 1 < u1) \/ (u2 < 0 \/ 1 < u2) -> from_mgw m g w (Tuple [Some u1; Some u2]) ar ac r c = Raise TypeError) /\
  (g <> -2 -> forall w1 w2, ~ (0 < w1 <= 1 /\ 0 < w2 <= 1) -> from_mgw m g (Tuple [Some w1; Some w2]) (Scalar (Some 0)) ar ac r c = Raise TypeError).
Proof. exact mgw_refused. Qed.
(** a negative gap is accepted and gives overlapping ranges *)
Theorem C55_negative_gap_refuted : exists g s, g < 0 /\ from_mgw 100 g (Scalar (Some (1 / 10))) (Scalar (Some 0)) None None None None = Ret s /\ p_sell_a s < p_buy_a s.
Proof.
  exists (-1). unfold from_mgw. cbn [p_or_default both]. rewrite validate_zero. unfold or_default. rewrite !req_false by lra. rewrite validate_ok by lra. cbn [rbind fst snd].
  rewrite Rmin_left by lra. rewrite rdiv_ok by lra. cbn [rbind]. rewrite rdiv_ok by lra. cbn [rbind]. eexists. split; [lra|]. split; [reflexivity|]. cbn [p_sell_a p_buy_a construct]. lra.
Qed.
(** the total value is split exactly, once *)
Theorem C55_tvl : forall s spot cashpc tvl, 
  (amt_rsk s = None -> amt_csh s = None -> spot <> 0 -> exists s' x y, set_tvl s spot cashpc tvl = Ret s' /\ amt_rsk s' = Some x /\ amt_csh s' = Some y /\ x * spot + y = tvl /\ y = cashpc * tvl /\
     p_sell_a s' = p_sell_a s /\ p_sell_b s' = p_sell_b s /\ p_buy_a s' = p_buy_a s /\ p_buy_b s' = p_buy_b s /\ psell_marginal s' = psell_marginal s /\ pbuy_marginal s' = pbuy_marginal s /\
     y_int_sell s' = y_int_sell s /\ y_int_buy s' = y_int_buy s /\ rescale s' = rescale s /\ rescaled_fctr s' = rescaled_fctr s /\
     forall a b c, set_tvl s' a b c = Ret s') /\
  (amt_rsk s = None -> amt_csh s = None -> spot = 0 -> set_tvl s spot cashpc tvl = Raise ZeroDivision) /\
  (amt_rsk s <> None \/ amt_csh s <> None -> set_tvl s spot cashpc tvl = Ret s).
Proof.
  intros s spot cashpc tvl. unfold set_tvl. split; [|split].
  - intros -> -> H. rewrite rdiv_ok by exact H. cbn [rbind]. eexists _, _, _. split; [reflexivity|]. cbn. split; [reflexivity|]. split; [reflexivity|]. split; [field; exact H|]. split; [ring|]. repeat split.
  - intros -> -> ->. unfold rdiv. rewrite req_true by reflexivity. reflexivity.
  - intros [H|H]; destruct (amt_rsk s); try reflexivity; destruct (amt_csh s); congruence.
Qed.
(** rescaling multiplies all prices and the cash capacity by the ratio of the spots *)
Theorem C55_rescale : forall s n o force, rescale s = true \/ force = true -> o <> 0 -> exists s', rescale_strat s n o force = Ret s' /\
  p_sell_a s' = p_sell_a s * (n / o) /\ p_sell_b s' = p_sell_b s * (n / o) /\ p_buy_a s' = p_buy_a s * (n / o) /\ p_buy_b s' = p_buy_b s * (n / o) /\
  psell_marginal s' = option_map (fun x => x * (n / o)) (psell_marginal s) /\ pbuy_marginal s' = option_map (fun x => x * (n / o)) (pbuy_marginal s) /\
  y_int_sell s' = y_int_sell s /\ y_int_buy s' = option_map (fun x => x * (n / o)) (y_int_buy s) /\
  amt_rsk s' = amt_rsk s /\ (amt_csh s <> Some 0 -> amt_csh s' = amt_csh s) /\ rsk s' = rsk s /\ csh s' = csh s /\ rescale s' = false /\ rescaled_fctr s' = Some (n / o).
Proof. exact rescale_value. Qed.
(** it is not applied twice, and when forced it composes; the factor remembered is the last one *)
Theorem C55_rescale_once : forall s n o force s', rescale_strat s n o force = Ret s' -> forall n' o', rescale_strat s' n' o' false = Ret s'.
Proof. exact rescale_once. Qed.
Theorem C55_rescale_composes : forall s n o n' o' s1 s2, rescale_strat s n o true = Ret s1 -> rescale_strat s1 n' o' true = Ret s2 ->
  p_sell_a s2 = p_sell_a s * (n / o * (n' / o')) /\ p_sell_b s2 = p_sell_b s * (n / o * (n' / o')) /\ p_buy_a s2 = p_buy_a s * (n / o * (n' / o')) /\ p_buy_b s2 = p_buy_b s * (n / o * (n' / o')) /\
  psell_marginal s2 = option_map (fun x => x * (n / o * (n' / o'))) (psell_marginal s) /\ pbuy_marginal s2 = option_map (fun x => x * (n / o * (n' / o'))) (pbuy_marginal s) /\
  y_int_sell s2 = y_int_sell s /\ y_int_buy s2 = option_map (fun x => x * (n / o * (n' / o'))) (y_int_buy s) /\
  amt_rsk s2 = amt_rsk s /\ rescaled_fctr s2 = Some (n' / o').
Proof. exact rescale_twice. Qed.
Example C55_case : exists s s' s'', from_mgw 100 (1 / 5) (Tuple [Some (1 / 10); Some 1]) (Tuple [Some (1 / 2); Some 0]) None None None None = Ret s /\ p_sell_a s = 110 /\ p_sell_b s = 121 /\ psell_marginal s = Some (1155 / 10) /\
  set_tvl s 100 (1 / 4) 1000 = Ret s' /\ amt_rsk s' = Some (75 / 10) /\ amt_csh s' = Some 250 /\ rescale_strat s' 200 100 false = Ret s'' /\ p_sell_a s'' = 220.
Proof.
  rewrite mgw_value by lra. cbn zeta. rewrite (Rmin_left (1 / 10)), (Rmin_left (1 / 2)), (Rmin_right 1) by lra. rewrite (req_false (1 / 2) 0) by lra. rewrite (req_true 0 0) by reflexivity.
  eexists _, _, _. split; [reflexivity|]. cbn [p_sell_a p_sell_b psell_marginal construct]. split; [lra|]. split; [lra|]. split; [f_equal; lra|].
  unfold set_tvl. cbn [amt_rsk amt_csh construct is_zero]. rewrite rdiv_ok by lra. cbn [rbind]. split; [reflexivity|]. cbn [amt_rsk amt_csh]. split; [f_equal; lra|]. split; [f_equal; lra|].
  unfold rescale_strat. cbn [rescale construct negb andb]. rewrite rdiv_ok by lra. cbn [rbind]. split; [reflexivity|]. cbn [p_sell_a construct]. lra.
Qed.

(** ** C56 *)
(** the first initialiser would refuse these arguments, but the strategy is built with them *)
Theorem C56_not_validated : forall psa psb pba pbb ar ac psm pbm yis yib r c resc f, shadowed_check psm pbm yis yib = Raise ValueError ->
  (exists p, psm = Some p \/ pbm = Some p) /\ (exists y, yis = Some y \/ yib = Some y) /\
  exists s, construct psa psb pba pbb ar ac psm pbm yis yib r c resc f = s /\ psell_marginal s = psm /\ pbuy_marginal s = pbm /\ y_int_sell s = yis /\ y_int_buy s = yib.
Proof.
  intros psa psb pba pbb ar ac psm pbm yis yib r c resc f H. unfold shadowed_check in H. split; [|split; [|eexists; repeat split]].
  - destruct psm as [p|]; [exists p; auto|]. destruct pbm as [p|]; [exists p; auto|]. discriminate.
  - destruct yis as [y|]; [exists y; auto|]. destruct yib as [y|]; [exists y; auto|]. rewrite andb_false_r in H. discriminate.
Qed.
(** a zero cash amount becomes 1e-10; a zero risk amount stays zero and the seed goes to an
    attribute that does not belong to the class; absent amounts stay absent *)
Theorem C56_seeding : forall psa psb pba pbb ar ac psm pbm yis yib r c resc f, let s := construct psa psb pba pbb ar ac psm pbm yis yib r c resc f in
  amt_rsk s = ar /\ (ac = Some 0 -> amt_csh s = Some (/ 10 ^ 10)) /\ (ac <> Some 0 -> amt_csh s = ac) /\ (ar = Some 0 -> amt_risk s = Some (/ 10 ^ 10)) /\ (ar <> Some 0 -> amt_risk s = None).
Proof.
  intros psa psb pba pbb ar ac psm pbm yis yib r c resc f. cbn. unfold MIN_SEED_AMT. split; [reflexivity|]. unfold is_zero.
  assert (Z : forall a : R, Some a <> Some 0 -> req a 0 = false) by (intros a N; apply req_false; intros ->; apply N; reflexivity).
  split; [intros ->; rewrite req_true by reflexivity; reflexivity|]. split; [intros N; destruct ac; [rewrite Z by exact N|]; reflexivity|].
  split; [intros ->; rewrite req_true by reflexivity; reflexivity|intros N; destruct ar; [rewrite Z by exact N|]; reflexivity].
Qed.
(** set_tvl copies without initialising: with a cash share of 0 the cash stays exactly zero *)
Theorem C56_tvl_not_seeded : forall s spot tvl s', amt_rsk s = None -> amt_csh s = None -> set_tvl s spot 0 tvl = Ret s' -> amt_csh s' = Some 0.
Proof. intros s spot tvl s' A B. unfold set_tvl. rewrite A, B. unfold rdiv. destruct (req spot 0); [discriminate|]. cbn [rbind]. intros [= <-]. cbn [amt_csh]. f_equal. ring. Qed.
Theorem C56_seeded_refuted : exists s, construct 110 121 90 80 (Some 0) (Some 0) (Some 115) None (Some 5) None None None true None = s /\ amt_rsk s = Some 0 /\ amt_csh s = Some (/ 10 ^ 10) /\
  shadowed_check (psell_marginal s) (pbuy_marginal s) (y_int_sell s) (y_int_buy s) = Raise ValueError.
Proof. eexists. split; [reflexivity|]. unfold construct, is_zero, MIN_SEED_AMT. rewrite !req_true by reflexivity. repeat split. Qed.

(** ** C80 *)
(** ranges are sorted, ascending for selling and descending for buying, whichever way they are
    given; they must not overlap unless allowed *)
Theorem C80_ranges : forall s1 s2 b1 b2 fixed overlapping,
  (overlapping = true \/ Rmax b1 b2 <= Rmin s1 s2 -> exists s, from_sb (Two s1 s2) (Two b1 b2) fixed overlapping = Ret s /\
    p_sell_a s = Rmin s1 s2 /\ p_sell_b s = Rmax s1 s2 /\ p_buy_a s = Rmax b1 b2 /\ p_buy_b s = Rmin b1 b2 /\ rescale s = negb fixed /\ amt_rsk s = None /\ amt_csh s = None) /\
  (overlapping = false -> Rmin s1 s2 < Rmax b1 b2 -> from_sb (Two s1 s2) (Two b1 b2) fixed overlapping = Raise ValueError).
Proof.
  intros s1 s2 b1 b2 fixed overlapping.
  assert (E1 : ends (Two s1 s2) false = (Rmin s1 s2, Rmax s1 s2)). { cbn [ends]. unfold sorted, rlt. rewrite xorb_false_r. destruct (Rlt_dec s1 s2); [rewrite Rmin_left, Rmax_right by lra|rewrite Rmin_right, Rmax_left by lra]; reflexivity. }
  assert (E2 : ends (Two b1 b2) true = (Rmax b1 b2, Rmin b1 b2)). { cbn [ends]. unfold sorted, rlt. rewrite xorb_true_r. destruct (Rlt_dec b1 b2); cbn [negb]; [rewrite Rmin_left, Rmax_right by lra|rewrite Rmin_right, Rmax_left by lra]; reflexivity. }
  unfold from_sb. rewrite E1, E2. split.
  - intros H. replace (rlt (Rmin s1 s2) (Rmax b1 b2) && negb overlapping) with false by (destruct H as [-> |H]; [rewrite andb_false_r; reflexivity|rewrite rlt_false by lra; reflexivity]). eexists. split; [reflexivity|]. repeat split.
  - intros -> H. rewrite rlt_true by exact H. reflexivity.
Qed.
Theorem C80_points : forall x y fixed overlapping, from_sb (One x) (One y) fixed overlapping = from_sb (Two x x) (Two y y) fixed overlapping.
Proof. intros x y fixed overlapping. unfold from_sb, ends, sorted. rewrite (rlt_false x x), (rlt_false y y) by lra. reflexivity. Qed.
(** a Uniswap position: the same range on both sides, moved apart by the fee; capacities of
    equal value at the geometric mean price; all of it on one side (except that the missing
    cash is seeded and the missing risk amount is not) *)
Theorem C80_u3 : forall lo hi below tvl fee r c, 0 < lo -> lo <= hi -> exists s, from_u3 lo hi below (Some tvl) fee r c = Ret s /\
  (let f := match fee with Some x => sqrt (lo * hi) * x / 2 | None => 0 end in p_sell_a s = lo + f /\ p_sell_b s = hi + f /\ p_buy_a s = hi - f /\ p_buy_b s = lo - f) /\
  y_int_sell s = Some (tvl / sqrt (lo * hi)) /\ y_int_buy s = Some tvl /\ psell_marginal s = None /\ pbuy_marginal s = None /\ rescale s = false /\
  (if below then amt_rsk s = Some (tvl / sqrt (lo * hi)) /\ amt_csh s = Some (/ 10 ^ 10) else amt_rsk s = Some 0 /\ (tvl <> 0 -> amt_csh s = Some tvl)).
Proof. exact u3_value. Qed.
Theorem C80_u3_refused : forall lo hi below tvl fee r c, (hi < lo -> from_u3 lo hi below tvl fee r c = Raise ValueError) /\ from_u3 lo hi below None fee r c = from_u3 lo hi below (Some 1000) fee r c.
Proof. intros lo hi below tvl fee r c. split; [|reflexivity]. intros H. unfold from_u3, rle. destruct (Rle_dec lo hi); [lra|reflexivity]. Qed.
(** as orders of the curve model: without fee, selling the whole sell capacity earns exactly the
    buy capacity and spending the whole buy capacity returns exactly the sell capacity; with a
    positive fee the seller earns at least that, and the buyer gets at least that *)
Theorem C80_u3_closed : forall lo hi below tvl fee r c s, 0 < lo -> lo <= hi -> 0 < tvl -> match fee with Some x => 0 <= x /\ sqrt (lo * hi) * x < 2 * lo | None => True end ->
  from_u3 lo hi below (Some tvl) fee r c = Ret s ->
  exists ys yb cs cb xs xb, y_int_sell s = Some ys /\ y_int_buy s = Some yb /\
    from_prices true (p_sell_a s) (p_sell_b s) ys ys = Ret cs /\ dxfromdy_f cs ys true true = Ret (Some xs) /\
    from_prices false (p_buy_b s) (p_buy_a s) yb yb = Ret cb /\ dxfromdy_f cb yb true true = Ret (Some xb) /\
    yb <= xs /\ ys <= xb /\ (fee = None -> xs = yb /\ xb = ys).
Proof.
  intros lo hi below tvl fee r c s Hl Hh Ht Hf H. destruct (u3_value lo hi below tvl fee r c Hl Hh) as (s' & E & (P1 & P2 & P3 & P4) & Y1 & Y2 & _). rewrite H in E. injection E as <-.
  assert (P : 0 < lo * hi) by nra. set (q := sqrt (lo * hi)) in *. assert (Q : 0 < q) by (apply sqrt_lt_R0; exact P).
  set (f := match fee with Some x => q * x / 2 | None => 0 end) in *. assert (F : 0 <= f < lo). { unfold f. destruct fee as [x|]; [|lra]. assert (0 <= q * x) by (apply Rmult_le_pos; lra). lra. }
  assert (FN : fee = None -> f = 0) by (unfold f; intros ->; reflexivity). clearbody f.
  set (ys := tvl / q) in *. assert (YS : 0 < ys) by (apply Rdiv_lt_0_compat; assumption). assert (YQ : ys * q = tvl) by (unfold ys; field; lra).
  destruct (whole_order true (lo + f) (hi + f) ys ltac:(lra) ltac:(lra) YS) as (cs & A1 & A2). destruct (whole_order false (lo - f) (hi - f) tvl ltac:(lra) ltac:(lra) Ht) as (cb & B1 & B2).
  exists ys, tvl, cs, cb, (ys * sqrt ((lo + f) * (hi + f))), (tvl / sqrt ((lo - f) * (hi - f))). rewrite P1, P2, P3, P4. repeat (split; [assumption|]).
  assert (S1 : q <= sqrt ((lo + f) * (hi + f))) by (apply sqrt_le_1_alt; clear - F Hl Hh; nra). assert (S2 : sqrt ((lo - f) * (hi - f)) <= q) by (apply sqrt_le_1_alt; clear - F Hl Hh; nra).
  assert (S3 : 0 < sqrt ((lo - f) * (hi - f))) by (apply sqrt_lt_R0; clear - F Hl Hh; nra).
  split; [nra|]. split.
  - apply Rmult_le_reg_r with (sqrt ((lo - f) * (hi - f))); [exact S3|]. replace (tvl / sqrt ((lo - f) * (hi - f)) * sqrt ((lo - f) * (hi - f))) with tvl by (field; lra). nra.
  - intros N. rewrite (FN N), !Rplus_0_r, !Rminus_0_r. fold q. split; [exact YQ|reflexivity].
Qed.
Example C80_case : exists s, from_u3 4 9 true (Some 600) None None None = Ret s /\ y_int_sell s = Some 100 /\ from_sb (Two 5 4) (Two 2 3) true false <> Raise ValueError.
Proof.
  destruct (u3_value 4 9 true 600 None None None ltac:(lra) ltac:(lra)) as (s & E & _ & Y & _). exists s. split; [exact E|]. split.
  - rewrite Y. f_equal. replace (4 * 9) with (Rsqr 6) by (unfold Rsqr; lra). rewrite sqrt_Rsqr by lra. lra.
  - destruct (C80_ranges 5 4 2 3 true false) as [H _]. destruct H as (s' & -> & _); [right; rewrite Rmax_right, Rmin_right by lra; lra|discriminate].
Qed.

(** ** C81 *)
(** a record is dispatched on its type, ignoring case *)
Theorem C81_dispatch : forall d t, lookup d "strat_type" = Ret (VStr t) ->
  (lower t = "fixed"%string -> forall sa sb ba bb, lookup d "p_sell_a" = Ret (VNum sa) -> lookup d "p_sell_b" = Ret (VNum sb) -> lookup d "p_buy_a" = Ret (VNum ba) -> lookup d "p_buy_b" = Ret (VNum bb) ->
     exists s, from_dct d true = Ret (Some s) /\ p_sell_a s = sa /\ p_sell_b s = sb /\ p_buy_a s = ba /\ p_buy_b s = bb /\ rescale s = false /\ amt_rsk s = None /\ amt_csh s = None) /\
  (lower t = "uv3"%string -> forall lo hi b f, lookup d "p_lo" = Ret (VNum lo) -> lookup d "p_hi" = Ret (VNum hi) -> lookup d "start_below" = Ret b -> lookup d "fee_pc" = Ret (oval f) ->
     from_dct d true = match from_u3 lo hi (truth b) None f None None with Ret s => Ret (Some s) | Raise e => Raise e end) /\
  (lower t = "mgw"%string -> forall m g, lookup d "strat_m" = Ret (VNum m) -> lookup d "strat_g" = Ret (VNum g) ->
     (forall ws wb us ub, lookup d "strat_wsell" = Ret (oval ws) -> lookup d "strat_wbuy" = Ret (oval wb) -> lookup d "strat_usell" = Ret (oval us) -> lookup d "strat_ubuy" = Ret (oval ub) ->
        from_dct d true = match from_mgw m g (Tuple [ws; wb]) (Tuple [us; ub]) None None None None with Ret s => Ret (Some s) | Raise e => Raise e end) /\
     (forall w u, lookup d "strat_w" = Ret (oval w) -> lookup d "strat_u" = Ret (oval u) -> lookup d "strat_wbuy" = Raise KeyError -> lookup d "strat_ubuy" = Raise KeyError ->
        from_dct d true = match from_mgw m g (Scalar w) (Scalar u) None None None None with Ret s => Ret (Some s) | Raise e => Raise e end)) /\
  (lower t <> "fixed"%string -> lower t <> "uv3"%string -> lower t <> "mgw"%string -> from_dct d true = Raise ValueError).
Proof.
  intros d t T. unfold from_dct, from_record. rewrite T. cbn [rbind]. assert (O : forall o : option R, onum (oval o) = Ret o) by (intros [x|]; reflexivity). split; [|split; [|split]].
  - intros -> sa sb ba bb A B C D. cbn [String.eqb Ascii.eqb Bool.eqb]. unfold get_num. rewrite A, B, C, D. cbn [rbind num]. eexists. split; [reflexivity|]. repeat split.
  - intros -> lo hi b f A B C D. cbn [String.eqb Ascii.eqb Bool.eqb]. unfold get_num. rewrite A, B, C, D. cbn [rbind num]. rewrite O. cbn [rbind]. reflexivity.
  - intros -> m g A B. cbn [String.eqb Ascii.eqb Bool.eqb]. unfold get_num, pair_or. rewrite A, B. split.
    + intros ws wb us ub C D E F. rewrite C, D, E, F. cbn [rbind]. rewrite !O. cbn [rbind num]. reflexivity.
    + intros w u C D E F. rewrite C, D, E, F. cbn [rbind num]. rewrite !O. cbn [rbind]. destruct (lookup d "strat_wsell"), (lookup d "strat_usell"); reflexivity.
  - intros A B C. apply String.eqb_neq in A, B, C. rewrite A, B, C. reflexivity.
Qed.
(** without raiseonerror no error escapes, and nothing else changes *)
Theorem C81_quiet : forall d, (exists o, from_dct d false = Ret o) /\ (forall s, from_dct d true = Ret (Some s) <-> from_dct d false = Ret (Some s)) /\ (from_dct d false = Ret None <-> exists e, from_dct d true = Raise e).
Proof.
  intros d. unfold from_dct. destruct (from_record d) as [s|e]; split; eauto; split.
  - reflexivity.
  - split; [discriminate|intros [e E]; discriminate].
  - split; discriminate.
  - split; eauto.
Qed.
(** the keyword arguments for add_strategy: every argument name once, with the field it means *)
Theorem C81_arguments : forall s, NoDup (map fst (dct s)) /\
  lookup (dct s) "tkn" = Ret (VStr (rsk s)) /\ lookup (dct s) "pair" = Ret (VStr (rsk s ++ "/" ++ csh s)) /\
  lookup (dct s) "amt_sell" = Ret (oval (amt_rsk s)) /\ lookup (dct s) "amt_buy" = Ret (oval (amt_csh s)) /\
  lookup (dct s) "psell_start" = Ret (VNum (p_sell_a s)) /\ lookup (dct s) "psell_end" = Ret (VNum (p_sell_b s)) /\ lookup (dct s) "pbuy_start" = Ret (VNum (p_buy_a s)) /\ lookup (dct s) "pbuy_end" = Ret (VNum (p_buy_b s)) /\
  lookup (dct s) "psell_marginal" = Ret (oval (psell_marginal s)) /\ lookup (dct s) "pbuy_marginal" = Ret (oval (pbuy_marginal s)) /\
  lookup (dct s) "y_int_sell" = Ret (oval (y_int_sell s)) /\ lookup (dct s) "y_int_buy" = Ret (oval (y_int_buy s)).
Proof. intros s. split; [|repeat split]. cbn. repeat (constructor; [cbn; intuition discriminate|]). constructor. Qed.
(** the difference of two records: the changed fields of the baseline, except that a field
    changed to None is not reported *)
Theorem C81_difference : forall r r0, NoDup (map fst r0) ->
  ((forall k, In k (map fst r0) -> exists v, lookup r k = Ret v) <-> exists d, dr r r0 true = Ret d) /\ (forall p e, dr r r0 p = Raise e -> e = KeyError) /\
  forall d, dr r r0 true = Ret d -> forall k v, In (k, v) d <-> lookup r k = Ret v /\ v <> VNone /\ k <> "id0"%string /\ k <> "comment"%string /\ exists v0, In (k, v0) r0 /\ same_val v v0 = false.
Proof.
  intros r r0 ND. split; [|split; [|intros d; apply dr_spec; exact ND]].
  - rewrite dr_all_total. unfold dr. split; [intros [d ->]; cbn; eauto|intros [d E]; destruct (dr_all r r0); [eauto|discriminate]].
  - intros p e E. unfold dr in E. destruct (dr_all r r0) as [d|e'] eqn:F; [discriminate|]. cbn in E. injection E as <-. eapply dr_all_error. exact F.
Qed.
(** the comparison of values is equality except that NaN differs from itself *)
Theorem C81_same : forall a b, same_val a b = true <-> a = b /\ a <> VNan.
Proof.
  intros a b. split.
  - intros H. split; [apply same_val_eq; exact H|]. intros ->. discriminate.
  - intros [-> H]. destruct b; cbn; [apply req_true; reflexivity|congruence|apply String.eqb_refl|reflexivity].
Qed.
(** differences of a whole table always fail, and numbers never pass the NaN filter *)
Theorem C81_table : drr [] = Raise IndexError /\ forall x rr, drr (x :: rr) = Raise NameError.
Proof. split; reflexivity. Qed.
(** the positional arguments mean the same as the keyword arguments of the same place in the
    signature of add_strategy (carbon_simulator.py lines 438-446); the names are written out here *)
Theorem C81_positional : forall s n name v,
  nth_error ["tkn"; "amt_sell"; "psell_start"; "psell_end"; "amt_buy"; "pbuy_start"; "pbuy_end"]%string n = Some name ->
  (nth_error (ptuple s) n = Some v <-> lookup (dct s) name = Ret v) /\ length (ptuple s) = 7%nat.
Proof.
  intros s n name v H. split; [|reflexivity].
  do 7 (destruct n as [|n]; [injection H as <-; cbn; split; intros [= <-]; reflexivity|]). destruct n; discriminate.
Qed.
(** the baseline is the first record; against itself it shows exactly its NaN fields *)
Theorem C81_baseline : first_record [] = Raise IndexError /\ (forall k r rr, first_record ((k, r) :: rr) = Ret r) /\
  forall r, NoDup (map fst r) -> exists d, dr r r true = Ret d /\ forall k v, In (k, v) d <-> v = VNan /\ In (k, v) r /\ k <> "id0"%string /\ k <> "comment"%string.
Proof.
  split; [reflexivity|]. split; [reflexivity|]. intros r ND.
  assert (L : forall k v, In (k, v) r <-> lookup r k = Ret v).
  { clear -ND. induction r as [|[k0 v0] r IH]; intros k v; [split; [intros []|discriminate]|]. inversion ND as [|? ? N0 N1]; subst. cbn [lookup In]. destruct (String.eqb_spec k k0) as [E|E].
    - subst k0. split; [intros [H|H]; [injection H as ->; reflexivity|exfalso; apply N0; apply (in_map fst) in H; exact H]|intros [= ->]; left; reflexivity].
    - rewrite <- (IH N1). split; [intros [H|H]; [congruence|exact H]|intros H; right; exact H]. }
  destruct (C81_difference r r ND) as (T & _ & D). destruct (proj1 T) as [d E].
  { intros k H. apply in_map_iff in H. destruct H as ([k' v] & <- & H). exists v. apply L, H. }
  exists d. split; [exact E|]. intros k v. rewrite (D d E). split.
  - intros (A & B & C & F & v0 & G & S). apply L in G. rewrite A in G. injection G as <-. assert (v = VNan) as ->.
    { destruct v; try reflexivity; exfalso; enough (same_val _ _ = true) as X by (rewrite X in S; discriminate); apply C81_same; split; congruence. }
    repeat split; try assumption. apply L, A.
  - intros (-> & A & B & C). split; [apply L, A|]. repeat split; try assumption; [discriminate|]. exists VNan. split; [exact A|reflexivity].
Qed.
Example C81_baseline_ex : exists d, dr [("m"%string, VNan); ("w"%string, VStr "x")] [("m"%string, VNan); ("w"%string, VStr "x")] true = Ret d /\ d <> [].
Proof. eexists. split; [reflexivity|discriminate]. Qed.
Theorem C81_nan_filter : (forall x, filter_isnan (VNum x) = VNone) /\ filter_isnan VNan = VStr "" /\ (forall s, filter_isnan (VStr s) = VStr s).
Proof. repeat split. Qed.
Example C81_case : exists s, from_dct [("strat_type"%string, VStr "Fixed"); ("p_sell_a"%string, VNum 110); ("p_sell_b"%string, VNum 120); ("p_buy_a"%string, VNum 90); ("p_buy_b"%string, VNum 80)] true = Ret (Some s) /\ p_buy_b s = 80 /\
  dr [("m"%string, VNum 1); ("w"%string, VStr "x"); ("g"%string, VNone); ("id0"%string, VStr "1")] [("m"%string, VNum 1); ("w"%string, VStr "y"); ("g"%string, VNum 3); ("id0"%string, VStr "0")] true = Ret [("w"%string, VStr "x")].
Proof. eexists. split; [reflexivity|]. split; [reflexivity|]. unfold dr. cbn. rewrite req_true by reflexivity. reflexivity. Qed.

Print Assumptions C55_mgw.
Print Assumptions C55_single.
Print Assumptions C55_domain.
Print Assumptions C55_refused.
Print Assumptions C55_negative_gap_refuted.
Print Assumptions C55_tvl.
Print Assumptions C55_rescale.
Print Assumptions C55_rescale_once.
Print Assumptions C55_rescale_composes.
Print Assumptions C56_not_validated.
Print Assumptions C56_seeding.
Print Assumptions C56_tvl_not_seeded.
Print Assumptions C56_seeded_refuted.
Print Assumptions C80_ranges.
Print Assumptions C80_points.
Print Assumptions C80_u3.
Print Assumptions C80_u3_refused.
Print Assumptions C80_u3_closed.
Print Assumptions C81_dispatch.
Print Assumptions C81_quiet.
Print Assumptions C81_arguments.
Print Assumptions C81_difference.
Print Assumptions C81_same.
Print Assumptions C81_table.
Print Assumptions C81_positional.
Print Assumptions C81_baseline.
Print Assumptions C81_nan_filter.
