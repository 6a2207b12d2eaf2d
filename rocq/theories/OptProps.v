(** C91-C100: the arbitrage optimizer (carbon/tools/optimizer.py). *)
From Coq Require Import Reals Lra Bool List String Lia ZArith Permutation.
From Verif Require Import CurveModel CurveProofs PairModel PairSpec PairProofs HelperModel CpcModel CpcSpec CpcProofs CpcProofs2
  ContainerModel ContainerSpec ContainerProofs ContainerProofs2 OptModel OptSpec OptProofs OptProofs2 OptProofs3 OptProofs4 OptProofs5 OptProofs6 OptProofs7 OptProofs8 OptProofs9 OptProofs10.
Import ListNotations.
Local Open Scope R_scope.

(** two pools that quote 1 and 4 B per A; arbitrage moves both to 9/4 and gains 5 B *)
Definition exa : cpc := mkCpc 100 10 10 10 "A" "B".
Definition exb : cpc := mkCpc 400 10 10 40 "A" "B".
Definition exbest : list (cpc * R * R) := [(exa, - (10 / 3), 5); (exb, 10 / 3, - 10)].
Definition exprices (t : string) : R := if string_dec t "A" then 9 / 4 else 1.
Lemma ex_proper : Forall proper [exa; exb].
Proof.
  repeat constructor; unfold exa, exb, CpcModel.y; cbn [k x x_act y_act tknx tkny]; try lra; try discriminate; apply no_slash_free; reflexivity.
Qed.
Lemma ex_prices t : 0 < exprices t.
Proof. unfold exprices. destruct (string_dec t "A"); lra. Qed.
Lemma ex_root X : 0 < X -> forall r, 0 <= r -> X * X = r * r -> X = r.
Proof. intros H r Hr E. apply Rsqr_inj; unfold Rsqr; lra. Qed.
Lemma ex_trades : gx exa (9 / 4) = - (10 / 3) /\ gy exa (9 / 4) = 5 /\ gx exb (9 / 4) = 10 / 3 /\ gy exb (9 / 4) = - 10.
Proof.
  pose proof ex_proper as H. inversion H as [|? ? [H1 _] H']; subst. inversion H' as [|? ? [H2 _] _]; subst. assert (P : 0 < 9 / 4) by lra.
  destruct (reach exa (9 / 4) H1 P) as (X & Y & E & HX & HY & K & A & B & C & D). rewrite dxdy_value in E by assumption.
  destruct (reach exb (9 / 4) H2 P) as (X2 & Y2 & E2 & HX2 & HY2 & K2 & A2 & B2 & C2 & D2). rewrite dxdy_value in E2 by assumption.
  unfold x_min, y_min in *. assert (ya : y exa = 10) by (unfold CpcModel.y, exa; cbn [k x]; lra). assert (yb : y exb = 40) by (unfold CpcModel.y, exb; cbn [k x]; lra).
  rewrite ya in *. rewrite yb in *. unfold exa, exb in *. cbn [k x x_act y_act tknx tkny] in *. specialize (C ltac:(lra)). specialize (D ltac:(lra)). specialize (C2 ltac:(lra)). specialize (D2 ltac:(lra)).
  assert (EY : Y = 9 / 4 * X) by lra. assert (EY2 : Y2 = 9 / 4 * X2) by lra.
  assert (X = 20 / 3) by (apply ex_root; [exact HX|lra|]; subst Y; lra). assert (X2 = 40 / 3) by (apply ex_root; [exact HX2|lra|]; subst Y2; lra). subst X X2 Y Y2.
  set (g1 := gx _ _) in *. set (g2 := gy _ _) in E |- *. set (g3 := gx (mkCpc 400 _ _ _ _ _) _) in *. set (g4 := gy (mkCpc 400 _ _ _ _ _) _) in *.
  assert (g1 = 20 / 3 - 10) by congruence. assert (g2 = 9 / 4 * (20 / 3) - 10) by congruence. assert (g3 = 40 / 3 - 10) by congruence. assert (g4 = 9 / 4 * (40 / 3) - 40) by congruence. lra.
Qed.
Lemma ex_mtrade : exbest = map (mtrade exprices) [exa; exb].
Proof.
  destruct ex_trades as (A & B & C & D). unfold exbest. cbn [map]. unfold mtrade. change (tknx exa) with "A"%string. change (tkny exa) with "B"%string. change (tknx exb) with "A"%string. change (tkny exb) with "B"%string.
  change (exprices "A") with (9 / 4). change (exprices "B") with 1. replace (9 / 4 / 1) with (9 / 4) by field. rewrite A, B, C, D. reflexivity.
Qed.
Lemma ex_net t : net exbest t = if string_dec t "B" then - 5 else 0.
Proof.
  cbn [exbest net flow]. change (tknx exa) with "A"%string. change (tkny exa) with "B"%string. change (tknx exb) with "A"%string. change (tkny exb) with "B"%string.
  destruct (string_dec t "B") as [->|N]; [destruct (string_dec "A" "B") as [G|_]; [discriminate|]; destruct (string_dec "B" "B") as [_|G]; [lra|congruence]|].
  destruct (string_dec "B" t) as [G|_]; [congruence|]. destruct (string_dec "A" t); lra.
Qed.
Lemma ex_marginal : Forall (marginal exprices) exbest.
Proof. rewrite ex_mtrade. apply marginal_all; [apply ex_proper|apply ex_prices]. Qed.

(** ** C91 *)
Theorem C91_raises : forall n f (g : R -> R) a b, f a = Ret (g a) -> f b = Ret (g b) -> 0 < g a * g b -> goalseek n f a b = Raise ValueError.
Proof. exact goalseek_raises. Qed.
Theorem C91_terminates : forall f (g : R -> R) a b, a <= b -> (forall t, a <= t <= b -> f t = Ret (g t)) -> g a * g b <= 0 ->
  exists N o, forall m, (N < m)%nat -> goalseek m f a b = Ret (Some o).
Proof. exact goalseek_stops. Qed.
Theorem C91_root : forall f (g : R -> R) n a b o, a <= b -> (forall t, a <= t <= b -> f t = Ret (g t)) -> (forall t, a <= t <= b -> continuity_pt g t) -> g a <> 0 ->
  goalseek n f a b = Ret (Some o) ->
  match o with
  | Plain c => a < c < b /\ g c = 0
  | Found c => exists r, a <= r <= b /\ g r = 0 /\ Rabs (c - r) <= / 10 ^ 6 / 2 /\ a <= c <= b
  end.
Proof. exact goalseek_root. Qed.
Theorem C91_left_end : forall f (g : R -> R) n a b o, / 10 ^ 6 < b - a -> (forall t, a <= t <= b -> f t = Ret (g t)) -> g a = 0 -> (forall t, a < t <= b -> 0 < g t) ->
  goalseek n f a b = Ret (Some o) -> exists c, o = Found c /\ b - / 10 ^ 6 / 2 <= c <= b.
Proof. exact goalseek_left. Qed.
Theorem C91_short : forall f (g : R -> R) n a b, b - a <= / 10 ^ 6 -> f a = Ret (g a) -> f b = Ret (g b) -> g a * g b <= 0 ->
  goalseek (S n) f a b = Ret (Some (Found ((a + b) / 2))).
Proof. exact goalseek_short. Qed.
(** the naive claim: a continuous function with a root in the interval gives a number near a root *)
Theorem C91_root_refuted : exists f (g : R -> R) a b, a < b /\ (forall t, f t = Ret (g t)) /\ (forall t, continuity_pt g t) /\ g a = 0 /\
  exists n c, goalseek n f a b = Ret (Some (Found c)) /\ forall r, g r = 0 -> 1 / 2 < Rabs (c - r).
Proof.
  exists (fun t => Ret t), (fun t => t), 0, 1. split; [lra|]. split; [reflexivity|]. split; [intros t; apply derivable_continuous_pt, derivable_pt_id|]. split; [reflexivity|].
  destruct (goalseek_stops (fun t => Ret t) (fun t => t) 0 1) as (N & o & E); [lra|reflexivity|lra|].
  destruct (goalseek_left (fun t => Ret t) (fun t => t) (S N) 0 1 o) as (c & -> & Hc); [unfold GOALSEEKEPS; lra|reflexivity|reflexivity|intros t Ht; lra|apply E; lia|].
  exists (S N), c. split; [apply E; lia|]. intros r ->. unfold GOALSEEKEPS in Hc. rewrite Rabs_right; lra.
Qed.
Example C91_ex : exists N o, (forall m, (N < m)%nat -> goalseek m (fun t => Ret (t * t - 2)) 1 2 = Ret (Some o)) /\ (1 * 1 - 2) * (2 * 2 - 2) <= 0 /\ 1 * 1 - 2 <> 0.
Proof.
  destruct (C91_terminates (fun t => Ret (t * t - 2)) (fun t => t * t - 2) 1 2) as (N & o & E); [lra|reflexivity|lra|]. exists N, o. split; [exact E|]. split; lra.
Qed.

(** ** C92 *)
Theorem C92_slope : forall (g g' : R -> R) x, (forall t, x - / 10 ^ 6 <= t <= x + / 10 ^ 6 -> derivable_pt_lim g t (g' t)) ->
  exists t, x - / 10 ^ 6 < t < x + / 10 ^ 6 /\ deriv (fun t => Ret (g t)) x = Ret (g' t).
Proof. exact slope. Qed.
Theorem C92_curvature : forall (g g1 g2 : R -> R) x, (forall t, x - / 10 ^ 6 <= t <= x + / 10 ^ 6 -> derivable_pt_lim g t (g1 t) /\ derivable_pt_lim g1 t (g2 t)) ->
  exists t, x - / 10 ^ 6 < t < x + / 10 ^ 6 /\ deriv2 (fun t => Ret (g t)) x = Ret (g2 t).
Proof. exact curvature. Qed.
Theorem C92_quadratic : forall a b c n x, a <> 0 -> findminmax_nr (fun t => Ret (a * t ^ 2 + b * t + c)) x (S n) = SOk (- b / (2 * a)).
Proof. exact newton_quadratic. Qed.
Theorem C92_line : forall b c n x, findminmax_nr (fun t => Ret (b * t + c)) x (S n) = SError /\ simple_float SError = Raise ValueError.
Proof.
  intros b c n x. split; [|reflexivity]. pose proof (newton_line b c n x) as E. rewrite <- E. assert (X : forall f g, (forall t, f t = g t) -> forall x n, findminmax_nr f x n = findminmax_nr g x n).
  { intros f g Q x0 m. revert x0. induction m as [|m IH]; intros x0; [reflexivity|]. cbn [findminmax_nr]. unfold nr_step, deriv, deriv2. rewrite !Q. destruct (rbind _ _); [apply IH|reflexivity]. }
  apply X. intros t. unfold quadratic. f_equal. ring.
Qed.
Theorem C92_descent : forall a b c rate n x, a <> 0 ->
  findmin_gd (fun t => Ret (a * t ^ 2 + b * t + c)) x rate n = Ret (- b / (2 * a) + (1 - 2 * a * rate) ^ n * (x - - b / (2 * a))) /\
  findmax_gd (fun t => Ret (a * t ^ 2 + b * t + c)) x rate n = Ret (- b / (2 * a) + (1 + 2 * a * rate) ^ n * (x - - b / (2 * a))).
Proof. intros. split; [apply descend_quadratic; assumption|apply ascend_quadratic; assumption]. Qed.
(** no convergence for too large a learning rate *)
Theorem C92_descent_refuted : forall a b c rate x B, a <> 0 -> 1 < Rabs (1 - 2 * a * rate) -> x <> - b / (2 * a) ->
  exists n v, findmin_gd (fun t => Ret (a * t ^ 2 + b * t + c)) x rate n = Ret v /\ B <= Rabs (v - - b / (2 * a)).
Proof.
  intros a b c rate x B N L X. assert (D : 0 < Rabs (x - - b / (2 * a))) by (apply Rabs_pos_lt; lra).
  destruct (Pow_x_infinity (1 - 2 * a * rate) L (B / Rabs (x - - b / (2 * a)))) as [n Hn]. specialize (Hn n (le_n n)).
  exists n. eexists. split; [apply descend_quadratic, N|]. match goal with |- B <= Rabs ?u => replace u with ((1 - 2 * a * rate) ^ n * (x - - b / (2 * a))) by ring end. rewrite Rabs_mult.
  apply Rge_le in Hn. apply (Rmult_le_compat_r (Rabs (x - - b / (2 * a)))) in Hn; [|lra]. replace (B / Rabs (x - - b / (2 * a)) * Rabs (x - - b / (2 * a))) with B in Hn by (field; lra). exact Hn.
Qed.
Theorem C92_parts : forall v, Forall (fun a => 0 <= a) (posx v) /\ Forall (fun a => a <= 0) (negx v) /\ zipw Rplus (posx v) (negx v) = v /\
  Forall (fun a => a = 0) (zipw Rmult (posx v) (negx v)).
Proof. exact posneg. Qed.
Theorem C92_jacobian : forall (f : list R -> list R) (cols : list (list R)) eps v, dflt eps (/ 10 ^ 5) <> 0 -> List.length cols = List.length v ->
  (forall j D, (j < List.length v)%nat -> f (add_at j D v) = zipw Rplus (f v) (map (Rmult D) (nth j cols []))) ->
  (forall j, (j < List.length v)%nat -> List.length (nth j cols []) = List.length (f v)) -> jacobian (fun u => Ret (f u)) v eps = Ret cols.
Proof. exact jacobian_affine. Qed.
Example C92_ex : (exists t, 1 - / 10 ^ 6 < t < 1 + / 10 ^ 6 /\ deriv (fun t => Ret (t ^ 3)) 1 = Ret (3 * t ^ 2)) /\
  findminmax_nr (fun t => Ret (3 * t ^ 2 + 6 * t + 1)) 100 20 = SOk (- 6 / (2 * 3)) /\
  jacobian (fun u => Ret (match u with [a; b] => [2 * a + b; 3 * b] | _ => [] end)) [1; 0] None = Ret [[2; 0]; [1; 3]].
Proof.
  split; [apply C92_slope; intros t _; replace (3 * t ^ 2) with (INR 3 * t ^ pred 3) by (cbn [INR pred]; ring); apply derivable_pt_lim_pow|]. split; [apply C92_quadratic; lra|].
  apply (C92_jacobian (fun u => match u with [a; b] => [2 * a + b; 3 * b] | _ => [] end)); [apply Rgt_not_eq, Rinv_0_lt_compat, pow_lt; lra|reflexivity| |].
  - intros j D Hj. cbn in Hj. destruct j as [|[|j]]; [| |lia]; cbn [add_at nth map zipw]; (f_equal; [ring|f_equal; ring]).
  - intros j Hj. cbn in Hj. destruct j as [|[|j]]; [reflexivity|reflexivity|lia].
Qed.

(** ** C93 *)
Theorem C93_optimal : forall c p0, pool_ok c -> 0 < p0 -> exists dx dy, dxdyfromp_f c (Some p0) false = Ret (dx, dy, p0) /\ allowed c dx dy /\ (x c + dx) * (y c + dy) = k c /\
  forall dx' dy', allowed c dx' dy' -> p0 * dx + dy < p0 * dx' + dy' \/ (dx' = dx /\ dy' = dy).
Proof. exact trade_optimal. Qed.
Theorem C93_gain : forall c p0 dx dy, pool_ok c -> 0 < p0 -> dxdyfromp_f c (Some p0) false = Ret (dx, dy, p0) -> p0 * dx + dy <= 0 /\ (p0 * dx + dy = 0 <-> dx = 0 /\ dy = 0) /\
  ((dx = 0 /\ dy = 0) \/ (0 < dx /\ dy < 0) \/ (dx < 0 /\ 0 < dy)).
Proof. exact trade_gain. Qed.
Theorem C93_monotone : forall c p0 p1 dx dy dx' dy', pool_ok c -> 0 < p0 <= p1 -> dxdyfromp_f c (Some p0) false = Ret (dx, dy, p0) -> dxdyfromp_f c (Some p1) false = Ret (dx', dy', p1) ->
  dx' <= dx /\ dy <= dy'.
Proof. exact trade_monotone. Qed.
Theorem C93_direction : forall c p0 dx dy, pool_ok c -> 0 < p0 -> dxdyfromp_f c (Some p0) false = Ret (dx, dy, p0) ->
  (p0 <= y c / x c -> 0 <= dx /\ dy <= 0) /\ (y c / x c <= p0 -> dx <= 0 /\ 0 <= dy) /\ (p0 = y c / x c -> dx = 0 /\ dy = 0).
Proof.
  intros c p0 dx dy H Hp E. assert (EP : CpcModel.p c = y c / x c) by (destruct H as (_ & Hx & _); unfold CpcModel.p, CpcModel.y; field; lra). rewrite <- EP. apply trade_sign; assumption.
Qed.
Example C93_ex : pool_ok exa /\ dxdyfromp_f exa (Some (9 / 4)) false = Ret (- (10 / 3), 5, 9 / 4) /\ allowed exa (- (10 / 3)) 5 /\ allowed exa 0 0 /\ 9 / 4 * - (10 / 3) + 5 < 0.
Proof.
  pose proof ex_proper as H. inversion H as [|? ? [H1 _] _]; subst. split; [exact H1|]. destruct ex_trades as (A & B & _). rewrite dxdy_value by (try exact H1; lra). rewrite A, B. split; [reflexivity|].
  split; [rewrite <- A, <- B; apply g_allowed; [exact H1|lra]|]. split; [apply stay_allowed, H1|lra].
Qed.

(** ** C94 *)
Theorem C94_total : forall a b cs p0, isprimary norm_cpc a b = true -> Forall proper cs -> Forall (on_pair a b) cs -> cs <> [] -> 0 < p0 ->
  exists best, pools best = cs /\ all_allowed best /\ dxdy_sum (map wrap cs) p0 = Ret (net best a, net best b) /\ p0 * net best a + net best b <= 0 /\
    forall l, pools l = cs -> all_allowed l -> p0 * net best a + net best b <= p0 * net l a + net l b.
Proof. exact sum_dual. Qed.
Theorem C94_value : forall a b cs p0 v l, isprimary norm_cpc a b = true -> Forall proper cs -> Forall (on_pair a b) cs -> cs <> [] -> 0 < p0 ->
  dxdy_valx (map wrap cs) p0 = Ret v -> pools l = cs -> all_allowed l -> net l b <= 0 -> v <= net l a.
Proof. exact valx_bound. Qed.
Theorem C94_globalmax : forall a b cs n r, isprimary norm_cpc a b = true -> Forall proper cs -> Forall (on_pair a b) cs -> cs <> [] -> simple_globalmax n cs = Ret r ->
  0 < so_p r /\ (exists best, pools best = cs /\ all_allowed best /\ so_result_ r = net best a + net best b / so_p r) /\
  forall l, pools l = cs -> all_allowed l -> net l b <= 0 -> so_result_ r <= net l a.
Proof. exact globalmax_bound. Qed.
Theorem C94_target : forall a b t o cs n r, isprimary norm_cpc a b = true -> (t = a /\ o = b) \/ (t = b /\ o = a) -> Forall proper cs -> Forall (on_pair a b) cs ->
  (exists c, In c cs /\ 0 < holding c b) -> simple_optimizer n cs t = Ret (Some r) ->
  0 < so_p r /\ (exists trades, pools trades = cs /\ all_allowed trades /\ so_result_ r = net trades t) /\
  exists q best, 0 < q /\ Rabs (so_p r - q) <= / 10 ^ 6 / 2 /\ pools best = cs /\ optimal t o best /\ dxdy_sum (map wrap cs) q = Ret (net best a, net best b).
Proof. exact so_result_optimal. Qed.
Theorem C94_terminates : forall a b t cs, isprimary norm_cpc a b = true -> t = a \/ t = b -> Forall proper cs -> Forall (on_pair a b) cs -> cs <> [] ->
  exists m, (forall n, (m < n)%nat -> simple_optimizer n cs t = Raise AttributeError) \/
    exists r cl ch, In cl cs /\ In ch cs /\ 99 / 100 * price_in a cl <= so_p r <= 101 / 100 * price_in a ch /\ forall n, (m < n)%nat -> simple_optimizer n cs t = Ret (Some r).
Proof. exact so_outcome. Qed.
Theorem C94_same_price : forall a b t cs P0 n, isprimary norm_cpc a b = true -> t = a \/ t = b -> Forall proper cs -> Forall (on_pair a b) cs -> cs <> [] ->
  (forall c, In c cs -> price_in a c = P0) -> / 10 ^ 6 < P0 / 50 -> simple_optimizer (S n) cs t = Raise AttributeError.
Proof. exact so_same_price. Qed.
Theorem C94_tiny_prices : forall a b t cs n, isprimary norm_cpc a b = true -> t = a \/ t = b -> Forall proper cs -> Forall (on_pair a b) cs -> cs <> [] ->
  (forall c, In c cs -> 101 / 100 * price_in a c <= / 10 ^ 6) ->
  exists r cl ch, simple_optimizer (S n) cs t = Ret (Some r) /\ In cl cs /\ In ch cs /\ (forall c, In c cs -> price_in a cl <= price_in a c <= price_in a ch) /\
    so_p r = (99 / 100 * price_in a cl + 101 / 100 * price_in a ch) / 2.
Proof. exact so_tiny. Qed.
Theorem C94_rejects : forall n cs t, Forall proper cs -> (forall a b, Forall (on_pair a b) cs -> cs <> [] -> t <> a /\ t <> b) -> simple_optimizer n cs t = Raise AssertionError.
Proof. exact so_rejects. Qed.
Example C94_ex : isprimary norm_cpc "A" "B" = true /\ Forall proper [exa; exb] /\ Forall (on_pair "A" "B") [exa; exb] /\ 0 < holding exa "B" /\ optimal "B" "A" exbest /\ net exbest "B" = - 5.
Proof.
  split; [reflexivity|]. split; [apply ex_proper|]. split; [repeat constructor|]. split; [unfold holding, exa; cbn [y_act tknx]; destruct (string_dec "A" "B"); [discriminate|]; lra|].
  split; [|rewrite ex_net; reflexivity].
  pose proof (marginal_arbitrage exprices "B" exbest ex_proper ex_prices eq_refl ex_marginal) as A. destruct A as (A1 & A2 & A3).
  - exists exa. split; [left; reflexivity|right; reflexivity].
  - intros u Nu. rewrite ex_net. destruct (string_dec u "B"); [contradiction|reflexivity].
  - split; [exact A1|]. split; [apply A2; discriminate|]. intros l El Al Nl. apply A3; try assumption. intros u Nu. destruct (string_dec u "A") as [->|Nu']; [exact Nl|].
    rewrite outside; [apply Rle_refl|]. rewrite El. intros c [<-|[<-|[]]]; split; intros G; [apply Nu'|apply Nu|apply Nu'|apply Nu]; symmetry; exact G.
Qed.

(** ** C95 *)
Theorem C95_make : forall data tk, NoDup (map fst data) ->
  (forall s, make_sfc data tk = Ret s -> s_data s = data /\ marked data (s_ov s) /\ (forall t, marked data t -> t = s_ov s) /\
    incl (map fst data) (s_tokens s) /\ (forall t, In t (s_tokens s) <-> In t (match tk with Some ts => ts | None => map fst data end))) /\
  ((exists s, make_sfc data tk = Ret s) <-> (exists t, marked data t /\ forall u, marked data u -> u = t) /\ (forall ts, tk = Some ts -> incl (map fst data) ts)) /\
  ((exists s, make_sfc data tk = Ret s) \/ make_sfc data tk = Raise AssertionError).
Proof. exact sfc_make. Qed.
Theorem C95_lookup : forall s t, NoDup (map fst (s_data s)) ->
  (~ In t (s_tokens s) -> sfc_get s t = Raise AssertionError /\ is_optimizationvar s t = Raise AssertionError /\ is_constraint s t = Raise AssertionError) /\
  (In t (s_tokens s) -> (forall v, In (t, v) (s_data s) -> sfc_get s t = Ret v) /\ (~ In t (map fst (s_data s)) -> sfc_get s t = Ret (Num 0)) /\
    exists b, is_optimizationvar s t = Ret b /\ is_constraint s t = Ret (negb b) /\ (b = true <-> t = s_ov s)).
Proof. exact sfc_lookup. Qed.
Theorem C95_is_arbitrage : forall data tk s, NoDup (map fst data) -> make_sfc data tk = Ret s -> (is_arbsfc s = true <-> forall t v, In (t, v) data -> t <> s_ov s -> v = Num 0).
Proof. exact sfc_arb. Qed.
Theorem C95_arb : forall t, exists s, arb t = Ret s /\ s_tokens s = [t] /\ s_ov s = t /\ is_arbsfc s = true /\ forall u, u <> t -> sfc_get s u = Raise AssertionError.
Proof.
  intros t. destruct (arb_sfc t) as (s & E & D & T & O & A). exists s. split; [exact E|]. split; [exact T|]. split; [exact O|]. split; [exact A|].
  intros u Nu. apply (sfc_lookup s u); [rewrite D; repeat constructor; intros []|]. rewrite T. intros [G|[]]. congruence.
Qed.
Theorem C95_all_tokens : forall cs data s, NoDup (map fst data) -> SFC cs data = Ret s -> forall t, In t (s_tokens s) <-> exists c, In c cs /\ (tknx c = t \/ tkny c = t).
Proof. exact SFC_tokens. Qed.
Example C95_ex : exists s, SFC [exa; exb] [("B"%string, Text "OptimizationVar")] = Ret s /\ sfc_get s "A" = Ret (Num 0) /\ is_arbsfc s = true /\ sfc_get s "C" = Raise AssertionError.
Proof. eexists. split; [reflexivity|]. repeat split. Qed.

(** ** C96 *)
Theorem C96_make : forall cid tin ain tout aout,
  (ain * aout < 0 -> 0 < ain -> make_ti cid tin ain tout aout = Ret (mkTI cid tin ain tout aout)) /\
  (ain * aout < 0 -> ain < 0 -> make_ti cid tin ain tout aout = Raise AssertionError) /\
  (0 <= ain * aout -> tiny ain -> tiny aout -> make_ti cid tin ain tout aout = Ret (mkTI cid tin 0 tout 0)) /\
  (0 <= ain * aout -> ~ (tiny ain /\ tiny aout) -> make_ti cid tin ain tout aout = Raise ValueError).
Proof. exact ti_value. Qed.
Theorem C96_signs : forall cid tin ain tout aout i, make_ti cid tin ain tout aout = Ret i ->
  0 <= amtin i /\ amtout i <= 0 /\ (amtin i = 0 <-> amtout i = 0) /\ tknin i = tin /\ tknout i = tout /\ ti_cid i = cid.
Proof. exact ti_signs. Qed.
Theorem C96_new : forall cid t1 a1 t2 a2, t1 <> t2 ->
  (a1 * a2 < 0 -> exists i, new_ti cid t1 a1 t2 a2 = Ret i /\ new_ti cid t2 a2 t1 a1 = Ret i /\ ti_cid i = cid /\
     ((0 < a1 /\ i = mkTI cid t1 a1 t2 a2) \/ (0 < a2 /\ i = mkTI cid t2 a2 t1 a1))) /\
  (0 <= a1 * a2 -> tiny a1 -> tiny a2 -> exists i, new_ti cid t1 a1 t2 a2 = Ret i /\ amtin i = 0 /\ amtout i = 0) /\
  (0 <= a1 * a2 -> ~ (tiny a1 /\ tiny a2) -> new_ti cid t1 a1 t2 a2 = Raise ValueError).
Proof. exact new_value. Qed.
Theorem C96_same_token : forall cid t a1 a2, new_ti cid t a1 t a2 = Raise AssertionError.
Proof. intros. unfold new_ti. rewrite String.eqb_refl. reflexivity. Qed.
Theorem C96_prices : forall cid tin ain tout aout i, make_ti cid tin ain tout aout = Ret i ->
  (amtin i <> 0 -> is_empty i = false /\ exists v, price_outperin i = Ret v /\ price_inperout i = Ret (/ v) /\ 0 < v /\ v * amtin i = - amtout i) /\
  (amtin i = 0 -> is_empty i = true /\ price_outperin i = Raise ZeroDivision /\ price_inperout i = Raise ZeroDivision).
Proof. intros cid tin ain tout aout i E. apply ti_signs in E as (A & B & C & _). apply ti_prices; assumption. Qed.
Example C96_ex : new_ti 0 "A" (- (10 / 3)) "B" 5 = Ret (mkTI 0 "B" 5 "A" (- (10 / 3))) /\ tiny 0 /\ ~ tiny 1.
Proof.
  split; [|split; unfold tiny; [rewrite Rabs_R0; apply Rinv_0_lt_compat, pow_lt; lra|rewrite Rabs_R1; intros G; lra]].
  destruct (C96_new 0 "A" (- (10 / 3)) "B" 5) as [H _]; [discriminate|]. destruct H as (i & E & _ & _ & [[H _]|[_ ->]]); [lra|lra|exact E].
Qed.

(** ** C97 *)
Theorem C97_totals : forall ot op cs target v, order ot -> order op -> Forall proper cs -> Forall (fun a => 0 < a) v -> List.length v = List.length (tokens_t ot cs target) ->
  exists P best d, prices target (tokens_t ot cs target) v P /\ pools best = cs /\ Forall (marginal P) best /\
    dtkn_d ot op cs target v = Ret (d, map (net best) (tokens_t ot cs target)) /\ (forall t, dget d t = net best t).
Proof. exact dtkn_meaning. Qed.
Theorem C97_tokens : forall ot cs target, order ot -> NoDup (tokens_t ot cs target) /\
  forall t, In t (tokens_t ot cs target) <-> t <> target /\ exists c, In c cs /\ (tknx c = t \/ tkny c = t).
Proof. intros ot cs target Ot. split; [apply tokens_t_nodup, Ot|]. intros t. rewrite tokens_t_in by exact Ot. rewrite tokens_in. reflexivity. Qed.
Theorem C97_length : forall ot op cs target v, List.length v <> List.length (tokens_t ot cs target) -> dtkn_d ot op cs target v = Raise AssertionError.
Proof. exact dtkn_length. Qed.
Theorem C97_unique : forall P c dx dy dx' dy', pool_ok c -> (forall t, 0 < P t) -> marginal P (c, dx, dy) -> marginal P (c, dx', dy') -> dx = dx' /\ dy = dy'.
Proof. exact marginal_unique. Qed.
Theorem C97_duality : forall P toks best l, Forall proper (pools best) -> (forall t, 0 < P t) -> NoDup toks -> (forall c, In c (pools best) -> In (tknx c) toks /\ In (tkny c) toks) ->
  Forall (marginal P) best -> pools l = pools best -> all_allowed l -> worth P toks (net best) <= worth P toks (net l) /\ worth P toks (net best) <= 0.
Proof. exact marginal_duality. Qed.
Theorem C97_arbitrage : forall P t best, Forall proper (pools best) -> (forall u, 0 < P u) -> P t = 1 -> Forall (marginal P) best -> (exists c, In c (pools best) /\ (tknx c = t \/ tkny c = t)) ->
  (forall u, u <> t -> net best u = 0) -> arbitrage t best.
Proof. exact marginal_arbitrage. Qed.
Theorem C97_near : forall P t toks best l, Forall proper (pools best) -> (forall u, 0 < P u) -> P t = 1 -> Forall (marginal P) best -> NoDup (t :: toks) ->
  (forall u, In u (t :: toks) <-> exists c, In c (pools best) /\ (tknx c = u \/ tkny c = u)) ->
  pools l = pools best -> all_allowed l -> (forall u, u <> t -> net l u <= 0) -> net best t + worth P toks (net best) <= net l t.
Proof. exact marginal_near. Qed.
Example C97_ex : Forall proper (pools exbest) /\ (forall t, 0 < exprices t) /\ exprices "B" = 1 /\ Forall (marginal exprices) exbest /\ arbitrage "B" exbest /\ net exbest "B" = - 5.
Proof.
  split; [apply ex_proper|]. split; [apply ex_prices|]. split; [reflexivity|]. split; [apply ex_marginal|]. split; [|rewrite ex_net; reflexivity].
  apply (C97_arbitrage exprices); [apply ex_proper|apply ex_prices|reflexivity|apply ex_marginal|exists exa; split; [left; reflexivity|right; reflexivity]|].
  intros u Nu. rewrite ex_net. destruct (string_dec u "B"); [contradiction|reflexivity].
Qed.

(** ** C98 *)
Theorem C98_outcome : forall ot op solve cs s eps maxiter pstart estimates minimal p0, order ot -> order op -> Forall proper cs ->
  (forall J b, List.length b = List.length p0 -> List.length (solve J b) = List.length b) ->
  is_arbsfc s = true -> (exists c, In c cs /\ (tknx c = s_ov s \/ tkny c = s_ov s)) ->
  start_prices (tokens_t ot cs (s_ov s)) pstart estimates = Ret p0 -> Forall (fun v => 0 < v) p0 -> List.length p0 = List.length (tokens_t ot cs (s_ov s)) ->
  exists q d, q O = map (fun v => ln v / ln 10) p0 /\ newton_run solve (dtkn_log ot op cs (s_ov s)) q d /\
    let out := margp_optimizer ot op solve cs s eps maxiter pstart estimates minimal in
    (rounds maxiter = O -> out = Raise NameError) /\
    (forall m, (m < rounds maxiter - 1)%nat -> norm (d m) < tolerance eps -> (forall j, (j < m)%nat -> tolerance eps <= norm (d j)) ->
      exists r P best, out = Ret (Converged r) /\ m_n r = m /\ m_minimal r = minimal /\ reports r cs (s_ov s) (if Nat.eqb m 0 then p0 else map (fun a => exp (a * ln 10)) (q (S m))) P best) /\
    ((0 < rounds maxiter)%nat -> (forall j, (j < rounds maxiter - 1)%nat -> tolerance eps <= norm (d j)) -> out = Ret (NotConverged (rounds maxiter - 1))).
Proof. exact run_outcome. Qed.
(** with a single round nothing converges *)
Theorem C98_one_round : forall ot op solve cs s eps pstart estimates minimal p0, order ot -> order op -> Forall proper cs ->
  (forall J b, List.length b = List.length p0 -> List.length (solve J b) = List.length b) ->
  is_arbsfc s = true -> (exists c, In c cs /\ (tknx c = s_ov s \/ tkny c = s_ov s)) ->
  start_prices (tokens_t ot cs (s_ov s)) pstart estimates = Ret p0 -> Forall (fun v => 0 < v) p0 -> List.length p0 = List.length (tokens_t ot cs (s_ov s)) ->
  margp_optimizer ot op solve cs s eps (Some 1%Z) pstart estimates minimal = Ret (NotConverged 0).
Proof.
  intros ot op solve cs s eps pstart estimates minimal p0 Ot Op H S A I1 E P L. destruct (run_outcome ot op solve cs s eps (Some 1%Z) pstart estimates minimal p0 Ot Op H S A I1 E P L) as (q & d & _ & _ & _ & _ & O3).
  apply O3; [cbn; lia|]. intros j Hj. exfalso. cbn in Hj. lia.
Qed.
Theorem C98_rejects : forall ot op solve cs s eps maxiter pstart estimates minimal,
  is_arbsfc s = false \/ ~ (exists c, In c cs /\ (tknx c = s_ov s \/ tkny c = s_ov s)) ->
  margp_optimizer ot op solve cs s eps maxiter pstart estimates minimal = Raise AssertionError.
Proof. intros. apply margp_rejects. rewrite tokens_in. assumption. Qed.
Theorem C98_start : forall ts d, (forall t, In t ts -> In t (map fst d)) -> exists p0, start_prices ts (Some d) None = Ret p0 /\ List.length p0 = List.length ts.
Proof. exact start_dict. Qed.
(** the naive claim: a converged result is an arbitrage, up to a fixed precision. A single
    pool offers none, but any profit can be reported for it. *)
Theorem C98_arbitrage_refuted : forall B, exists c s m, proper c /\ tkny c = "B"%string /\ arb "B" = Ret s /\
  margp_optimizer (fun l => l) (fun l => l) divide [c] s None None (Some [("A"%string, 1)]) None false = Ret (Converged m) /\ m_value m <= - B /\ B <= dget (m_dtokens m) "A" /\
  arbitrage "B" [(c, 0, 0)] /\ (forall j b, j <> 0 -> exists v, divide [[j]] [b] = [v] /\ j * v = b).
Proof.
  intros B. set (s := (Rabs B + 1) * 10 ^ 8). assert (HB : 0 < Rabs B + 1) by (pose proof (Rabs_pos B); lra). assert (Hs : 0 < s) by (apply Rmult_lt_0_compat; [exact HB|apply pow_lt; lra]).
  destruct (false_profit s Hs) as (c & m & _ & E1 & E2 & E3 & E4). exists (lone s), c, m. split; [apply lone_ok, Hs|]. split; [reflexivity|]. split; [exact E1|]. split; [exact E2|].
  pose proof (Rle_abs B) as LB.
  split; [|split; [|split]].
  - eapply Rle_trans; [exact E3|]. unfold s. replace (- ((Rabs B + 1) * 10 ^ 8) / 10 ^ 8) with (- (Rabs B + 1)) by (field; apply Rgt_not_eq, pow_lt; lra). lra.
  - rewrite E4. unfold s. replace ((Rabs B + 1) * 10 ^ 8 / 10 ^ 7) with ((Rabs B + 1) * 10) by field. lra.
  - apply (lone_arbitrage (lone s)), lone_ok, Hs.
  - intros j b Hj. exists (b / j). split; [reflexivity|]. field. exact Hj.
Qed.
Example C98_ex : exists s, arb "B" = Ret s /\ order (fun l => l) /\ Forall proper [exa; exb] /\ is_arbsfc s = true /\ (exists c, In c [exa; exb] /\ (tknx c = s_ov s \/ tkny c = s_ov s)) /\
  start_prices (tokens_t (fun l => l) [exa; exb] (s_ov s)) (Some [("A"%string, 2)]) None = Ret [2] /\ (forall J b, List.length b = 1%nat -> List.length (divide J b) = List.length b).
Proof.
  destruct (C95_arb "B") as (s & E & _ & O & A & _). exists s. split; [exact E|]. split; [intros l; apply Permutation_refl|]. split; [apply ex_proper|]. split; [exact A|]. rewrite O.
  split; [exists exa; split; [left; reflexivity|right; reflexivity]|]. split; [reflexivity|]. intros J b Hb. unfold divide. destruct J as [|[|j jr] [|J2 J]]; try reflexivity. destruct b as [|v [|w b]]; reflexivity.
Qed.

(** ** C99 *)
Theorem C99_reports : forall ot op solve cs s eps maxiter pstart estimates minimal m, order ot -> order op -> Forall proper cs ->
  margp_optimizer ot op solve cs s eps maxiter pstart estimates minimal = Ret (Converged m) ->
  is_arbsfc s = true /\ m_minimal m = minimal /\ (exists c, In c cs /\ (tknx c = s_ov s \/ tkny c = s_ov s)) /\ exists P best, reports m cs (s_ov s) (m_p m) P best.
Proof. exact converged_reports. Qed.
Theorem C99_optimal : forall m cs target P best, Forall proper cs -> reports m cs target (m_p m) P best -> (exists c, In c cs /\ (tknx c = target \/ tkny c = target)) ->
  Forall (fun a => a = 0) (m_dt m) -> arbitrage target best.
Proof.
  intros m cs target P best H R I1 Z. destruct R as (R1 & R2 & R3 & R4 & R5 & (P1 & P2 & P3 & P4) & R6 & R7 & R8 & R9 & R10). apply (marginal_arbitrage P); try assumption; [rewrite R6; exact H|rewrite R6; exact I1|].
  intros u Nu. destruct (in_dec string_dec u (m_tokens m)) as [J|J].
  - rewrite R9, Forall_forall in Z. apply Z, in_map, J.
  - apply outside. rewrite R6. intros c Hc. split; intros G; apply J, R5; (split; [exact Nu|]); exists c; auto.
Qed.
Theorem C99_values : forall m cs target P best, Forall proper cs -> reports m cs target (m_p m) P best -> m_minimal m = false ->
  (forall a b, m_price m a b = Ret (P a / P b)) /\ dxdyvalues m = Ret (map (fun e => (snd (fst e), snd e)) best) /\
  (exists cs', curves_new m = Ret (Some cs') /\ Forall2 (fun e c' => settled (P (tknx (fst (fst e))) / P (tkny (fst (fst e)))) (fst (fst e)) (snd (fst e)) (snd e) c') best cs') /\
  exists l, trade_instructions m = Ret l /\ NoDup (map ti_cid l) /\ (forall i, In i l -> exists e, nth_error best (ti_cid i) = Some e /\ instructs i e) /\
    (forall n c dx dy, nth_error best n = Some (c, dx, dy) -> dx <> 0 \/ dy <> 0 -> exists i, In i l /\ ti_cid i = n).
Proof. exact results_value. Qed.
Theorem C99_prices : forall m cs target P best a b c, Forall proper cs -> reports m cs target (m_p m) P best -> m_minimal m = false ->
  exists u v, m_price m a b = Ret u /\ m_price m b c = Ret v /\ m_price m b a = Ret (/ u) /\ m_price m a c = Ret (u * v) /\ m_price m a a = Ret 1 /\ 0 < u.
Proof.
  intros m cs target P best a b c H R N. destruct (results_value m cs target P best H R N) as [V _]. destruct R as (_ & _ & _ & _ & _ & (P1 & _) & _). pose proof (P1 a). pose proof (P1 b). pose proof (P1 c).
  exists (P a / P b), (P b / P c). rewrite !V. repeat split; try (f_equal; field; lra). apply Rdiv_lt_0_compat; assumption.
Qed.
Theorem C99_minimal : forall m, m_minimal m = true -> (forall a b, m_price m a b = Raise AssertionError) /\ dxdyvalues m = Raise AssertionError /\ curves_new m = Raise AssertionError /\ trade_instructions m = Raise AssertionError.
Proof. exact minimal_raises. Qed.
Theorem C99_adjust_none : forall cs, adjust_curves cs None true = Raise ValueError /\ adjust_curves cs None false = Ret None.
Proof. exact adjust_none. Qed.
Definition exresult : margp := mkMargp [exa; exb] "B" ["A"%string] [9 / 4] [("A"%string, 0); ("B"%string, - 5)] [0] 4 (- 5) false.
Example C99_ex : reports exresult [exa; exb] "B" [9 / 4] exprices exbest /\ m_minimal exresult = false /\ Forall (fun a => a = 0) (m_dt exresult).
Proof.
  split; [|split; [reflexivity|repeat constructor]]. unfold reports, exresult. cbn [m_curves m_target m_p m_tokens m_dtokens m_dt m_value]. split; [reflexivity|]. split; [reflexivity|]. split; [reflexivity|].
  split; [repeat constructor; intros []|]. split; [|split; [|split; [reflexivity|]; split; [exact ex_marginal|]; split; [|split]]].
  - intros t. split.
    + intros [<-|[]]. split; [discriminate|]. exists exa. split; [left; reflexivity|left; reflexivity].
    + intros [N (c & [<-|[<-|[]]] & [G|G])]; cbn in G; subst t; try (left; reflexivity); exfalso; apply N; reflexivity.
  - split; [apply ex_prices|]. split; [intros t Ht; unfold exprices; destruct (string_dec t "A") as [->|_]; [exfalso; apply Ht; left; reflexivity|reflexivity]|]. split; reflexivity.
  - intros t. rewrite ex_net. cbn [dget]. destruct (String.eqb "A" t) eqn:E; [apply String.eqb_eq in E; subst t; destruct (string_dec "A" "B"); [discriminate|reflexivity]|].
    destruct (String.eqb "B" t) eqn:E2; [apply String.eqb_eq in E2; subst t; destruct (string_dec "B" "B"); [reflexivity|congruence]|]. apply String.eqb_neq in E2. destruct (string_dec t "B"); [congruence|reflexivity].
  - cbn [map]. rewrite ex_net. destruct (string_dec "A" "B"); [discriminate|reflexivity].
  - rewrite ex_net. destruct (string_dec "B" "B"); [reflexivity|congruence].
Qed.

(** ** C100 *)
Theorem C100_feasible : forall sc s l, (forall u, 0 < sc u) -> Forall pool_ok (pools l) ->
  (nofees_feasible sc s l <-> all_allowed (map (reported sc) l) /\ forall t v, In t (s_tokens s) -> sfc_get s t = Ret (Num v) -> net (map (reported sc) l) t = v).
Proof. exact feasible_iff. Qed.
Theorem C100_objective : forall sc s l, (forall u, 0 < sc u) -> nofees_objective s l = sc (s_ov s) * net (map (reported sc) l) (s_ov s).
Proof. exact objective_value. Qed.
Theorem C100_arbitrage : forall sc cs data s l, (forall u, 0 < sc u) -> Forall proper cs -> NoDup (map fst data) -> SFC cs data = Ret s -> is_arbsfc s = true -> pools l = cs ->
  (solves sc s cs l <-> arbitrage (s_ov s) (map (reported sc) l)).
Proof.
  intros sc cs data s l S H D E A El. destruct (sfc_arbitrage_shape cs data s D E A) as (H1 & H2 & H3 & H4). apply nofees_arbitrage; assumption.
Qed.
Theorem C100_string_argument : forall sc t s l, (forall u, 0 < sc u) -> Forall pool_ok (pools l) -> arb t = Ret s -> (nofees_feasible sc s l <-> all_allowed (map (reported sc) l)).
Proof. exact arb_feasible. Qed.
(** the naive claim: with the target token as the argument the problem is that of the arbitrage *)
Theorem C100_string_argument_refuted : exists c s l, proper c /\ arb "B" = Ret s /\ pools l = [c] /\ nofees_feasible (fun _ => 1) s l /\
  nofees_objective s l < 0 /\ 0 < net (map (reported (fun _ => 1)) l) "A" /\ arbitrage "B" [(c, 0, 0)].
Proof.
  pose proof ex_proper as H. inversion H as [|? ? H1 _]; subst. destruct (arb_sfc "B") as (s & E & _ & _ & O & _). exists exa, s, [(exa, 10, - 5)].
  assert (R : map (reported (fun _ => 1)) [(exa, 10, - 5)] = [(exa, 10, - 5)]) by (cbn [map reported]; do 2 f_equal; [f_equal|]; lra).
  split; [exact H1|]. split; [exact E|]. split; [reflexivity|]. split; [|split; [|split]].
  - apply (arb_feasible _ "B" s); [intros u; lra|constructor; [apply H1|constructor]|exact E|]. rewrite R. constructor; [|constructor]. unfold allowed, CpcModel.y, exa. cbn [fst snd k x x_act y_act]. lra.
  - rewrite (objective_value (fun _ => 1)) by (intros; lra). rewrite R, O. cbn [net flow]. change (tknx exa) with "A"%string. change (tkny exa) with "B"%string. destruct (string_dec "A" "B"); [discriminate|]. destruct (string_dec "B" "B"); [lra|congruence].
  - rewrite R. cbn [net flow]. change (tknx exa) with "A"%string. change (tkny exa) with "B"%string. destruct (string_dec "A" "A"); [|congruence]. destruct (string_dec "B" "A"); [discriminate|]. lra.
  - apply (lone_arbitrage exa), H1.
Qed.
Example C100_ex : exists s, SFC [exa; exb] [("B"%string, Text "OptimizationVar")] = Ret s /\ is_arbsfc s = true /\ solves (fun _ => 1) s [exa; exb] exbest.
Proof.
  eexists. split; [reflexivity|]. split; [reflexivity|]. assert (R : map (reported (fun _ => 1)) exbest = exbest) by (unfold exbest; cbn [map reported]; repeat (f_equal; try lra)).
  eapply C100_arbitrage with (data := [("B"%string, Text "OptimizationVar")]); [intros; lra|apply ex_proper|repeat constructor; intros []|reflexivity|reflexivity|reflexivity|].
  rewrite R. cbn [s_ov]. apply C97_ex.
Qed.

Print Assumptions C91_raises.
Print Assumptions C91_terminates.
Print Assumptions C91_root.
Print Assumptions C91_left_end.
Print Assumptions C91_short.
Print Assumptions C91_root_refuted.
Print Assumptions C92_slope.
Print Assumptions C92_curvature.
Print Assumptions C92_quadratic.
Print Assumptions C92_line.
Print Assumptions C92_descent.
Print Assumptions C92_descent_refuted.
Print Assumptions C92_parts.
Print Assumptions C92_jacobian.
Print Assumptions C93_optimal.
Print Assumptions C93_gain.
Print Assumptions C93_monotone.
Print Assumptions C93_direction.
Print Assumptions C94_total.
Print Assumptions C94_value.
Print Assumptions C94_globalmax.
Print Assumptions C94_target.
Print Assumptions C94_terminates.
Print Assumptions C94_same_price.
Print Assumptions C94_tiny_prices.
Print Assumptions C94_rejects.
Print Assumptions C95_make.
Print Assumptions C95_lookup.
Print Assumptions C95_is_arbitrage.
Print Assumptions C95_arb.
Print Assumptions C95_all_tokens.
Print Assumptions C96_make.
Print Assumptions C96_signs.
Print Assumptions C96_new.
Print Assumptions C96_same_token.
Print Assumptions C96_prices.
Print Assumptions C97_totals.
Print Assumptions C97_tokens.
Print Assumptions C97_length.
Print Assumptions C97_unique.
Print Assumptions C97_duality.
Print Assumptions C97_arbitrage.
Print Assumptions C97_near.
Print Assumptions C98_outcome.
Print Assumptions C98_one_round.
Print Assumptions C98_rejects.
Print Assumptions C98_start.
Print Assumptions C98_arbitrage_refuted.
Print Assumptions C99_reports.
Print Assumptions C99_optimal.
Print Assumptions C99_values.
Print Assumptions C99_prices.
Print Assumptions C99_minimal.
Print Assumptions C99_adjust_none.
Print Assumptions C100_feasible.
Print Assumptions C100_objective.
Print Assumptions C100_arbitrage.
Print Assumptions C100_string_argument.
Print Assumptions C100_string_argument_refuted.
