From Coq Require Import Reals Lra Bool String.
From Verif Require Import CurveModel CurveProofs CpcModel CpcSpec.
Local Open Scope R_scope.

Lemma div_div k v : k <> 0 -> v <> 0 -> k / (k / v) = v.
Proof. intros. field. split; assumption. Qed.
Lemma div_nz k v : k <> 0 -> v <> 0 -> k / v <> 0.
Proof. intros Hk Hv E. apply Hk. replace k with (k / v * v) by (field; assumption). rewrite E. ring. Qed.
Lemma make_ok k x xa ya tx ty : x <> 0 -> make k x xa ya tx ty = Ret (mkCpc k x (dflt xa x) (dflt ya (k / x)) tx ty).
Proof. intros. unfold make. rewrite rdiv_ok by assumption. reflexivity. Qed.
Lemma make_inv k x xa ya tx ty c : make k x xa ya tx ty = Ret c -> x <> 0 /\ c = mkCpc k x (dflt xa x) (dflt ya (k / x)) tx ty.
Proof.
  unfold make, rdiv. unfold req. destruct (Req_EM_T x 0); cbn [rbind]; [discriminate|]. intros E. split; congruence.
Qed.
Lemma rdiv_inv a b r : rdiv a b = Ret r -> b <> 0 /\ r = a / b.
Proof. unfold rdiv, req. destruct (Req_EM_T b 0); [discriminate|]. intros E. split; congruence. Qed.
Lemma rle_iff a b : rle a b = true <-> a <= b.
Proof. unfold rle. destruct (Rle_dec a b); split; intros; try discriminate; try contradiction; auto. Qed.
Lemma rlt_iff a b : rlt a b = true <-> a < b.
Proof. unfold rlt. destruct (Rlt_dec a b); split; intros; try discriminate; try contradiction; auto. Qed.
Lemma nrle_iff a b : rle a b = false <-> b < a.
Proof. unfold rle. destruct (Rle_dec a b); split; intros; try discriminate; try lra; auto. Qed.
Lemma nrlt_iff a b : rlt a b = false <-> b <= a.
Proof. unfold rlt. destruct (Rlt_dec a b); split; intros; try discriminate; try lra; auto. Qed.

Definition moved (c : cpc) (X Y : R) : cpc := mkCpc (k c) X (x_act c + X - x c) (y_act c + Y - y c) (tknx c) (tkny c).
Lemma exec_dx c dx ib c' : execute c (Some dx) None ib = Ret c' <->
  ((ib = true \/ - x_act c <= dx) /\ x c + dx <> 0 /\ c' = moved c (x c + dx) (k c / (x c + dx))).
Proof.
  unfold execute. cbn [dflt]. split.
  - destruct (negb (rle (- x_act c) dx) && negb ib) eqn:E; [discriminate|].
    intros H. unfold rbind in H. destruct (rdiv (k c) (x c + dx)) eqn:D; [|discriminate]. apply rdiv_inv in D as [D1 D2].
    apply make_inv in H as [_ H]. subst. split; [|split; [exact D1|reflexivity]].
    apply andb_false_iff in E as [E|E]; apply negb_false_iff in E; [right; apply rle_iff; exact E|left; exact E].
  - intros (Hb & Hn & ->).
    assert (E : negb (rle (- x_act c) dx) && negb ib = false).
    { destruct Hb as [-> | Hb]; [apply andb_false_r|]. rewrite (proj2 (rle_iff _ _) Hb). reflexivity. }
    rewrite E, rdiv_ok by exact Hn. cbn [rbind]. rewrite make_ok by exact Hn. reflexivity.
Qed.
Lemma exec_dy c dy ib c' : execute c None (Some dy) ib = Ret c' <->
  ((ib = true \/ - y_act c <= dy) /\ k c <> 0 /\ y c + dy <> 0 /\ c' = moved c (k c / (y c + dy)) (y c + dy)).
Proof.
  unfold execute. split.
  - destruct (negb (rle (- y_act c) dy) && negb ib) eqn:E; [discriminate|].
    intros H. unfold rbind in H. destruct (rdiv (k c) (y c + dy)) eqn:D; [|discriminate]. apply rdiv_inv in D as [D1 D2].
    apply make_inv in H as [H1 H]. subst. split; [|split; [|split; [exact D1|reflexivity]]].
    + apply andb_false_iff in E as [E|E]; apply negb_false_iff in E; [right; apply rle_iff; exact E|left; exact E].
    + intros Hk. apply H1. rewrite Hk. unfold Rdiv. apply Rmult_0_l.
  - intros (Hb & Hk & Hn & ->).
    assert (E : negb (rle (- y_act c) dy) && negb ib = false).
    { destruct Hb as [-> | Hb]; [apply andb_false_r|]. rewrite (proj2 (rle_iff _ _) Hb). reflexivity. }
    rewrite E, rdiv_ok by exact Hn. cbn [rbind]. rewrite make_ok by (apply div_nz; assumption). reflexivity.
Qed.
Lemma exec_none c ib : execute c None None ib = execute c (Some 0) None ib.
Proof. reflexivity. Qed.

Lemma cpc_eq c c' : k c = k c' -> x c = x c' -> x_act c = x_act c' -> y_act c = y_act c' -> tknx c = tknx c' -> tkny c = tkny c' -> c = c'.
Proof. destruct c, c'. cbn. intros. subst. reflexivity. Qed.
Lemma moved_self c : moved c (x c) (y c) = c.
Proof. apply cpc_eq; cbn; ring || reflexivity. Qed.
Lemma moved_moved c X Y X' Y' : y (moved c X Y) = Y -> moved (moved c X Y) X' Y' = moved c X' Y'.
Proof. intros H. unfold moved at 1. rewrite H. apply cpc_eq; cbn; ring || reflexivity. Qed.
Lemma y_moved c X Y : y (moved c X Y) = k c / X. Proof. reflexivity. Qed.

Lemma pool_pos c : pool_ok c -> 0 < y c /\ 0 < k c /\ 0 < x c /\ x c * y c = k c /\ 0 <= x_min c /\ 0 <= y_min c.
Proof.
  intros (Hk & Hx & Ha & Hb). assert (Hy : 0 < y c) by (unfold y; apply Rdiv_lt_0_compat; assumption).
  split; [exact Hy|]. split; [exact Hk|]. split; [exact Hx|].
  split; [unfold y; field; lra|]. unfold x_min, y_min, y. lra.
Qed.

(** products against a positive divisor *)
Lemma le_div a b c : 0 < b -> a <= c / b <-> a * b <= c.
Proof.
  intros Hb. split; intros H.
  - apply (Rmult_le_compat_r b) in H; [|lra]. unfold Rdiv in H. rewrite Rmult_assoc, Rinv_l, Rmult_1_r in H by lra. exact H.
  - apply (Rmult_le_reg_r b); [exact Hb|]. unfold Rdiv. rewrite Rmult_assoc, Rinv_l, Rmult_1_r by lra. exact H.
Qed.
Lemma div_le a b c : 0 < b -> c / b <= a <-> c <= a * b.
Proof.
  intros Hb. split; intros H.
  - apply (Rmult_le_compat_r b) in H; [|lra]. unfold Rdiv in H. rewrite Rmult_assoc, Rinv_l, Rmult_1_r in H by lra. exact H.
  - apply (Rmult_le_reg_r b); [exact Hb|]. unfold Rdiv. rewrite Rmult_assoc, Rinv_l, Rmult_1_r by lra. exact H.
Qed.
Lemma lt_div a b c : 0 < b -> a < c / b <-> a * b < c.
Proof. intros Hb. pose proof (div_le a b c Hb). split; intros H'; apply Rnot_le_lt; intros G; apply H in G; lra. Qed.
Lemma div_lt a b c : 0 < b -> c / b < a <-> c < a * b.
Proof. intros Hb. pose proof (le_div a b c Hb). split; intros H'; apply Rnot_le_lt; intros G; apply H in G; lra. Qed.

Lemma inrange_iff v m o : inrange v (Some m) o = true <-> m <= v /\ (forall b, o = Some b -> v <= b).
Proof.
  unfold inrange. destruct (rlt v m) eqn:E.
  - apply rlt_iff in E. split; [discriminate|]. intros [H _]. lra.
  - apply nrlt_iff in E. destruct o as [b|].
    + rewrite negb_true_iff, nrlt_iff. split; [intros H; split; [exact E|intros ? [= <-]; exact H]|intros [_ H]; apply H; reflexivity].
    + split; [|reflexivity]. intros _. split; [exact E|discriminate].
Qed.
Lemma x_max_spec c v : pool_ok c -> 0 < v -> (forall b, x_max c = Some b -> v <= b) <-> y_min c <= k c / v.
Proof.
  intros H Hv. destruct (pool_pos c H) as (Hy & Hk & Hx & Hxy & Hm & Hn). unfold x_max. destruct (rlt 0 (y_min c)) eqn:E.
  - apply rlt_iff in E. rewrite (le_div (y_min c) v (k c)) by exact Hv. split.
    + intros G. specialize (G _ eq_refl). apply le_div in G; [|exact E]. lra.
    + intros G b [= <-]. apply le_div; [exact E|]. lra.
  - apply nrlt_iff in E. split; [|discriminate]. intros _. assert (0 < k c / v) by (apply Rdiv_lt_0_compat; assumption). lra.
Qed.
Lemma y_max_spec c v : pool_ok c -> 0 < v -> (forall b, y_max c = Some b -> v <= b) <-> x_min c <= k c / v.
Proof.
  intros H Hv. destruct (pool_pos c H) as (Hy & Hk & Hx & Hxy & Hm & Hn). unfold y_max. destruct (rlt 0 (x_min c)) eqn:E.
  - apply rlt_iff in E. rewrite (le_div (x_min c) v (k c)) by exact Hv. split.
    + intros G. specialize (G _ eq_refl). apply le_div in G; [|exact E]. lra.
    + intros G b [= <-]. apply le_div; [exact E|]. lra.
  - apply nrlt_iff in E. split; [|discriminate]. intros _. assert (0 < k c / v) by (apply Rdiv_lt_0_compat; assumption). lra.
Qed.
Lemma yfromx_range c X : pool_ok c -> X <> 0 -> yfromx_f c X false = Ret (if inrange (k c / X) (Some (y_min c)) (y_max c) then Some (k c / X) else None).
Proof. intros H HX. unfold yfromx_f. rewrite rdiv_ok by exact HX. cbn [rbind]. destruct (inrange _ _ _); reflexivity. Qed.
Lemma range_reserves c X : pool_ok c -> X <> 0 ->
  inrange (k c / X) (Some (y_min c)) (y_max c) = true <-> 0 <= x_act (moved c X (k c / X)) /\ 0 <= y_act (moved c X (k c / X)).
Proof.
  intros H HX. destruct (pool_pos c H) as (Hy & Hk & Hx & Hxy & Hm & Hn). rewrite inrange_iff. cbn [moved x_act y_act].
  destruct (Rlt_or_le 0 X) as [HP|HN].
  - assert (HD : 0 < k c / X) by (apply Rdiv_lt_0_compat; assumption).
    rewrite y_max_spec by assumption. rewrite div_div by lra. unfold x_min, y_min. split; intros [A B]; split; lra.
  - assert (HD : k c / X < 0).
    { unfold Rdiv. assert (/ X < 0) by (apply Rinv_lt_0_compat; lra). assert (0 < k c * - / X) by (apply Rmult_lt_0_compat; lra). lra. }
    unfold y_min in *. split; intros [A B]; lra.
Qed.
Lemma range_reserves_y c Y : pool_ok c -> Y <> 0 ->
  inrange (k c / Y) (Some (x_min c)) (x_max c) = true <-> 0 <= x_act (moved c (k c / Y) Y) /\ 0 <= y_act (moved c (k c / Y) Y).
Proof.
  intros H HX. destruct (pool_pos c H) as (Hy & Hk & Hx & Hxy & Hm & Hn). rewrite inrange_iff. cbn [moved x_act y_act].
  destruct (Rlt_or_le 0 Y) as [HP|HN].
  - assert (HD : 0 < k c / Y) by (apply Rdiv_lt_0_compat; assumption).
    rewrite x_max_spec by assumption. rewrite div_div by lra. unfold x_min, y_min. split; intros [A B]; split; lra.
  - assert (HD : k c / Y < 0).
    { unfold Rdiv. assert (/ Y < 0) by (apply Rinv_lt_0_compat; lra). assert (0 < k c * - / Y) by (apply Rmult_lt_0_compat; lra). lra. }
    unfold x_min in *. split; intros [A B]; lra.
Qed.

(** C49 *)
Lemma trade_dx c dx ib c' : execute c (Some dx) None ib = Ret c' ->
  k c' = k c /\ x c' = x c + dx /\ x c' * y c' = k c /\ x_act c' - x_act c = dx /\ y_act c' - y_act c = y c' - y c /\
  tknx c' = tknx c /\ tkny c' = tkny c.
Proof.
  intros H. apply exec_dx in H as (_ & Hn & ->). rewrite y_moved. cbn [moved k x x_act y_act tknx tkny].
  repeat split; try ring. field. exact Hn.
Qed.
Lemma trade_dy c dy ib c' : execute c None (Some dy) ib = Ret c' ->
  k c' = k c /\ y c' = y c + dy /\ x c' * y c' = k c /\ y_act c' - y_act c = dy /\ x_act c' - x_act c = x c' - x c /\
  tknx c' = tknx c /\ tkny c' = tkny c.
Proof.
  intros H. apply exec_dy in H as (_ & Hk & Hn & ->). rewrite y_moved. cbn [moved k x x_act y_act tknx tkny].
  rewrite div_div by assumption. repeat split; try ring. field. exact Hn.
Qed.
Lemma back_dx c dx ib c' : pool_ok c -> execute c (Some dx) None ib = Ret c' -> execute c' (Some (- dx)) None ib = Ret c.
Proof.
  intros H E. destruct (pool_pos c H) as (Hy & Hk & Hx & Hxy & _). destruct H as (_ & _ & Ha & _).
  apply exec_dx in E as (Hb & Hn & ->). apply exec_dx. cbn [moved x x_act k].
  split; [right; lra|]. split; [lra|]. rewrite moved_moved by reflexivity.
  replace (x c + dx + - dx) with (x c) by ring. symmetry. apply moved_self.
Qed.
Lemma back_dy c dy ib c' : pool_ok c -> execute c None (Some dy) ib = Ret c' -> execute c' None (Some (- dy)) ib = Ret c.
Proof.
  intros H E. destruct (pool_pos c H) as (Hy & Hk & Hx & Hxy & _). destruct H as (_ & _ & _ & Ha & _).
  apply exec_dy in E as (Hb & Hk' & Hn & ->). apply exec_dy. rewrite y_moved. cbn [moved y_act k]. rewrite div_div by assumption.
  split; [right; lra|]. split; [exact Hk'|]. split; [lra|]. rewrite moved_moved by (rewrite y_moved; apply div_div; assumption).
  replace (y c + dy + - dy) with (y c) by ring. replace (k c / y c) with (x c) by (unfold y; rewrite div_div; lra). symmetry. apply moved_self.
Qed.
Lemma both_ways c dx ib c' : pool_ok c -> execute c (Some dx) None ib = Ret c' ->
  execute c None (Some (y c' - y c)) true = Ret c' /\ (0 <= y_act c' -> execute c None (Some (y c' - y c)) false = Ret c').
Proof.
  intros H E. destruct (pool_pos c H) as (Hy & Hk & Hx & Hxy & _). apply exec_dx in E as (Hb & Hn & ->). rewrite y_moved.
  replace (k c / (x c + dx) - y c) with (k c / (x c + dx) - y c) by reflexivity.
  assert (G : y c + (k c / (x c + dx) - y c) = k c / (x c + dx)) by ring.
  assert (N : k c / (x c + dx) <> 0) by (apply div_nz; lra).
  split; [|intros Ha]; apply exec_dy; rewrite G, div_div by lra; (split; [|split; [lra|split; [exact N|reflexivity]]]).
  - left; reflexivity.
  - right. cbn [moved y_act] in Ha. lra.
Qed.
Lemma split_dx c d1 d2 ib c1 c2 : execute c (Some d1) None ib = Ret c1 -> execute c1 (Some d2) None ib = Ret c2 ->
  execute c (Some (d1 + d2)) None ib = Ret c2.
Proof.
  intros E1 E2. apply exec_dx in E1 as (B1 & N1 & ->). apply exec_dx in E2 as (B2 & N2 & ->). cbn [moved x x_act k] in *.
  apply exec_dx. split; [destruct B2 as [B2|B2]; [left; exact B2|right; lra]|]. split; [lra|].
  rewrite moved_moved by reflexivity. replace (x c + d1 + d2) with (x c + (d1 + d2)) by ring. reflexivity.
Qed.
Lemma split_dy c d1 d2 ib c1 c2 : execute c None (Some d1) ib = Ret c1 -> execute c1 None (Some d2) ib = Ret c2 ->
  execute c None (Some (d1 + d2)) ib = Ret c2.
Proof.
  intros E1 E2. apply exec_dy in E1 as (B1 & K1 & N1 & ->). apply exec_dy in E2 as (B2 & K2 & N2 & ->).
  rewrite y_moved in *. cbn [moved y_act k] in *. rewrite div_div in * by assumption.
  apply exec_dy. split; [destruct B2 as [B2|B2]; [left; exact B2|right; lra]|]. split; [exact K1|]. split; [lra|].
  rewrite moved_moved by (rewrite y_moved; apply div_div; assumption). rewrite <- !Rplus_assoc. reflexivity.
Qed.
Lemma other_side c dx c' : pool_ok c -> 0 < x c + dx -> execute c (Some dx) None false = Ret c' ->
  y_act c' < 0 <-> above (x_max c) (x c').
Proof.
  intros H HX E. apply exec_dx in E as (Hb & Hn & ->). cbn [moved x y_act].
  pose proof (x_max_spec c _ H HX) as S. unfold y_min in S. unfold above. split.
  - intros G. destruct (x_max c) as [m|] eqn:EM.
    + exists m. split; [reflexivity|]. apply Rnot_le_lt. intros L.
      assert (y c - y_act c <= k c / (x c + dx)) by (apply S; intros b [= <-]; exact L). lra.
    + assert (y c - y_act c <= k c / (x c + dx)) by (apply S; discriminate). lra.
  - intros (m & EM & L). apply Rnot_le_lt. intros G. assert (x c + dx <= m) by (apply S; [lra|exact EM]). lra.
Qed.
Lemma quote_dx c dx c' : pool_ok c -> execute c (Some dx) None true = Ret c' ->
  (0 <= x_act c' /\ 0 <= y_act c' -> dyfromdx_f c dx false = Ret (Some (y c' - y c))) /\
  (x_act c' < 0 \/ y_act c' < 0 -> dyfromdx_f c dx false = Ret None).
Proof.
  intros H E. apply exec_dx in E as (_ & Hn & ->). unfold dyfromdx_f. rewrite yfromx_range by assumption. cbn [rbind]. rewrite y_moved.
  pose proof (range_reserves c _ H Hn) as S. split; intros G.
  - apply S in G. rewrite G. reflexivity.
  - destruct (inrange _ _ _); [|reflexivity]. destruct S as [S _]. specialize (S eq_refl). lra.
Qed.
Lemma quote_dy c dy c' : pool_ok c -> execute c None (Some dy) true = Ret c' ->
  (0 <= x_act c' /\ 0 <= y_act c' -> dxfromdy_f c dy false = Ret (Some (x c' - x c))) /\
  (x_act c' < 0 \/ y_act c' < 0 -> dxfromdy_f c dy false = Ret None).
Proof.
  intros H E. apply exec_dy in E as (_ & Hk & Hn & ->). unfold dxfromdy_f, xfromy_f. rewrite rdiv_ok by exact Hn. cbn [rbind].
  pose proof (range_reserves_y c _ H Hn) as S. split; intros G.
  - apply S in G. rewrite G. reflexivity.
  - destruct (inrange _ _ _); [|reflexivity]. destruct S as [S _]. specialize (S eq_refl). lra.
Qed.
Lemma dxmax_value c : pool_ok c -> y_act c < y c ->
  exists m, dx_max c = Ret (Some m) /\ 0 <= m /\ x_max c = Some (x c + m) /\ exists c', execute c (Some m) None false = Ret c' /\ y_act c' = 0.
Proof.
  intros H HY. destruct (pool_pos c H) as (Hy & Hk & Hx & Hxy & Hm & Hn). pose proof H as (_ & _ & Ha & Hb & Hb').
  assert (Hp : 0 < y_min c) by (unfold y_min; lra).
  assert (E : execute c None (Some (- y_act c)) true = Ret (moved c (k c / y_min c) (y_min c))).
  { apply exec_dy. change (y c + - y_act c) with (y_min c). split; [left; reflexivity|]. split; [lra|]. split; [lra|reflexivity]. }
  assert (L : x c <= k c / y_min c) by (apply le_div; [exact Hp|]; rewrite <- Hxy; apply Rmult_le_compat_l; unfold y_min; lra).
  exists (k c / y_min c - x c). split; [|split; [lra|split]].
  - unfold dx_max, dy_min. rewrite (proj2 (rlt_iff _ _) HY). apply (proj1 (quote_dy c _ _ H E)). cbn [moved x_act y_act].
    split; [unfold x_min in *; lra|unfold y_min; lra].
  - unfold x_max. rewrite (proj2 (rlt_iff _ _) Hp). f_equal. ring.
  - eexists. split.
    + apply exec_dx. replace (x c + (k c / y_min c - x c)) with (k c / y_min c) by ring. split; [right; lra|].
      split; [apply div_nz; lra|]. reflexivity.
    + cbn [moved y_act]. rewrite div_div by lra. unfold y_min. ring.
Qed.
Lemma dymax_value c : pool_ok c -> x_act c < x c ->
  exists m, dy_max c = Ret (Some m) /\ 0 <= m /\ y_max c = Some (y c + m) /\ exists c', execute c None (Some m) false = Ret c' /\ x_act c' = 0.
Proof.
  intros H HY. destruct (pool_pos c H) as (Hy & Hk & Hx & Hxy & Hm & Hn). pose proof H as (_ & _ & (Ha & Ha') & Hb & Hb').
  assert (Hp : 0 < x_min c) by (unfold x_min; lra).
  assert (E : execute c (Some (- x_act c)) None true = Ret (moved c (x_min c) (k c / x_min c))).
  { apply exec_dx. change (x c + - x_act c) with (x_min c). split; [left; reflexivity|]. split; [lra|reflexivity]. }
  assert (L : y c <= k c / x_min c) by (apply le_div; [exact Hp|]; rewrite <- Hxy, Rmult_comm; apply Rmult_le_compat_r; unfold x_min; lra).
  exists (k c / x_min c - y c). split; [|split; [lra|split]].
  - unfold dy_max, dx_min. rewrite (proj2 (rlt_iff _ _) HY). apply (proj1 (quote_dx c _ _ H E)). cbn [moved x_act y_act].
    split; [unfold x_min; lra|unfold y_min in *; lra].
  - unfold y_max. rewrite (proj2 (rlt_iff _ _) Hp). f_equal. ring.
  - eexists. split.
    + apply exec_dy. replace (y c + (k c / x_min c - y c)) with (k c / x_min c) by ring. split; [right; lra|].
      split; [lra|]. split; [apply div_nz; lra|]. reflexivity.
    + cbn [moved x_act]. rewrite div_div by lra. unfold x_min. ring.
Qed.
