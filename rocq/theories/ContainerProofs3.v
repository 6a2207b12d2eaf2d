(** Price estimates, filters and concentration measures of a container. *)
From Coq Require Import Reals Lra Bool List String Arith Lia Permutation Ascii.
From Verif Require Import CurveModel CurveSpec CurveProofs PairModel PairProofs HelperModel HelperProofs CpcModel CpcSpec CpcProofs CpcProofs3 ContainerModel ContainerSpec ContainerProofs ContainerProofs2.
Import ListNotations.
Local Open Scope R_scope.

(** ** boundaries *)
Lemma at_xmin_iff c : at_xmin c = true <-> x_min c <> 0 /\ Rabs (x c / x_min c - 1) < / 10 ^ 6.
Proof.
  unfold at_xmin. destruct (req (x_min c) 0) eqn:E.
  - apply req_iff in E. split; [discriminate|intros [H _]; contradiction].
  - rewrite rlt_iff. split; [intros H; split; [|exact H]|intros [_ H]; exact H]. intros Z. apply req_iff in Z. congruence.
Qed.
Lemma boundary_iff c : 0 < k c -> exists ub, at_boundary c = Ret ub /\ (ub = true <-> used_up c).
Proof.
  intros H. unfold at_boundary, used_up. destruct (at_xmin c) eqn:E.
  - exists true. split; [reflexivity|]. apply at_xmin_iff in E. tauto.
  - assert (N : ~ (x_min c <> 0 /\ Rabs (x c / x_min c - 1) < / 10 ^ 6)) by (intros X; apply at_xmin_iff in X; congruence).
    unfold at_xmax. destruct (x_max c) as [m|] eqn:Em.
    + assert (Hm : 0 < m). { unfold x_max in Em. destruct (rlt 0 (y_min c)) eqn:L; [|discriminate]. apply rlt_iff in L. injection Em as <-. apply Rdiv_lt_0_compat; assumption. }
      rewrite rdiv_ok by lra. cbn [rbind]. eexists. split; [reflexivity|]. rewrite rlt_iff. split.
      * intros L. right. exists m. split; [reflexivity|exact L].
      * intros [X|(m' & X & L)]; [contradiction|]. injection X as <-. exact L.
    + exists false. split; [reflexivity|]. split; [discriminate|]. intros [X|(m' & X & _)]; [contradiction|discriminate].
Qed.
Lemma active_exists l : exists A, active l A.
Proof.
  induction l as [|c l [A H]]; [exists []; constructor|].
  assert (D : used_up c \/ ~ used_up c).
  { unfold used_up. destruct (at_xmin c) eqn:E; [left; left; apply at_xmin_iff; exact E|].
    assert (N : ~ (x_min c <> 0 /\ Rabs (x c / x_min c - 1) < / 10 ^ 6)) by (intros X; apply at_xmin_iff in X; congruence).
    destruct (x_max c) as [m|]; [|right; intros [X|(m' & X & _)]; [contradiction|discriminate]].
    destruct (Rlt_dec (Rabs (x c / m - 1)) (/ 10 ^ 6)) as [L|L]; [left; right; exists m; split; [reflexivity|exact L]|].
    right. intros [X|(m' & X & L')]; [contradiction|]. injection X as <-. contradiction. }
  destruct D as [D|D]; [exists A; apply active_drop|exists (c :: A); apply active_keep]; assumption.
Qed.
Lemma active_unique l A B : active l A -> active l B -> A = B.
Proof. intros H. revert B. induction H; intros B HB; inversion HB; subst; try contradiction; [reflexivity|f_equal; auto|auto]. Qed.
Lemma active_in l A c : active l A -> In c A <-> In c l /\ ~ used_up c.
Proof. induction 1; cbn [In]; [tauto| |]; (split; [intuition (subst; tauto)|intuition (subst; tauto)]). Qed.

(** ** C87 *)
Definition item (b : string) (c : cpc) : R * R := (quote b c, sqrt (k c)).
Definition pick (b q : string) (ub : cpc -> bool) (inverse : bool) (c : cpc) : list (R * R) :=
  if negb (ub c) && (if inverse then String.eqb (tknx c) q && String.eqb (tkny c) b else String.eqb (tkny c) q && String.eqb (tknx c) b) then [item b c] else [].
Definition bdry (c : cpc) : bool := match at_boundary c with Ret u => u | Raise _ => false end.
Lemma bdry_ok c : 0 < k c -> at_boundary c = Ret (bdry c) /\ (bdry c = true <-> used_up c).
Proof. intros H. destruct (boundary_iff c H) as (u & E & I1). unfold bdry. rewrite E. split; [reflexivity|exact I1]. Qed.
Lemma item_value b q inverse c : b <> q -> 0 < k c -> x c <> 0 ->
  exists o, estimate_item b q inverse c = Ret o /\ match o with Some a => [a] | None => [] end = pick b q bdry inverse c.
Proof.
  intros Ne K X. destruct (bdry_ok c K) as [E _]. unfold estimate_item, pick. rewrite E. cbn [rbind].
  destruct (bdry c); cbn [negb andb]; [eexists; split; reflexivity|].
  pose proof (price_pos c K X) as P. destruct inverse.
  - destruct (String.eqb (tknx c) q && String.eqb (tkny c) b) eqn:T; cbn [negb]; [|eexists; split; reflexivity].
    apply andb_true_iff in T. rewrite !String.eqb_eq in T. destruct T as [T1 T2].
    unfold CpcModel.p, y. rewrite rdiv_ok by lra. cbn [rbind]. rewrite rsqrt_ok by lra. cbn [rbind]. eexists. split; [reflexivity|].
    unfold item, quote. rewrite T1. destruct (String.eqb q b) eqn:Eq; [apply String.eqb_eq in Eq; congruence|]. unfold Rdiv at 1. rewrite Rmult_1_l. reflexivity.
  - destruct (String.eqb (tkny c) q && String.eqb (tknx c) b) eqn:T; cbn [negb]; [|eexists; split; reflexivity].
    apply andb_true_iff in T. rewrite !String.eqb_eq in T. destruct T as [T1 T2]. cbn [rbind]. rewrite rsqrt_ok by lra. cbn [rbind]. eexists. split; [reflexivity|].
    unfold item, quote. rewrite T2, String.eqb_refl. reflexivity.
Qed.
Lemma rmap_items b q inverse (h : heap) l : b <> q -> (forall r, In r l -> 0 < k (obj h r) /\ x (obj h r) <> 0) ->
  exists os, rmap (fun r => estimate_item b q inverse (obj h r)) l = Ret os /\ somes os = flat_map (pick b q bdry inverse) (map (obj h) l).
Proof.
  intros Ne. induction l as [|r l IH]; intros H; [exists []; split; reflexivity|].
  destruct (H r (or_introl eq_refl)) as [K X]. destruct (item_value b q inverse (obj h r) Ne K X) as (o & E & V).
  destruct IH as (os & E' & V'); [intros r' I1; apply H; right; exact I1|].
  exists (o :: os). cbn [rmap]. rewrite E. cbn [rbind]. rewrite E'. split; [reflexivity|].
  cbn [map flat_map]. rewrite <- V, <- V'. reflexivity.
Qed.
Lemma picked b q l : b <> q -> (forall c, In c l -> 0 < k c) -> forall A, active (filter (on_tokens_b b q) l) A ->
  Permutation (flat_map (pick b q bdry false) l ++ flat_map (pick b q bdry true) l) (map (item b) A).
Proof.
  intros Ne. induction l as [|c l IH]; intros K A H; [inversion H; constructor|].
  assert (Kc : 0 < k c) by (apply K; left; reflexivity). destruct (bdry_ok c Kc) as [_ U].
  assert (IH' := IH ltac:(intros c' I1; apply K; right; exact I1)). clear IH.
  cbn [flat_map filter] in *. unfold pick at 1 3.
  destruct (on_tokens_b b q c) eqn:O.
  - inversion H as [|c0 l0 A0 NU H'|c0 l0 A0 NU H']; subst.
    + specialize (IH' _ H'). assert (Bc : bdry c = false) by (destruct (bdry c); [exfalso; apply NU, U; reflexivity|reflexivity]). rewrite Bc. cbn [negb andb].
      apply on_tokens_iff in O. destruct O as [[E1 E2]|[E1 E2]]; rewrite E1, E2, ?String.eqb_refl; cbn [andb].
      * destruct (String.eqb b q) eqn:Eq; [apply String.eqb_eq in Eq; congruence|]. cbn [andb app map]. constructor. exact IH'.
      * destruct (String.eqb b q) eqn:Eq; [apply String.eqb_eq in Eq; congruence|]. cbn [andb app map]. rewrite <- Permutation_middle. constructor. exact IH'.
    + specialize (IH' _ H'). apply U in NU. rewrite NU. cbn [negb andb app]. exact IH'.
  - specialize (IH' _ H). unfold on_tokens_b in O. apply orb_false_iff in O. destruct O as [O1 O2]. rewrite (andb_comm (String.eqb (tkny c) q)), O1, O2, !andb_false_r. cbn [app]. exact IH'.
Qed.
Lemma estimate_value h cc b q raise A : b <> q -> (forall r, In r (curves cc) -> 0 < k (obj h r) /\ x (obj h r) <> 0) -> active (trading h cc b q) A ->
  price_estimate h cc b q raise = match A with [] => if raise then Raise ValueError else Ret None | _ => Ret (Some (weighted b A)) end.
Proof.
  intros Ne H HA. unfold price_estimate. destruct (String.eqb q b) eqn:Eq; [apply String.eqb_eq in Eq; congruence|]. unfold estimate_data.
  destruct (rmap_items b q false h (curves cc) Ne H) as (os & E & V). destruct (rmap_items b q true h (curves cc) Ne H) as (os' & E' & V').
  rewrite E. cbn [rbind]. rewrite E'. cbn [rbind]. rewrite V, V'.
  assert (P := picked b q (map (obj h) (curves cc)) Ne ltac:(intros c I1; apply in_map_iff in I1; destruct I1 as (r & <- & I1); apply H, I1) A HA).
  set (d := (flat_map (pick b q bdry false) (map (obj h) (curves cc)) ++ flat_map (pick b q bdry true) (map (obj h) (curves cc)))%list) in *. clearbody d. clear V V' E E'.
  assert (HK : forall c, In c A -> 0 < k c).
  { intros c I1. apply (active_in _ _ c HA) in I1. destruct I1 as [I1 _]. unfold trading in I1. apply filter_In in I1. destruct I1 as [I1 _]. apply in_map_iff in I1. destruct I1 as (r & <- & I1). apply H, I1. }
  destruct A as [|a A].
  - cbn [map] in P. apply Permutation_sym, Permutation_nil in P. subst d. reflexivity.
  - destruct d as [|e d]; [apply Permutation_nil in P; discriminate|]. unfold average.
    assert (S1 : rsum (map snd (e :: d)) = total (map (fun c => sqrt (k c)) (a :: A))).
    { rewrite rsum_total. erewrite total_perm; [|apply (Permutation_map snd), P]. rewrite map_map. reflexivity. }
    assert (S2 : rsum (map (fun e => fst e * snd e) (e :: d)) = total (map (fun c => quote b c * sqrt (k c)) (a :: A))).
    { rewrite rsum_total. erewrite total_perm; [|apply (Permutation_map (fun e => fst e * snd e)), P]. rewrite map_map. reflexivity. }
    rewrite S1, S2. assert (0 < total (map (fun c => sqrt (k c)) (a :: A))).
    { apply total_pos; [discriminate|]. intros v I1. apply in_map_iff in I1. destruct I1 as (c & <- & I1). apply sqrt_lt_R0, HK, I1. }
    rewrite rdiv_ok by lra. reflexivity.
Qed.
Lemma weighted_between b A : A <> [] -> (forall c, In c A -> 0 < k c) -> exists c c', In c A /\ In c' A /\ quote b c <= weighted b A <= quote b c'.
Proof.
  intros N K. destruct (exists_min (quote b) A N) as (c & I1 & M), (exists_max (quote b) A N) as (c' & I2 & M'). exists c, c'. split; [exact I1|]. split; [exact I2|].
  assert (W : 0 < total (map (fun c => sqrt (k c)) A)).
  { apply total_pos; [destruct A; [congruence|discriminate]|]. intros v I3. apply in_map_iff in I3. destruct I3 as (d & <- & I3). apply sqrt_lt_R0, K, I3. }
  pose proof (weighted_bounds (quote b) (fun c => sqrt (k c)) A (quote b c) (quote b c') ltac:(intros; apply sqrt_pos) ltac:(intros d I3; specialize (M d I3); specialize (M' d I3); lra)) as B.
  unfold weighted. split; [apply le_div|apply div_le]; try exact W; lra.
Qed.
(** Cauchy's inequality for the two averages *)
Lemma amgm a b s : 0 <= a -> 0 <= b -> 0 <= s -> s * s <= a * b -> 2 * s <= a + b.
Proof. intros A B Hs H. destruct (Rle_dec (2 * s) (a + b)) as [L|L]; [exact L|]. exfalso. assert (0 <= (a - b) * (a - b)) by apply Rle_0_sqr. assert ((a + b) * (a + b) < 2 * s * (2 * s)) by (apply Rmult_le_0_lt_compat; lra). lra. Qed.
Lemma amgm_eq a b s : 0 <= a -> 0 <= b -> 0 <= s -> s * s <= a * b -> 2 * s = a + b -> a = b.
Proof. intros A B Hs H E. assert (H1 : (a - b) * (a - b) = 4 * (s * s) - 4 * (a * b)) by (assert ((a + b) * (a + b) = 2 * s * (2 * s)) by (rewrite E; reflexivity); lra).
  assert (0 <= (a - b) * (a - b)) by apply Rle_0_sqr. assert ((a - b) * (a - b) = 0) by lra. apply Rmult_integral in H2. lra. Qed.
Lemma cauchy {C} (f w : C -> R) A : (forall c, In c A -> 0 < f c /\ 0 < w c) ->
  let S1 := total (map (fun c => f c * w c) A) in let S2 := total (map (fun c => / f c * w c) A) in let W := total (map w A) in
  W * W <= S1 * S2 /\ (W * W = S1 * S2 -> forall c c', In c A -> In c' A -> f c = f c').
Proof.
  induction A as [|a A IH]; intros P; cbv zeta in *.
  - cbn [map]. rewrite total_nil. split; [lra|intros _ c c' []].
  - cbn [map]. rewrite !total_cons. destruct (P a (or_introl eq_refl)) as [Fa Wa].
    destruct IH as [H1 H2]; [intros c I1; apply P; right; exact I1|].
    assert (P1 : forall c, In c A -> 0 < f c /\ 0 < w c) by (intros c I1; apply P; right; exact I1).
    assert (N1 : 0 <= total (map (fun c => f c * w c) A)) by (apply total_nonneg; intros v I1; apply in_map_iff in I1; destruct I1 as (c & <- & I1); destruct (P1 c I1); apply Rlt_le, Rmult_lt_0_compat; assumption).
    assert (N2 : 0 <= total (map (fun c => / f c * w c) A)) by (apply total_nonneg; intros v I1; apply in_map_iff in I1; destruct I1 as (c & <- & I1); destruct (P1 c I1); apply Rlt_le, Rmult_lt_0_compat; [apply Rinv_0_lt_compat|]; assumption).
    assert (N3 : 0 <= total (map w A)) by (apply total_nonneg; intros v I1; apply in_map_iff in I1; destruct I1 as (c & <- & I1); destruct (P1 c I1); apply Rlt_le; assumption).
    assert (EQ : A <> [] -> (forall c c', In c A -> In c' A -> f c = f c') -> forall c0, In c0 A ->
              total (map (fun c => f c * w c) A) = f c0 * total (map w A) /\ total (map (fun c => / f c * w c) A) = / f c0 * total (map w A) /\ 0 < total (map w A)).
    { intros NA AE c0 I0. split; [|split].
      - pose proof (weighted_bounds f w A (f c0) (f c0) ltac:(intros c I1; destruct (P1 c I1); lra) ltac:(intros c I1; cbv beta; rewrite (AE c c0 I1 I0); lra)). lra.
      - pose proof (weighted_bounds (fun c => / f c) w A (/ f c0) (/ f c0) ltac:(intros c I1; destruct (P1 c I1); lra) ltac:(intros c I1; cbv beta; rewrite (AE c c0 I1 I0); lra)). cbv beta in *. lra.
      - apply total_pos; [destruct A; [congruence|discriminate]|]. intros v I1. apply in_map_iff in I1. destruct I1 as (c & <- & I1). apply P1, I1. }
    set (S1 := total (map (fun c => f c * w c) A)) in *. set (S2 := total (map (fun c => / f c * w c) A)) in *. set (W := total (map w A)) in *. clearbody S1 S2 W.
    remember (f a) as g eqn:Eg. set (u := w a) in *. clearbody u.
    assert (Gi : 0 < / g) by (apply Rinv_0_lt_compat, Fa). assert (GG : / g * g = 1) by (apply Rinv_l; lra).
    assert (X : (/ g * S1) * (g * S2) = S1 * S2) by (transitivity ((/ g * g) * (S1 * S2)); [ring|rewrite GG; ring]).
    assert (HA : 0 <= / g * S1) by (apply Rmult_le_pos; lra). assert (HB : 0 <= g * S2) by (apply Rmult_le_pos; lra).
    assert (L : 2 * W <= / g * S1 + g * S2) by (apply amgm; try assumption; lra).
    assert (EX : (g * u + S1) * (/ g * u + S2) = (/ g * g) * (u * u) + u * (/ g * S1 + g * S2) + S1 * S2) by ring.
    rewrite GG in EX. assert (U2 : u * (2 * W) <= u * (/ g * S1 + g * S2)) by (apply Rmult_le_compat_l; lra).
    split; [rewrite EX; lra|]. intros E.
    assert (E1 : W * W = S1 * S2) by (rewrite EX in E; lra). assert (E2 : u * (2 * W) = u * (/ g * S1 + g * S2)) by (rewrite EX in E; lra).
    apply Rmult_eq_reg_l in E2; [|lra]. assert (E3 : / g * S1 = g * S2) by (apply (amgm_eq _ _ W); try assumption; lra).
    assert (AE : forall c c', In c A -> In c' A -> f c = f c') by (apply H2, E1).
    assert (AG : forall c, In c A -> f c = g).
    { intros c I1. assert (NA : A <> []) by (intros ->; destruct I1). destruct (EQ NA AE c I1) as (Q1 & Q2 & Q3). destruct (P1 c I1) as [Fc _].
      rewrite Q1, Q2 in E3. assert (F2 : / g * f c = g * / f c) by (apply (Rmult_eq_reg_r W); lra).
      assert (F3 : f c * f c = g * g). { replace (f c * f c) with ((/ g * g) * (f c * f c)) by (rewrite GG; ring). replace ((/ g * g) * (f c * f c)) with (g * f c * (/ g * f c)) by ring. rewrite F2. field. lra. }
      assert (F4 : (f c - g) * (f c + g) = 0) by lra. apply Rmult_integral in F4. lra. }
    intros c c' I1 I2.
    assert (AG' : forall c, In c (a :: A) -> f c = g) by (intros c0 [<-|I0]; [symmetry; exact Eg|apply AG, I0]).
    rewrite (AG' c I1), (AG' c' I2). reflexivity.
Qed.
Lemma div_mul_le a b s t : 0 < s -> 0 < t -> s * t <= a * b -> 1 <= a / s * (b / t).
Proof. intros Hs Ht H. replace (a / s * (b / t)) with (a * b / (s * t)) by (field; lra). apply le_div; [apply Rmult_lt_0_compat; assumption|lra]. Qed.
Lemma weighted_round_trip b q A : A <> [] -> b <> q -> (forall c, In c A -> on_tokens b q c /\ 0 < k c /\ x c <> 0) ->
  1 <= weighted b A * weighted q A /\ (weighted b A * weighted q A = 1 <-> forall c c', In c A -> In c' A -> quote b c = quote b c').
Proof.
  intros N Ne H. assert (P : forall c, In c A -> 0 < quote b c /\ 0 < sqrt (k c)) by (intros c I1; destruct (H c I1) as (O & K & X); split; [apply quote_pos; assumption|apply sqrt_lt_R0, K]).
  pose proof (cauchy (quote b) (fun c => sqrt (k c)) A P) as [C1 C2]. cbv zeta in *.
  assert (W : 0 < total (map (fun c => sqrt (k c)) A)).
  { apply total_pos; [destruct A; [congruence|discriminate]|]. intros v I1. apply in_map_iff in I1. destruct I1 as (c & <- & I1). apply P, I1. }
  assert (E : map (fun c => quote q c * sqrt (k c)) A = map (fun c => / quote b c * sqrt (k c)) A).
  { apply map_ext_in. intros c I1. destruct (H c I1) as (O & K & X). rewrite (quote_inv b q c O Ne K X). reflexivity. }
  unfold weighted. rewrite E. set (W0 := total (map (fun c => sqrt (k c)) A)) in *. 
  set (S1 := total (map (fun c => quote b c * sqrt (k c)) A)) in *. set (S2 := total (map (fun c => / quote b c * sqrt (k c)) A)) in *.
  split; [apply div_mul_le; assumption|]. split.
  - intros F. apply C2. assert (F' : S1 * S2 = S1 / W0 * (S2 / W0) * (W0 * W0)) by (field; lra). rewrite F', F. ring.
  - intros AE. destruct A as [|c0 A0]; [congruence|].
    assert (I0 : In c0 (c0 :: A0)) by (left; reflexivity). destruct (P c0 I0) as [Q0 _].
    pose proof (weighted_bounds (quote b) (fun c => sqrt (k c)) (c0 :: A0) (quote b c0) (quote b c0) ltac:(intros; apply sqrt_pos) ltac:(intros c I1; cbv beta; rewrite (AE c c0 I1 I0); lra)) as B1.
    pose proof (weighted_bounds (fun c => / quote b c) (fun c => sqrt (k c)) (c0 :: A0) (/ quote b c0) (/ quote b c0) ltac:(intros; apply sqrt_pos) ltac:(intros c I1; cbv beta; rewrite (AE c c0 I1 I0); lra)) as B2.
    cbv beta in B1, B2. fold W0 S1 in B1. fold W0 S2 in B2. assert (E1 : S1 = quote b c0 * W0) by lra. assert (E2 : S2 = / quote b c0 * W0) by lra. rewrite E1, E2. field. lra.
Qed.

(** ** C88: Carbon curves *)
Lemma exactly_one a : a <> 0 -> Rabs (a / a - 1) < / 10 ^ 6.
Proof. intros H. replace (a / a - 1) with 0 by (field; exact H). rewrite Rabs_R0. apply Rinv_0_lt_compat, pow_lt. lra. Qed.
Lemma carbon_used_up yint y0 pa pb A B tknb tknq tkn isdydx c : from_carbon yint y0 pa pb A B tknb tknq tkn isdydx = Ret c -> at_boundary c = Ret true /\ used_up c.
Proof.
  unfold from_carbon. destruct (rlt yint y0); [discriminate|]. destruct (rlt y0 0); [discriminate|]. destruct (negb _); [discriminate|].
  destruct (carbon_AB pa pb A B isdydx (String.eqb tkn tknq)) as [[A' B']|]; cbn [rbind]; [|discriminate].
  destruct (rdiv (yint * B') A') as [ya|]; cbn [rbind]; [|discriminate]. destruct (rdiv (yint ^ 2) (A' ^ 2)) as [ka|]; cbn [rbind]; [|discriminate].
  destruct (rdiv ka (y0 + ya)) as [x0|]; cbn [rbind]; [|discriminate]. unfold make. destruct (rdiv ka x0) as [yy|] eqn:Ey; cbn [rbind]; [|discriminate].
  apply rdiv_inv in Ey. destruct Ey as [Ex _]. intros H. assert (E1 : x c = x0) by (injection H as <-; reflexivity). assert (E2 : x_act c = 0) by (injection H as <-; reflexivity).
  assert (U : x_min c <> 0 /\ Rabs (x c / x_min c - 1) < / 10 ^ 6).
  { unfold x_min. rewrite E1, E2, Rminus_0_r. split; [exact Ex|apply exactly_one, Ex]. }
  split; [|left; exact U]. unfold at_boundary. apply at_xmin_iff in U. rewrite U. reflexivity.
Qed.
Lemma as_cpc_used_up c tb tq c' : valid c -> 0 < c_S c -> tb <> tq -> as_cpc c tb tq = Ret c' -> at_boundary c' = Ret true /\ used_up c' /\ pool_ok c'.
Proof.
  intros V HS Ht E. rewrite as_cpc_value in E by assumption. injection E as <-.
  assert (G : forall c'', pool_ok c'' -> used_up c'' -> at_boundary c'' = Ret true /\ used_up c'' /\ pool_ok c'').
  { intros c'' OK U. destruct (boundary_iff c'' (proj1 OK)) as (u & Eu & Iu). apply Iu in U as U'. rewrite Eu, U'. repeat split; try assumption; apply OK. }
  destruct (c_base c).
  - destruct (built_ok c tq tb V HS) as (OK & EX & _). destruct (mirror_ok _ OK) as (OK' & _ & _ & EXM). destruct (mirror_bounds _ OK) as (_ & _ & XM & _).
    apply G; [exact OK'|]. right. destruct (pool_pos _ OK) as (HY & HK & HX & HXY & _). exists (y (built c tq tb)). rewrite XM, EXM. split; [|apply exactly_one; lra].
    unfold y_max. rewrite rlt_true by (rewrite EX; exact HX). rewrite EX. reflexivity.
  - destruct (built_ok c tb tq V HS) as (OK & EX & _). destruct (pool_pos _ OK) as (HY & HK & HX & HXY & _).
    apply G; [exact OK|]. left. rewrite EX. split; [lra|apply exactly_one; lra].
Qed.
Lemma ignored h cc b q raise : b <> q -> (forall r, In r (curves cc) -> 0 < k (obj h r) /\ x (obj h r) <> 0) ->
  (forall c, In c (trading h cc b q) -> used_up c) -> price_estimate h cc b q raise = if raise then Raise ValueError else Ret None.
Proof.
  intros Ne H U. rewrite (estimate_value h cc b q raise [] Ne H); [reflexivity|].
  induction (trading h cc b q) as [|c l IH]; [constructor|]. apply active_drop; [apply U; left; reflexivity|]. apply IH. intros c' I1. apply U. right. exact I1.
Qed.

(** ** C90: concentration *)
Lemma sq_le l : (forall v, In v l -> 0 <= v) -> total (map (fun v => v ^ 2) l) <= total l ^ 2.
Proof.
  induction l as [|a l IH]; intros P; cbn [map]; [rewrite total_nil; lra|]. rewrite !total_cons.
  assert (Ha : 0 <= a) by (apply P; left; reflexivity). assert (P' : forall v, In v l -> 0 <= v) by (intros v I1; apply P; right; exact I1).
  specialize (IH P'). pose proof (total_nonneg l P') as N. assert (0 <= a * total l) by (apply Rmult_le_pos; assumption).
  set (s := total l) in *. set (s2 := total (map (fun v => v ^ 2) l)) in *. clearbody s s2. replace ((a + s) ^ 2) with (a ^ 2 + 2 * (a * s) + s ^ 2) by ring. lra.
Qed.
Lemma sq_ge l : (forall v, In v l -> 0 <= v) -> total l ^ 2 <= INR (List.length l) * total (map (fun v => v ^ 2) l).
Proof.
  induction l as [|a l IH]; intros P; cbn [map]; [rewrite !total_nil; cbn; lra|]. rewrite !total_cons.
  assert (Ha : 0 <= a) by (apply P; left; reflexivity). assert (P' : forall v, In v l -> 0 <= v) by (intros v I1; apply P; right; exact I1).
  specialize (IH P'). pose proof (total_nonneg l P') as N. assert (N2 : 0 <= total (map (fun v => v ^ 2) l)) by (apply total_nonneg; intros v I1; apply in_map_iff in I1; destruct I1 as (w & <- & _); apply pow2_ge_0).
  change (List.length (a :: l)) with (S (List.length l)). rewrite S_INR. pose proof (pos_INR (List.length l)) as L.
  set (s := total l) in *. set (s2 := total (map (fun v => v ^ 2) l)) in *. set (n := INR (List.length l)) in *. clearbody s s2 n.
  assert (0 <= n * (a * a)) by (apply Rmult_le_pos; [exact L|apply Rle_0_sqr]).
  assert (X : 2 * (a * s) <= s2 + n * (a * a)).
  { apply amgm; try assumption; [apply Rmult_le_pos; assumption|]. replace (a * s * (a * s)) with ((a * a) * s ^ 2) by ring. replace (s2 * (n * (a * a))) with ((a * a) * (n * s2)) by ring.
    apply Rmult_le_compat_l; [apply Rle_0_sqr|exact IH]. }
  replace ((a + s) ^ 2) with (a ^ 2 + 2 * (a * s) + s ^ 2) by ring. replace ((n + 1) * (a ^ 2 + s2)) with (a ^ 2 + (s2 + n * (a * a)) + n * s2) by ring. lra.
Qed.
Lemma herf_value l : (forall v, In v l -> 0 <= v) -> 0 < total l -> exists H, herfindahl l = Ret H /\ / INR (List.length l) <= H <= 1 /\
  exists N, herfindahlN l = Ret N /\ 1 <= N <= INR (List.length l) /\ N * H = 1.
Proof.
  intros P T. assert (T2 : 0 < total l ^ 2) by (apply pow_lt, T).
  assert (L : 0 < INR (List.length l)) by (apply length_pos; intros ->; rewrite total_nil in T; lra).
  unfold herfindahlN, herfindahl. rewrite !rsum_total. rewrite rdiv_ok by lra. cbn [rbind]. eexists. split; [reflexivity|].
  pose proof (sq_le l P) as A. pose proof (sq_ge l P) as B. set (n := INR (List.length l)) in *. set (s2 := total (map (fun v => v ^ 2) l)) in *. set (t2 := total l ^ 2) in *. clearbody n s2 t2.
  assert (S2 : 0 < s2). { destruct (Rle_lt_dec s2 0) as [Z|Z]; [|exact Z]. assert (n * s2 <= n * 0) by (apply Rmult_le_compat_l; lra). lra. }
  assert (H1 : / n <= s2 / t2 <= 1).
  { split; [|apply div_le; lra]. apply le_div; [exact T2|]. apply (Rmult_le_reg_l n); [exact L|]. rewrite <- Rmult_assoc, Rinv_r by lra. lra. }
  split; [exact H1|]. assert (Hp : 0 < s2 / t2) by (apply Rdiv_lt_0_compat; assumption). rewrite rdiv_ok by lra. eexists. split; [reflexivity|].
  split; [|field; lra]. unfold Rdiv at 1 3. rewrite !Rmult_1_l. pose proof (inv_between (/ n) 1 (s2 / t2) ltac:(apply Rinv_0_lt_compat, L) H1) as X. rewrite Rinv_1, Rinv_inv in X. exact X.
Qed.
Lemma fold_max l : forall a, (a <= fold_left Rmax l a) /\ (forall v, In v l -> v <= fold_left Rmax l a) /\ (fold_left Rmax l a = a \/ In (fold_left Rmax l a) l).
Proof.
  induction l as [|b l IH]; intros a; cbn [fold_left]; [split; [lra|split; [intros v []|left; reflexivity]]|].
  destruct (IH (Rmax a b)) as (A & B & C). pose proof (Rmax_l a b). pose proof (Rmax_r a b). split; [lra|]. split.
  - intros v [<-|I1]; [lra|apply B, I1].
  - destruct C as [C|C]; [|right; right; exact C]. rewrite C. unfold Rmax. destruct (Rle_dec a b); [right; left; reflexivity|left; reflexivity].
Qed.
Lemma fold_min l : forall a, (fold_left Rmin l a <= a) /\ (forall v, In v l -> fold_left Rmin l a <= v) /\ (fold_left Rmin l a = a \/ In (fold_left Rmin l a) l).
Proof.
  induction l as [|b l IH]; intros a; cbn [fold_left]; [split; [lra|split; [intros v []|left; reflexivity]]|].
  destruct (IH (Rmin a b)) as (A & B & C). pose proof (Rmin_l a b). pose proof (Rmin_r a b). split; [lra|]. split.
  - intros v [<-|I1]; [lra|apply B, I1].
  - destruct C as [C|C]; [|right; right; exact C]. rewrite C. unfold Rmin. destruct (Rle_dec a b); [left; reflexivity|right; left; reflexivity].
Qed.
Lemma maxl_iff l : l <> [] -> In (maxl l) l /\ forall v, In v l -> v <= maxl l.
Proof. destruct l as [|a l]; [congruence|]. intros _. unfold maxl. destruct (fold_max l a) as (A & B & C). split; [destruct C as [->|C]; [left; reflexivity|right; exact C]|]. intros v [<-|I1]; [exact A|apply B, I1]. Qed.
Lemma minl_iff l : l <> [] -> In (minl l) l /\ forall v, In v l -> minl l <= v.
Proof. destruct l as [|a l]; [congruence|]. intros _. unfold minl. destruct (fold_min l a) as (A & B & C). split; [destruct C as [->|C]; [left; reflexivity|right; exact C]|]. intros v [<-|I1]; [exact A|apply B, I1]. Qed.

(** ** C86: filter_pairs *)
Lemma before_kind sep name : (before sep name = name /\ ~ (exists a b, name = a ++ String sep b)%string) \/ exists rest, (name = before sep name ++ String sep rest)%string.
Proof.
  induction name as [|ch s IH]; cbn [before].
  - left. split; [reflexivity|]. intros (a & b & E). destruct a; discriminate.
  - destruct (Ascii.eqb ch sep) eqn:E.
    + right. exists s. apply Ascii.eqb_eq in E. subst. reflexivity.
    + destruct IH as [[E1 N]|[rest E1]].
      * left. split; [rewrite E1; reflexivity|]. intros (a & b & Q). destruct a as [|c a]; cbn [append] in Q; injection Q as -> Q; [rewrite Ascii.eqb_refl in E; discriminate|]. apply N. exists a, b. exact Q.
      * right. exists rest. cbn [append]. rewrite <- E1. reflexivity.
Qed.
Fixpoint free (sep : ascii) (s : string) : bool := match s with EmptyString => true | String c r => negb (Ascii.eqb c sep) && free sep r end.
Lemma before_free sep s : free sep s = true -> before sep s = s /\ forall t, before sep (s ++ String sep t)%string = s.
Proof.
  induction s as [|c s IH]; intros F; cbn [append before].
  - split; [reflexivity|]. intros t. rewrite Ascii.eqb_refl. reflexivity.
  - cbn [free] in F. apply andb_true_iff in F. destruct F as [F1 F2]. apply negb_true_iff in F1. rewrite F1. destruct (IH F2) as [A B]. split; [rewrite A; reflexivity|]. intros t. rewrite B. reflexivity.
Qed.
Lemma names_before name kind : In kind kinds -> names_kind name kind <-> before "_"%char name = kind.
Proof.
  intros I1. assert (F : free "_"%char kind = true) by (unfold kinds in I1; cbn [In] in I1; repeat (destruct I1 as [<-|I1]; [reflexivity|]); destruct I1).
  destruct (before_free _ _ F) as [A B]. unfold names_kind. split.
  - intros [->|[rest ->]]; [exact A|]. apply B.
  - intros E. destruct (before_kind "_"%char name) as [[E1 _]|[rest E1]]; [left; congruence|]. right. exists rest. rewrite E in E1. exact E1.
Qed.
Lemma meets_ok name kind ts b q : In kind kinds -> names_kind name kind -> exists m, meets name ts b q = Ret m /\ (m = true <-> cond_holds kind ts b q).
Proof.
  intros I1 N. apply (names_before name kind I1) in N. unfold meets. rewrite N. cbv zeta.
  unfold kinds in I1. cbn [In] in I1.
  repeat (destruct I1 as [<-|I1]; [cbn [String.eqb Ascii.eqb Bool.eqb andb orb]; eexists; (split; [reflexivity|]); cbn [cond_holds]; rewrite ?andb_true_iff, ?orb_true_iff, ?negb_true_iff, <- ?not_true_iff_false, ?str_in_iff; reflexivity|]).
  destruct I1.
Qed.
Lemma meets_bad name ts b q : (forall kind, In kind kinds -> ~ names_kind name kind) -> meets name ts b q = Raise ValueError.
Proof.
  intros H. assert (X : forall kind, In kind kinds -> String.eqb (before "_"%char name) kind = false).
  { intros kind I1. apply String.eqb_neq. intros E. apply (H kind I1). apply names_before; assumption. }
  unfold meets. rewrite !X by (unfold kinds; cbn [In]; tauto). reflexivity.
Qed.
Lemma meeting_ok name kind ts ps : In kind kinds -> names_kind name kind -> exists l, meeting name ts ps = Ret l /\
  forall s, In s l <-> exists b q, In (b, q) ps /\ s = pair_str b q /\ cond_holds kind ts b q.
Proof.
  intros I1 N. induction ps as [|[b q] ps (l & E & S1)]; cbn [meeting].
  - destruct (meets_ok name kind ts "" "" I1 N) as (m & -> & _). exists []. split; [reflexivity|]. intros s. split; [intros []|intros (b & q & [] & _)].
  - destruct (meets_ok name kind ts b q I1 N) as (m & -> & M). rewrite E. cbn [rbind]. eexists. split; [reflexivity|]. intros s. destruct m; cbn [In]; rewrite S1.
    + split.
      * intros [<-|(b' & q' & I2 & X)]; [exists b, q; repeat split; [left; reflexivity|apply M; reflexivity]|exists b', q'; split; [right; exact I2|exact X]].
      * intros (b' & q' & [I2|I2] & Es & X); [left; congruence|right; exists b', q'; repeat split; assumption].
    + split.
      * intros (b' & q' & I2 & X). exists b', q'. split; [right; exact I2|exact X].
      * intros (b' & q' & [I2|I2] & Es & X); [injection I2 as <- <-; apply M in X; discriminate|exists b', q'; repeat split; assumption].
Qed.
Lemma meeting_bad name ts ps : (forall kind, In kind kinds -> ~ names_kind name kind) -> meeting name ts ps = Raise ValueError.
Proof. intros H. destruct ps as [|[b q] ps]; cbn [meeting]; rewrite meets_bad by exact H; reflexivity. Qed.
Lemma parse_all l : Forall slash_free l -> rmap (fun s => match parse_pair s with Some bq => Ret bq | None => Raise ValueError end) (map str_of l) = Ret l.
Proof.
  induction 1 as [|[b q] l [A B] F IH]; [reflexivity|]. cbn [map rmap]. unfold str_of at 1. cbn [fst snd] in *. rewrite parse_str by assumption. cbn [rbind]. rewrite IH. reflexivity.
Qed.
Lemma kind_unique name k1 k2 : In k1 kinds -> In k2 kinds -> names_kind name k1 -> names_kind name k2 -> k1 = k2.
Proof. intros I1 I2 A B. apply (names_before name k1 I1) in A. apply (names_before name k2 I2) in B. congruence. Qed.
Lemma results_ok ps conds : Forall known conds -> exists rs, rmap (fun c => meeting (fst c) (snd c) ps) conds = Ret rs /\
  Forall2 (fun cond l => forall s, In s l <-> exists b q, In (b, q) ps /\ s = pair_str b q /\ meets_cond cond b q) conds rs.
Proof.
  induction 1 as [|[name ts] conds (kind & I1 & N) F (rs & E & IH)]; [exists []; split; [reflexivity|constructor]|].
  cbn [fst] in N. destruct (meeting_ok name kind ts ps I1 N) as (l & El & S1). exists (l :: rs). cbn [rmap fst snd]. rewrite El. cbn [rbind]. rewrite E. split; [reflexivity|].
  constructor; [|exact IH]. intros s. rewrite S1. split; intros (b & q & I2 & Es & X); exists b, q; (split; [exact I2|]; split; [exact Es|]).
  - exists kind. repeat split; assumption.
  - destruct X as (k' & I3 & N' & X). cbn [fst snd] in *. rewrite (kind_unique name kind k' I1 I3 N N'). exact X.
Qed.
Lemma forall2_in_l {A B} (P : A -> B -> Prop) l m a : Forall2 P l m -> In a l -> exists b, In b m /\ P a b.
Proof. induction 1 as [|a' b' l m Pab F IH]; intros []; [subst; exists b'; split; [left; reflexivity|exact Pab]|]. destruct (IH H) as (b & I1 & X). exists b. split; [right; exact I1|exact X]. Qed.
Lemma forall2_in_r {A B} (P : A -> B -> Prop) l m b : Forall2 P l m -> In b m -> exists a, In a l /\ P a b.
Proof. induction 1 as [|a' b' l m Pab F IH]; intros []; [subst; exists a'; split; [left; reflexivity|exact Pab]|]. destruct (IH H) as (a & I1 & X). exists a. split; [right; exact I1|exact X]. Qed.
Lemma as_set_in l s : In s (as_set l) <-> In s l. Proof. apply nodup_In. Qed.
Lemma as_set_nodup l : NoDup (as_set l). Proof. apply NoDup_nodup. Qed.
Lemma filter_pairs_ok h cc l mode conds : Forall slash_free l -> conds <> [] -> Forall known conds ->
  match mode with
  | Other => filter_pairs h cc (Some (map str_of l)) mode conds = Raise ValueError
  | _ => exists r, filter_pairs h cc (Some (map str_of l)) mode conds = Ret r /\ NoDup r /\
           forall s, In s r <-> exists b q, In (b, q) l /\ s = pair_str b q /\
             match mode with Any => exists cond, In cond conds /\ meets_cond cond b q | _ => forall cond, In cond conds -> meets_cond cond b q end
  end.
Proof.
  intros F N K. unfold filter_pairs. rewrite (parse_all l F). cbn [rbind]. destruct (results_ok l conds K) as (rs & E & F2). rewrite E. cbn [rbind].
  destruct conds as [|cond0 conds]; [congruence|]. rewrite Forall_forall in F. destruct mode; [| |reflexivity].
  - eexists. split; [reflexivity|]. split; [apply as_set_nodup|]. intros s. rewrite as_set_in, in_concat. split.
    + intros (l' & I1 & I2). destruct (forall2_in_r _ _ _ _ F2 I1) as (cond & I3 & X). apply X in I2. destruct I2 as (b & q & I4 & Es & M). exists b, q. repeat split; try assumption. exists cond. split; assumption.
    + intros (b & q & I1 & Es & cond & I2 & M). destruct (forall2_in_l _ _ _ _ F2 I2) as (l' & I3 & X). exists l'. split; [exact I3|]. apply X. exists b, q. repeat split; assumption.
  - eexists. split; [reflexivity|]. split; [apply as_set_nodup|]. intros s. rewrite as_set_in, filter_In, forallb_forall. split.
    + intros [I1 I2]. destruct rs as [|r0 rs]; [destruct I1|]. cbn [hd] in I1. inversion F2 as [|? ? ? ? X0 F2']. subst.
      apply X0 in I1. destruct I1 as (b & q & I3 & Es & M). exists b, q. split; [exact I3|]. split; [exact Es|]. intros cond I4.
      destruct (forall2_in_l _ _ _ _ F2 I4) as (l' & I5 & X). specialize (I2 l' I5). apply str_in_iff in I2. apply X in I2. destruct I2 as (b' & q' & I6 & Es' & M').
      destruct (F _ I3) as [A B]. cbn [fst snd] in A, B. rewrite Es in Es'. apply pair_inj in Es'; [|assumption..]. destruct Es' as [-> ->]. exact M'.
    + intros (b & q & I1 & Es & M). inversion F2 as [|? r0 ? rs' X0 F2']. subst. split.
      * cbn [hd]. apply X0. exists b, q. repeat split; [exact I1|]. apply M. left. reflexivity.
      * intros l' I2. destruct (forall2_in_r _ _ _ _ F2 I2) as (cond & I3 & X). apply str_in_iff, X. exists b, q. repeat split; [exact I1|]. apply M, I3.
Qed.
Lemma filter_pairs_bad h cc l mode conds cond : Forall slash_free l -> In cond conds -> ~ known cond -> filter_pairs h cc (Some (map str_of l)) mode conds = Raise ValueError.
Proof.
  intros F I1 K. unfold filter_pairs. rewrite (parse_all l F). cbn [rbind].
  assert (E : rmap (fun c => meeting (fst c) (snd c) l) conds = Raise ValueError).
  { assert (D : forall c, known c \/ meeting (fst c) (snd c) l = Raise ValueError).
    { intros c. destruct (in_dec string_dec (before "_"%char (fst c)) kinds) as [I2|I2].
      - left. exists (before "_"%char (fst c)). split; [exact I2|]. apply names_before; [exact I2|reflexivity].
      - right. apply meeting_bad. intros kind I3 Nk. apply (names_before _ _ I3) in Nk. subst. contradiction. }
    apply rmap_raise.
    - intros c e H. destruct (D c) as [(kind & I2 & Nk)|X]; [|congruence]. destruct (meeting_ok (fst c) kind (snd c) l I2 Nk) as (r & Er & _). congruence.
    - exists cond. split; [exact I1|]. destruct (D cond) as [X|X]; [contradiction|exact X]. }
  rewrite E. destruct conds; [destruct I1|reflexivity].
Qed.

(** ** the table of estimates *)
Lemma rmap_total {A B} (f : A -> res B) l : (forall a, exists b, f a = Ret b) -> exists m, rmap f l = Ret m /\ Forall2 (fun a b => f a = Ret b) l m.
Proof.
  intros H. induction l as [|a l (m & E & F)]; [exists []; split; [reflexivity|constructor]|]. destruct (H a) as (b & Eb). cbn [rmap]. rewrite Eb, E. cbn [rbind]. eexists. split; [reflexivity|]. constructor; assumption.
Qed.
Lemma estimates_table h cc tknqs tknbs : (forall b q, exists e, price_estimate h cc b q false = Ret e) ->
  exists m, Forall2 (fun q row => Forall2 (fun b e => price_estimate h cc b q false = Ret e) tknbs row) tknqs m /\
    price_estimates h cc tknqs tknbs false = Ret m /\
    ((forall row e, In row m -> In e row -> e <> None) -> price_estimates h cc tknqs tknbs true = Ret m) /\
    ((exists row, In row m /\ In None row) -> price_estimates h cc tknqs tknbs true = Raise ValueError).
Proof.
  intros H. destruct (rmap_total (fun q => rmap (fun b => price_estimate h cc b q false) tknbs) tknqs) as (m & E & F).
  { intros q. destruct (rmap_total (fun b => price_estimate h cc b q false) tknbs (fun b => H b q)) as (row & Er & _). exists row. exact Er. }
  exists m. unfold price_estimates. rewrite E. cbn [rbind]. split; [|split; [reflexivity|split]].
  - clear E. induction F as [|q row qs m Hr _ IH]; constructor; [|exact IH]. destruct (rmap_total (fun b => price_estimate h cc b q false) tknbs (fun b => H b q)) as (row' & Er & Fr). cbn beta in Hr. rewrite Hr in Er. injection Er as <-. exact Fr.
  - intros N. cbn [andb]. destruct (existsb (existsb (fun o : option R => match o with None => true | Some _ => false end)) m) eqn:X; [|reflexivity]. exfalso. apply existsb_exists in X. destruct X as (row & I1 & X). apply existsb_exists in X. destruct X as (e & I2 & X). apply (N row e I1 I2). destruct e; [discriminate|reflexivity].
  - intros (row & I1 & I2). cbn [andb]. assert (X : existsb (existsb (fun o : option R => match o with None => true | Some _ => false end)) m = true) by (apply existsb_exists; exists row; split; [exact I1|]; apply existsb_exists; exists None; split; [exact I2|reflexivity]). rewrite X. reflexivity.
Qed.
