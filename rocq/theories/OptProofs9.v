(** The problem of nofees_optimizer (C100), and a converged result that is no arbitrage (C98). *)
From Coq Require Import Reals Lra Bool List String Lia ZArith Permutation.
From Verif Require Import CurveModel CurveProofs PairModel PairSpec PairProofs HelperModel CpcModel CpcSpec CpcProofs CpcProofs2
  ContainerModel ContainerSpec ContainerProofs ContainerProofs2 OptModel OptSpec OptProofs OptProofs2 OptProofs3 OptProofs5 OptProofs6 OptProofs7 OptProofs8.
Import ListNotations.
Local Open Scope R_scope.

(** ** the constraints *)
Lemma constraints_iff sc c vx vy : pool_ok c -> (curve_constraints sc (c, vx, vy) <-> allowed c (vx / sc (tknx c)) (vy / sc (tkny c))).
Proof.
  intros H. pose proof (proj1 H) as Hk. unfold curve_constraints, allowed, dx_min, dy_min. set (a := vx / sc (tknx c)). set (b := vy / sc (tkny c)). clearbody a b. split.
  - intros (A & B & C & D & E). assert (K : k c <= (x c + a) * (y c + b)) by (apply sqrt_le_0; [lra|apply Rmult_le_pos; assumption|exact C]).
    split; [exact D|]. split; [exact E|]. split; [|exact K]. destruct (Req_dec (x c + a) 0) as [Z|Z]; [rewrite Z in K; lra|lra].
  - intros (A & B & C & D). assert (Y : 0 < y c + b) by (apply (Rmult_lt_reg_l (x c + a)); lra). split; [lra|]. split; [lra|]. split; [apply sqrt_le_1_alt; exact D|]. split; assumption.
Qed.
Lemma raw_net sc l t : (forall u, 0 < sc u) -> raw_sum l t = sc t * net (map (reported sc) l) t.
Proof.
  intros S. unfold raw_sum. rewrite !rsum_total. induction l as [|[[c vx] vy] l IH]; [cbn; ring|]. cbn [map net reported flow filter fst].
  set (A := total (map (fun e : entry => let '(_, _, vy) := e in vy) (filter (fun e : entry => String.eqb (tkny (fst (fst e))) t) l))) in *.
  set (B := total (map (fun e : entry => let '(_, vx, _) := e in vx) (filter (fun e : entry => String.eqb (tknx (fst (fst e))) t) l))) in *.
  pose proof (S (tknx c)). pose proof (S (tkny c)).
  rewrite Rmult_plus_distr_l, <- IH.
  destruct (string_dec (tknx c) t) as [Ex|Nx], (string_dec (tkny c) t) as [Ey|Ny].
  - rewrite (proj2 (String.eqb_eq _ _) Ex), (proj2 (String.eqb_eq _ _) Ey). cbn [map]. rewrite !total_cons. fold A B. rewrite Ex, Ey in *. field. lra.
  - rewrite (proj2 (String.eqb_eq _ _) Ex), (proj2 (String.eqb_neq _ _) Ny). cbn [map]. rewrite !total_cons. fold A B. rewrite Ex in *. field. lra.
  - rewrite (proj2 (String.eqb_neq _ _) Nx), (proj2 (String.eqb_eq _ _) Ey). cbn [map]. rewrite !total_cons. fold A B. rewrite Ey in *. field. lra.
  - rewrite (proj2 (String.eqb_neq _ _) Nx), (proj2 (String.eqb_neq _ _) Ny). fold A B. ring.
Qed.
Lemma pools_reported sc l : pools (map (reported sc) l) = pools l.
Proof. unfold pools. rewrite map_map. apply map_ext. intros [[c vx] vy]. reflexivity. Qed.
Lemma get_items s : exists items, sfc_items s = Ret items /\ forall t v, In (t, v) items <-> In t (s_tokens s) /\ sfc_get s t = Ret v.
Proof.
  unfold sfc_items. assert (G : forall t, In t (s_tokens s) -> exists v, sfc_get s t = Ret v).
  { intros t Ht. unfold sfc_get. rewrite (proj2 (str_in_iff _ _) Ht). eexists. reflexivity. }
  set (val := fun t => match sfc_get s t with Ret v => v | Raise _ => Num 0 end).
  rewrite (rmap_ok _ (fun t => (t, val t))) by (intros t Ht; destruct (G t Ht) as [v E]; unfold val; rewrite E; reflexivity).
  eexists. split; [reflexivity|]. intros t v. rewrite in_map_iff. split.
  - intros (u & E & Hu). assert (u = t) by congruence. subst u. split; [exact Hu|]. destruct (G t Hu) as [w Ew]. unfold val in E. rewrite Ew in *. congruence.
  - intros [Ht E]. exists t. split; [|exact Ht]. unfold val. rewrite E. reflexivity.
Qed.
Lemma feasible_iff sc s l : (forall u, 0 < sc u) -> Forall pool_ok (pools l) ->
  (nofees_feasible sc s l <-> all_allowed (map (reported sc) l) /\ forall t v, In t (s_tokens s) -> sfc_get s t = Ret (Num v) -> net (map (reported sc) l) t = v).
Proof.
  intros S H. unfold nofees_feasible. assert (A : Forall (curve_constraints sc) l <-> all_allowed (map (reported sc) l)).
  { unfold all_allowed. rewrite !Forall_forall. rewrite Forall_forall in H. split.
    - intros F e He. apply in_map_iff in He as ([[c vx] vy] & <- & He). cbn [reported fst snd]. apply constraints_iff; [apply H; apply (in_map (fun e => fst (fst e)) _ _ He)|apply F, He].
    - intros F [[c vx] vy] He. apply constraints_iff; [apply H; apply (in_map (fun e => fst (fst e)) _ _ He)|]. exact (F _ (in_map (reported sc) _ _ He)). }
  rewrite A. destruct (get_items s) as (items & E & I1). split; intros [F1 F2]; (split; [exact F1|]).
  - destruct F2 as (it & E' & F2). assert (it = items) by congruence. subst it. unfold financing in F2. rewrite Forall_forall in F2. intros t v Ht Hv.
    specialize (F2 (t, Num v) (proj2 (I1 t (Num v)) (conj Ht Hv))). cbn [fst snd] in F2. rewrite (raw_net sc l t S) in F2. pose proof (S t). apply (Rmult_eq_reg_l (sc t)); [|lra]. rewrite F2. ring.
  - exists items. split; [exact E|]. unfold financing. apply Forall_forall. intros [t v] Hi. cbn [fst snd]. destruct v as [v|w]; [|exact I]. apply I1 in Hi as [Ht Hv].
    rewrite (raw_net sc l t S), (F2 t v Ht Hv). ring.
Qed.
Lemma objective_value sc s l : (forall u, 0 < sc u) -> nofees_objective s l = sc (s_ov s) * net (map (reported sc) l) (s_ov s).
Proof. intros S. apply raw_net, S. Qed.

(** ** paying in more *)
Lemma allowed_more c dx dy a b : allowed c dx dy -> 0 <= a -> 0 <= b -> 0 < k c -> allowed c (dx + a) (dy + b).
Proof.
  intros (A & B & C & D) Ha Hb Hk. assert (Y : 0 < y c + dy) by (apply (Rmult_lt_reg_l (x c + dx)); lra). split; [lra|]. split; [lra|]. split; [lra|].
  apply Rle_trans with ((x c + dx) * (y c + dy)); [exact D|]. apply Rmult_le_compat; lra.
Qed.
Lemma top_up l u a : Forall proper (pools l) -> all_allowed l -> 0 <= a -> (exists c, In c (pools l) /\ (tknx c = u \/ tkny c = u)) ->
  exists l', pools l' = pools l /\ all_allowed l' /\ net l' u = net l u + a /\ forall v, v <> u -> net l' v = net l v.
Proof.
  intros H A Ha. induction l as [|[[c dx] dy] l IH]; [intros (c & [] & _)|]. inversion A as [|? ? A1 A2]; subst. cbn [pools map fst] in H. inversion H as [|? ? H1 H2]; subst. cbn [fst snd] in A1.
  destruct H1 as (K & N & _). intros (d & Hd & Hu).
  assert (Dc : {tknx c = u} + {tkny c = u} + {tknx c <> u /\ tkny c <> u}) by (destruct (string_dec (tknx c) u); [left; left; assumption|]; destruct (string_dec (tkny c) u); [left; right; assumption|]; right; split; assumption).
  destruct Dc as [[E|E]|[N1 N2]].
  - exists ((c, dx + a, dy) :: l). split; [reflexivity|]. split; [constructor; [cbn [fst snd]; replace dy with (dy + 0) by ring; apply allowed_more; try assumption; [lra|apply K]|exact A2]|].
    cbn [net flow]. subst u. split; [destruct (string_dec (tknx c) (tknx c)); [|congruence]; destruct (string_dec (tkny c) (tknx c)); [congruence|]; ring|].
    intros v Nv. destruct (string_dec (tknx c) v); [congruence|]. reflexivity.
  - exists ((c, dx, dy + a) :: l). split; [reflexivity|]. split; [constructor; [cbn [fst snd]; replace dx with (dx + 0) by ring; apply allowed_more; try assumption; [lra|apply K]|exact A2]|].
    cbn [net flow]. subst u. split; [destruct (string_dec (tkny c) (tkny c)); [|congruence]; destruct (string_dec (tknx c) (tkny c)); [congruence|]; ring|].
    intros v Nv. destruct (string_dec (tkny c) v); [congruence|]. reflexivity.
  - destruct IH as (l' & E1 & E2 & E3 & E4); [exact H2|exact A2| |].
    { exists d. split; [|exact Hu]. destruct Hd as [<-|Hd]; [destruct Hu; contradiction|exact Hd]. }
    exists ((c, dx, dy) :: l'). split; [cbn [pools map fst]; f_equal; exact E1|]. split; [constructor; assumption|]. cbn [net]. split; [rewrite E3; ring|]. intros v Nv. rewrite E4 by exact Nv. reflexivity.
Qed.
(** trades that need nothing of some tokens can be completed to trades that exactly balance them *)
Lemma balance t : forall toks l, Forall proper (pools l) -> all_allowed l -> (forall u, u <> t -> net l u <= 0) -> (forall u, In u toks -> exists c, In c (pools l) /\ (tknx c = u \/ tkny c = u)) ->
  exists l', pools l' = pools l /\ all_allowed l' /\ net l' t = net l t /\ (forall u, u <> t -> net l' u <= 0) /\ (forall u, u <> t -> In u toks -> net l' u = 0) /\ (forall u, ~ In u toks -> net l' u = net l u).
Proof.
  induction toks as [|u toks IH]; intros l H A N C.
  - exists l. repeat split; auto. intros u _ [].
  - destruct (IH l H A N) as (l1 & E1 & A1 & T1 & N1 & Z1 & O1); [intros v Hv; apply C; right; exact Hv|]. destruct (string_dec u t) as [->|Nu].
    + exists l1. repeat split; auto.
      * intros v Nv [<-|Hv]; [congruence|apply Z1; assumption].
      * intros v Hv. apply O1. intros G. apply Hv. right. exact G.
    + destruct (top_up l1 u (- net l1 u)) as (l2 & E2 & A2 & T2 & O2); [rewrite E1; exact H|exact A1|pose proof (N1 u Nu); lra|rewrite E1; apply C; left; reflexivity|].
      exists l2. split; [congruence|]. split; [exact A2|]. split; [rewrite O2 by congruence; exact T1|]. split; [|split].
      * intros v Nv. destruct (string_dec v u) as [->|Nvu]; [rewrite T2; lra|rewrite O2 by exact Nvu; apply N1, Nv].
      * intros v Nv [<-|Hv]; [rewrite T2; ring|]. destruct (string_dec v u) as [->|Nvu]; [rewrite T2; ring|]. rewrite O2 by exact Nvu. apply Z1; assumption.
      * intros v Hv. rewrite O2 by (intros ->; apply Hv; left; reflexivity). apply O1. intros G. apply Hv. right. exact G.
Qed.

(** ** solutions *)
(** the raw variables for given trades *)
Definition raw (sc : string -> R) (e : cpc * R * R) : entry := let '(c, dx, dy) := e in (c, sc (tknx c) * dx, sc (tkny c) * dy).
Lemma raw_reported sc l : (forall u, 0 < sc u) -> map (reported sc) (map (raw sc) l) = l.
Proof.
  intros S. rewrite map_map. rewrite <- (map_id l) at 2. apply map_ext. intros [[c dx] dy]. cbn [raw reported]. pose proof (S (tknx c)). pose proof (S (tkny c)).
  f_equal; [f_equal|]; field; lra.
Qed.
Lemma nofees_arbitrage sc s cs l : (forall u, 0 < sc u) -> Forall proper cs -> pools l = cs -> In (s_ov s) (s_tokens s) ->
  (forall t, In t (s_tokens s) <-> In t (token_set cs)) -> (forall t, In t (s_tokens s) -> t <> s_ov s -> sfc_get s t = Ret (Num 0)) ->
  (exists w, sfc_get s (s_ov s) = Ret (Text w)) ->
  (solves sc s cs l <-> arbitrage (s_ov s) (map (reported sc) l)).
Proof.
  intros S H E Io T Z (w & Ow). assert (PK : Forall pool_ok cs) by (eapply Forall_impl; [|exact H]; intros c Hc; apply Hc).
  assert (F : forall l, pools l = cs -> (nofees_feasible sc s l <-> all_allowed (map (reported sc) l) /\ forall u, u <> s_ov s -> net (map (reported sc) l) u = 0)).
  { intros l' E'. rewrite feasible_iff by (try exact S; rewrite E'; exact PK). split; intros [F1 F2]; (split; [exact F1|]).
    - intros u Nu. destruct (in_dec string_dec u (token_set cs)) as [J|J].
      + apply F2; [apply T, J|]. apply Z; [apply T, J|exact Nu].
      + apply outside. rewrite pools_reported, E'. intros c Hc. split; intros G; apply J, tokens_in; exists c; auto.
    - intros t v Ht Hv. destruct (string_dec t (s_ov s)) as [->|Nt]; [congruence|]. rewrite (Z t Ht Nt) in Hv. assert (v = 0) by congruence. subst v. apply F2, Nt. }
  unfold solves, arbitrage. rewrite (F l E). pose proof (S (s_ov s)) as So. split.
  - intros (_ & (F1 & F2) & M). split; [exact F1|]. split; [exact F2|]. rewrite pools_reported, E. intros l' E' A' N'.
    destruct (balance (s_ov s) (token_set cs) l') as (l2 & B1 & B2 & B3 & B4 & B5 & B6); [rewrite E'; exact H|exact A'|exact N'|intros u Hu; rewrite E'; apply tokens_in, Hu|].
    rewrite <- B3. assert (P2 : pools (map (raw sc) l2) = cs) by (rewrite <- (pools_reported sc), raw_reported by exact S; congruence).
    specialize (M (map (raw sc) l2) P2). rewrite !(objective_value sc) in M by exact S. rewrite raw_reported in M by exact S. apply (Rmult_le_reg_l (sc (s_ov s))); [exact So|]. apply M.
    apply F; [exact P2|]. rewrite raw_reported by exact S. split; [exact B2|]. intros u Nu. destruct (in_dec string_dec u (token_set cs)) as [J|J]; [apply B5; assumption|].
    apply outside. rewrite B1, E'. intros c Hc. split; intros G; apply J, tokens_in; exists c; auto.
  - intros (F1 & F2 & M). split; [exact E|]. split; [split; assumption|]. intros l' E' F'. apply (F l' E') in F' as [A' N']. rewrite !(objective_value sc) by exact S. apply Rmult_le_compat_l; [lra|].
    apply M; [rewrite !pools_reported, E, E'; reflexivity|exact A'|]. intros u Nu. rewrite N' by exact Nu. apply Rle_refl.
Qed.
Lemma sfc_arbitrage_shape cs data s : NoDup (map fst data) -> SFC cs data = Ret s -> is_arbsfc s = true ->
  In (s_ov s) (s_tokens s) /\ (forall t, In t (s_tokens s) <-> In t (token_set cs)) /\ (forall t, In t (s_tokens s) -> t <> s_ov s -> sfc_get s t = Ret (Num 0)) /\
  exists w, sfc_get s (s_ov s) = Ret (Text w).
Proof.
  intros D E A. pose proof (SFC_tokens cs data s D E) as T. unfold SFC in E. destruct (sfc_make data (Some (as_set (map tknx cs ++ map tkny cs))) D) as [P _]. destruct (P s E) as (E1 & (w & M1 & Mw) & M2 & I1 & _).
  pose proof (proj1 (sfc_arb data _ s D E) A) as Z. assert (Io : In (s_ov s) (s_tokens s)) by (apply I1; apply (in_map fst) in M1; exact M1). split; [exact Io|].
  split; [intros t; rewrite T, tokens_in; reflexivity|]. assert (D' : NoDup (map fst (s_data s))) by (rewrite E1; exact D). split.
  - intros t Ht Nt. destruct (sfc_lookup s t D') as [_ G]. destruct (G Ht) as (G1 & G2 & _). destruct (in_dec string_dec t (map fst (s_data s))) as [J|J]; [|apply G2, J].
    apply in_map_iff in J as ([u v] & Eu & J). cbn [fst] in Eu. subst u. rewrite (G1 v J). f_equal. rewrite E1 in J. apply (Z t v J Nt).
  - exists w. destruct (sfc_lookup s (s_ov s) D') as [_ G]. destruct (G Io) as (G1 & _). apply G1. rewrite E1. exact M1.
Qed.
Lemma arb_feasible sc t s l : (forall u, 0 < sc u) -> Forall pool_ok (pools l) -> arb t = Ret s -> (nofees_feasible sc s l <-> all_allowed (map (reported sc) l)).
Proof.
  intros S H E. destruct (arb_sfc t) as (s' & E' & D1 & D2 & D3 & _). assert (s' = s) by congruence. subst s'. rewrite feasible_iff by assumption. split; [intros [A _]; exact A|]. intros A. split; [exact A|].
  intros u v Hu Hv. exfalso. rewrite D2 in Hu. destruct Hu as [<-|[]]. unfold sfc_get in Hv. rewrite D2, D1 in Hv. cbn [str_in existsb sget] in Hv. unfold str_in in Hv. cbn [existsb] in Hv. rewrite String.eqb_refl in Hv. discriminate.
Qed.

(** ** a converged result that is no arbitrage *)
Definition lone (s : R) : cpc := mkCpc (s * s) (s * (1 - / 10 ^ 7)) (s * (1 - / 10 ^ 7)) (s / (1 - / 10 ^ 7)) "A" "B".
Lemma small7 : / 10 ^ 7 = / 10000000.
Proof. f_equal. ring. Qed.
Lemma lone_ok s : 0 < s -> proper (lone s).
Proof.
  intros H. unfold proper, lone, pool_ok, CpcModel.y. cbn [k x x_act y_act tknx tkny]. rewrite small7. assert (X : 0 < s * (1 - / 10000000)) by (apply Rmult_lt_0_compat; lra).
  split; [|split; [discriminate|split; apply no_slash_free; reflexivity]]. split; [apply Rmult_lt_0_compat; exact H|]. split; [exact X|]. split; [lra|].
  split; [apply Rlt_le, Rdiv_lt_0_compat; lra|]. apply Req_le. field. lra.
Qed.
Lemma lone_trade s p0 : 0 < s -> 0 < p0 -> exists X Y, gx (lone s) p0 = X - s * (1 - / 10 ^ 7) /\ gy (lone s) p0 = Y - s / (1 - / 10 ^ 7) /\ 0 < X /\ X * Y = s * s /\ Y = p0 * X.
Proof.
  intros H Hp. destruct (lone_ok s H) as [K _]. destruct (reach (lone s) p0 K Hp) as (X & Y & E & HX & HY & XY & A & B & C & D). rewrite dxdy_value in E by assumption.
  assert (Yv : y (lone s) = s / (1 - / 10 ^ 7)) by (unfold CpcModel.y, lone; cbn [k x]; rewrite small7; field; lra).
  exists X, Y. split; [assert (gx (lone s) p0 = X - x (lone s)) by congruence; assumption|]. split; [rewrite <- Yv; congruence|]. split; [exact HX|]. split; [exact XY|].
  assert (M1 : x_min (lone s) < X) by (unfold x_min, lone; cbn [x x_act]; lra). assert (M2 : y_min (lone s) < Y) by (unfold y_min; rewrite Yv; unfold lone; cbn [y_act]; lra).
  specialize (C M1). specialize (D M2). lra.
Qed.
Definition divide (J : list (list R)) (b : list R) : list R := match J, b with [j :: _], [v] => [v / j] | _, _ => b end.
Lemma ln10_ge1 : 1 <= ln 10.
Proof.
  destruct (Rle_lt_dec 1 (ln 10)) as [L|L]; [exact L|]. exfalso. apply exp_increasing in L. rewrite exp_ln in L by lra. pose proof exp_le_3. lra.
Qed.
Lemma pow10_ge d : 0 < d -> 1 + d <= pow10 d.
Proof.
  intros H. unfold pow10. pose proof ln10_ge1. apply Rle_trans with (1 + d * ln 10); [|apply Rlt_le, exp_ineq1, Rgt_not_eq, Rmult_lt_0_compat; lra].
  pose proof (Rmult_le_compat_l d 1 (ln 10) ltac:(lra) H0). lra.
Qed.
Lemma pow10_0 : pow10 0 = 1.
Proof. unfold pow10. rewrite Rmult_0_l. apply exp_0. Qed.
Lemma lone_net P s t : P "B"%string = 1 -> net (map (mtrade P) [lone s]) t = (if string_dec "A" t then gx (lone s) (P "A"%string) else 0) + (if string_dec "B" t then gy (lone s) (P "A"%string) else 0).
Proof.
  intros E. cbn [map net mtrade flow]. change (tknx (lone s)) with "A"%string. change (tkny (lone s)) with "B"%string. rewrite E. replace (P "A"%string / 1) with (P "A"%string) by field. ring.
Qed.
Lemma false_profit s : 0 < s -> exists c m, tokens_t (fun l => l) [lone s] "B" = ["A"%string] /\ arb "B" = Ret c /\
  margp_optimizer (fun l => l) (fun l => l) divide [lone s] c None None (Some [("A"%string, 1)]) None false = Ret (Converged m) /\
  m_value m <= - s / 10 ^ 8 /\ dget (m_dtokens m) "A" = s / 10 ^ 7.
Proof.
  intros H. assert (T : tokens_t (fun l => l) [lone s] "B" = ["A"%string]) by reflexivity.
  destruct (arb_sfc "B") as (c & Ec & _ & _ & Oc & Ac).
  assert (Pr : Forall proper [lone s]) by (constructor; [apply lone_ok, H|constructor]).
  assert (Oid : order (fun l => l)) by (intros l; apply Permutation_refl).
  destruct (margp_outcome (fun l => l) (fun l => l) divide [lone s] c None None (Some [("A"%string, 1)]) None false [1] Oid Oid Pr) as (q & d & Q0 & Rn & _ & Hit & _).
  - rewrite Oc, T. intros J b Hb. unfold divide. destruct J as [|[|j jr] [|J2 J]]; try reflexivity. destruct b as [|v [|w b]]; reflexivity.
  - exact Ac.
  - rewrite Oc. apply tokens_in. exists (lone s). split; [left; reflexivity|right; reflexivity].
  - rewrite Oc, T. reflexivity.
  - constructor; [lra|constructor].
  - rewrite Oc, T. reflexivity.
  - rewrite Oc in *. cbv zeta in Hit.
    assert (L0 : q O = [0]) by (rewrite Q0; cbn [map]; rewrite ln_1; f_equal; unfold Rdiv; ring).
    destruct (Rn O) as (w & J & W & EJ & Ed & _). rewrite L0 in *.
    assert (F : forall u, dtkn_log (fun l => l) (fun l => l) [lone s] "B" [u] = Ret [gx (lone s) (pow10 u)]).
    { intros u. rewrite (log_total _ _ _ _ [u] Oid Oid Pr) by (rewrite T; reflexivity). rewrite T. change (map pow10 [u]) with [pow10 u].
      change (Ret [net (map (mtrade (price_of ["A"%string] [pow10 u])) [lone s]) "A"%string] = Ret [gx (lone s) (pow10 u)]).
      rewrite lone_net by reflexivity. do 2 f_equal. destruct (string_dec "A" "A") as [_|G]; [|congruence]. destruct (string_dec "B" "A") as [G|_]; [discriminate|].
      change (price_of ["A"%string] [pow10 u] "A") with (pow10 u). ring. }
    rewrite F in W. assert (Ew : w = [gx (lone s) (pow10 0)]) by congruence. rewrite pow10_0 in Ew.
    assert (D : 0 < JACEPS) by (unfold JACEPS; apply Rinv_0_lt_compat, pow_lt; lra).
    unfold jacobian in EJ. cbn [dflt List.length seq rmap nth] in EJ. rewrite (proj2 (req_iff 0 0) eq_refl) in EJ. rewrite F in EJ. cbn [rbind] in EJ. cbn [add_at] in EJ. rewrite F in EJ. cbn [rbind zipw] in EJ.
    rewrite pow10_0, Rplus_0_l in EJ. cbn [rmap] in EJ. rewrite rdiv_ok in EJ by lra. cbn [rbind] in EJ. assert (EJ' : J = [[(gx (lone s) (pow10 JACEPS) - gx (lone s) 1) / JACEPS]]) by congruence.
    clear EJ W F. subst w J. cbn [map divide] in Ed.
    assert (Pj : 0 < pow10 JACEPS) by apply exp_pos. pose proof (pow10_ge JACEPS D) as Gj.
    destruct (lone_trade s 1 H ltac:(lra)) as (X1 & Y1 & G1 & G1' & HX1 & XY1 & E1). destruct (lone_trade s (pow10 JACEPS) H Pj) as (X2 & Y2 & G2 & _ & HX2 & XY2 & E2).
    assert (EX1 : X1 = s). { subst Y1. rewrite Rmult_1_l in XY1. apply Rsqr_inj; unfold Rsqr; lra. }
    set (r := pow10 JACEPS) in *. assert (BX2 : X2 <= s * (1 - JACEPS / 4)).
    { assert (JV : JACEPS = / 100000) by (unfold JACEPS; f_equal; ring). destruct (Rle_lt_dec X2 (s * (1 - JACEPS / 4))) as [L|L]; [exact L|]. exfalso. rewrite JV in *.
      subst Y2. assert (Q : X2 * X2 * r = s * s) by (rewrite <- XY2; ring). assert (M : s * (1 - / 100000 / 4) * (s * (1 - / 100000 / 4)) < X2 * X2) by (apply Rmult_le_0_lt_compat; try exact L; apply Rmult_le_pos; lra).
      assert (M2 : X2 * X2 * (1 + / 100000) <= X2 * X2 * r) by (apply Rmult_le_compat_l; [apply Rmult_le_pos; lra|lra]). pose proof (Rmult_lt_0_compat s s H H). lra. }
    assert (N : norm (d O) < / 10 ^ 6).
    { rewrite Ed, G1, G2, EX1. unfold norm. cbn [map]. unfold rsum. cbn [fold_left]. rewrite Rplus_0_l.
      set (a := - (s - s * (1 - / 10 ^ 7)) / ((X2 - s * (1 - / 10 ^ 7) - (s - s * (1 - / 10 ^ 7))) / JACEPS)).
      assert (Ea : a = s * / 10 ^ 7 / ((s - X2) / JACEPS)). { unfold a. field. pose proof (Rmult_lt_0_compat s JACEPS H D). repeat split; try lra. }
      assert (Q : s / 4 <= (s - X2) / JACEPS). { apply le_div; [exact D|]. lra. }
      assert (A0 : 0 <= a <= 4 * / 10 ^ 7).
      { rewrite Ea, small7. split; [apply Rlt_le, Rdiv_lt_0_compat; lra|]. apply div_le; [lra|]. lra. }
      fold (Rsqr a). rewrite sqrt_Rsqr by apply A0. rewrite small7 in A0. assert (E6 : / 10 ^ 6 = / 1000000) by (f_equal; ring). rewrite E6. lra. }
    destruct (Hit O) as (m & Em & Rm); [cbn; lia|exact N|intros j Hj; lia|]. cbn [Nat.eqb] in Rm. destruct Rm as (_ & _ & _ & _ & _ & _ & _ & R1 & _ & R3).
    exists c, m. split; [exact T|]. split; [exact Ec|]. split; [exact Em|].
    rewrite R3, R1. rewrite T, !lone_net by reflexivity. change (price_of ["A"%string] [1] "A") with 1. destruct (string_dec "A" "B") as [G|_]; [discriminate|]. destruct (string_dec "B" "B") as [_|G]; [|congruence].
    destruct (string_dec "A" "A") as [_|G]; [|congruence]. destruct (string_dec "B" "A") as [G|_]; [discriminate|]. rewrite G1, G1', EX1. subst Y1. rewrite EX1. rewrite small7.
    replace (10 ^ 8) with 100000000 by ring. replace (10 ^ 7) with 10000000 by ring. split; [|field].
    assert (Q : s / (1 - / 10000000) >= s * (1 + / 10000000)). { apply Rle_ge. apply le_div; [lra|]. lra. } lra.
Qed.
Lemma lone_arbitrage c : proper c -> arbitrage (tkny c) [(c, 0, 0)].
Proof.
  intros H. split; [constructor; [apply stay_allowed, H|constructor]|]. split; [intros u _; cbn [net flow]; destruct (string_dec _ _), (string_dec _ _); ring|].
  intros l E A N. cbn [pools map fst] in E. destruct l as [|[[c' dx] dy] [|e l]]; try discriminate. cbn [pools map fst] in E. assert (c' = c) by congruence. subst c'. clear E.
  inversion A as [|? ? A1 _]; subst. cbn [fst snd] in A1. destruct H as (K & Nt & _). specialize (N (tknx c) Nt). cbn [net flow] in *.
  destruct (string_dec (tknx c) (tknx c)) as [_|G]; [|congruence]. destruct (string_dec (tkny c) (tkny c)) as [_|G]; [|congruence].
  destruct (string_dec (tkny c) (tknx c)) as [G|_]; [congruence|]. destruct (string_dec (tknx c) (tkny c)) as [G|_]; [congruence|].
  destruct A1 as (_ & _ & B & C). destruct (pool_pos c K) as (Hy & Hk & Hx & Hxy & _). rewrite !Rplus_0_r, !Rplus_0_l in *. assert (dx <= 0) by lra.
  destruct (Rle_lt_dec 0 dy) as [L|L]; [exact L|]. exfalso. assert ((x c + dx) * (y c + dy) < x c * y c); [|lra].
  apply Rle_lt_trans with ((x c + dx) * y c - (x c + dx) * - dy); [lra|]. pose proof (Rmult_lt_0_compat (x c + dx) (- dy) B ltac:(lra)).
  pose proof (Rmult_le_compat_r (y c) (x c + dx) (x c) ltac:(lra) ltac:(lra)). lra.
Qed.
