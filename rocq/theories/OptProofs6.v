(** What margp_optimizer sums up, and that it is optimal (C97). *)
From Coq Require Import Reals Lra Bool List String Lia Permutation.
From Verif Require Import CurveModel CurveProofs PairModel PairSpec PairProofs HelperModel CpcModel CpcSpec CpcProofs CpcProofs2
  ContainerModel ContainerSpec ContainerProofs ContainerProofs2 OptModel OptSpec OptProofs2 OptProofs3.
Import ListNotations.
Local Open Scope R_scope.

(** the marginal trade at the prices [P] *)
Definition mtrade (P : string -> R) (c : cpc) : cpc * R * R := (c, gx c (P (tknx c) / P (tkny c)), gy c (P (tknx c) / P (tkny c))).
Lemma net_total l t : net l t = total (map (flow t) l).
Proof. induction l as [|e l IH]; [reflexivity|]. cbn [net map]. rewrite total_cons, IH. reflexivity. Qed.

Lemma price_pos ts p0 t : Forall (fun v => 0 < v) p0 -> 0 < price_of ts p0 t.
Proof.
  revert p0. induction ts as [|u ts IH]; intros p0 H; cbn [price_of]; [destruct p0; lra|]. destruct p0 as [|v p0]; [lra|]. inversion H; subst. destruct (String.eqb u t); [assumption|]. apply IH. assumption.
Qed.
Lemma price_out ts p0 t : ~ In t ts -> price_of ts p0 t = 1.
Proof.
  revert p0. induction ts as [|u ts IH]; intros p0 H; cbn [price_of]; [destruct p0; reflexivity|]. destruct p0 as [|v p0]; [reflexivity|]. destruct (String.eqb u t) eqn:E.
  - apply String.eqb_eq in E. subst u. exfalso. apply H. left. reflexivity.
  - apply IH. intros G. apply H. right. exact G.
Qed.

(** ** one pair *)
Lemma dget_add d t u v : NoDup (map fst d) -> dget (add_to d t v) u = dget d u + (if string_dec t u then (if str_in t (map fst d) then v else 0) else 0).
Proof.
  induction d as [|[w r] d IH]; cbn [add_to dget map fst]; intros D; [destruct (string_dec t u); cbn; ring|]. inversion D as [|? ? D1 D2]; subst. specialize (IH D2). destruct (String.eqb w t) eqn:E.
  - apply String.eqb_eq in E. subst w. rewrite (proj2 (str_in_iff t (t :: map fst d))) by (left; reflexivity). cbn [dget]. destruct (String.eqb t u) eqn:E2.
    + apply String.eqb_eq in E2. subst u. destruct (string_dec t t); [reflexivity|congruence].
    + apply String.eqb_neq in E2. destruct (string_dec t u); [congruence|ring].
  - apply String.eqb_neq in E. cbn [dget]. assert (S : str_in t (w :: map fst d) = str_in t (map fst d)).
    { destruct (str_in t (map fst d)) eqn:S1.
      - apply str_in_iff in S1. apply str_in_iff. right. exact S1.
      - destruct (str_in t (w :: map fst d)) eqn:S2; [|reflexivity]. apply str_in_iff in S2 as [S2|S2]; [congruence|]. apply str_in_iff in S2. congruence. }
    rewrite S. destruct (String.eqb w u) eqn:E2; [|exact IH]. apply String.eqb_eq in E2. subst u. destruct (string_dec t w); [congruence|ring].
Qed.
Lemma keys_add d t v : map fst (add_to d t v) = map fst d.
Proof. induction d as [|[w r] d IH]; [reflexivity|]. cbn [add_to]. destruct (String.eqb w t); cbn [map fst]; congruence. Qed.
Lemma pair_value cs ts p0 (d : list (string * R)) (b q : string) : Forall proper cs -> Forall (fun v => 0 < v) p0 -> NoDup (map fst d) -> PairSpec.slash_free b -> PairSpec.slash_free q -> b <> q ->
  In b (map fst d) -> In q (map fst d) ->
  exists d', add_pair cs ts p0 d (pair_str b q) = Ret d' /\ map fst d' = map fst d /\
    forall t, dget d' t = dget d t + net (map (mtrade (price_of ts p0)) (filter (fun c => String.eqb (pair_of c) (pair_str b q)) cs)) t.
Proof.
  intros H Hp D Fb Fq N Ib Iq. apply no_slash_free in Fb, Fq. unfold add_pair. unfold pair_str at 1. rewrite split_app by assumption.
  set (P := price_of ts p0). assert (PP : forall t, 0 < P t) by (intros t; apply price_pos; exact Hp). rewrite rdiv_ok by (apply Rgt_not_eq, PP). cbn [rbind].
  set (l := filter _ cs). assert (L : forall c, In c l -> proper c /\ tknx c = b /\ tkny c = q).
  { intros c Hc. unfold l in Hc. apply filter_In in Hc as [Hc E]. rewrite Forall_forall in H. specialize (H c Hc). split; [exact H|]. apply String.eqb_eq in E.
    destruct H as (_ & _ & F1 & F2). apply no_slash_free in F1, F2. apply pair_inj in E; assumption. }
  rewrite (rmap_ok _ (fun c => (gx c (P b / P q), gy c (P b / P q)))).
  2:{ intros c Hc. rewrite dxdy_value; [reflexivity|apply L, Hc|apply Rdiv_lt_0_compat; apply PP]. }
  cbn [rbind]. eexists. split; [reflexivity|]. split; [rewrite !keys_add; reflexivity|]. intros t. rewrite dget_add by (rewrite keys_add; exact D). rewrite dget_add by exact D.
  rewrite keys_add. rewrite (proj2 (str_in_iff b _) Ib), (proj2 (str_in_iff q _) Iq). rewrite !map_map, !rsum_total. cbn [fst snd].
  assert (X : net (map (mtrade P) l) t = (if string_dec b t then total (map (fun c => gx c (P b / P q)) l) else 0) + (if string_dec q t then total (map (fun c => gy c (P b / P q)) l) else 0)).
  { rewrite net_total. clearbody l. clear - L. induction l as [|c l IH].
    - cbn [map]. rewrite total_nil. destruct (string_dec b t), (string_dec q t); ring.
    - cbn [map]. rewrite !total_cons, IH by (intros d Hd; apply L; right; exact Hd). destruct (L c (or_introl eq_refl)) as (_ & E1 & E2). unfold mtrade, flow. rewrite E1, E2.
      destruct (string_dec b t), (string_dec q t); ring. }
  rewrite X. ring.
Qed.

(** ** all pairs *)
Lemma net_app l m t : net (l ++ m) t = net l t + net m t.
Proof. rewrite !net_total, map_app, total_app. reflexivity. Qed.
Lemma split_pairs (key : cpc -> string) (f : cpc -> cpc * R * R) cs t : forall L, NoDup L -> (forall c, In c cs -> In (key c) L) ->
  total (map (fun P => net (map f (filter (fun c => String.eqb (key c) P) cs)) t) L) = net (map f cs) t.
Proof.
  intros L D. induction cs as [|c cs IH]; intros I1.
  - cbn [filter map net]. rewrite (total_zero (fun _ => 0)); [reflexivity|reflexivity].
  - cbn [map net]. rewrite <- IH by (intros d Hd; apply I1; right; exact Hd).
    assert (X : forall M, NoDup M -> total (map (fun P => net (map f (filter (fun c => String.eqb (key c) P) (c :: cs))) t) M) =
      (if in_dec string_dec (key c) M then flow t (f c) else 0) + total (map (fun P => net (map f (filter (fun c => String.eqb (key c) P) cs)) t) M)).
    { intros M DM. induction M as [|P M IM]; [cbn [map]; rewrite total_nil; destruct (in_dec _ _ _) as [[]|]; ring|].
      inversion DM as [|? ? DM1 DM2]; subst. cbn [map]. rewrite !total_cons, (IM DM2). cbn [filter]. destruct (String.eqb (key c) P) eqn:E.
      - apply String.eqb_eq in E. subst P. cbn [map net]. destruct (in_dec string_dec (key c) M); [contradiction|]. destruct (in_dec string_dec (key c) (key c :: M)) as [_|G]; [ring|]. exfalso. apply G. left. reflexivity.
      - apply String.eqb_neq in E. destruct (in_dec string_dec (key c) M) as [J|J], (in_dec string_dec (key c) (P :: M)) as [K|K]; try ring; exfalso; [apply K; right; exact J|destruct K as [K|K]; [congruence|contradiction]]. }
    rewrite (X L D). destruct (in_dec _ _ _) as [_|G]; [reflexivity|]. exfalso. apply G, I1. left. reflexivity.
Qed.
Lemma tokens_in cs t : In t (token_set cs) <-> exists c, In c cs /\ (tknx c = t \/ tkny c = t).
Proof.
  unfold token_set, as_set. rewrite nodup_In, in_app_iff, !in_map_iff. split; [intros [(c & H1 & H2)|(c & H1 & H2)]; exists c; auto|]. intros (c & H1 & [H2|H2]); [left|right]; exists c; auto.
Qed.
Lemma folded cs ts p0 : Forall proper cs -> Forall (fun v => 0 < v) p0 -> forall L d, (forall P, In P L -> exists c, In c cs /\ P = pair_of c) -> NoDup (map fst d) ->
  (forall t, In t (token_set cs) -> In t (map fst d)) ->
  exists d', rfold (add_pair cs ts p0) L d = Ret d' /\ map fst d' = map fst d /\
    forall t, dget d' t = dget d t + total (map (fun P => net (map (mtrade (price_of ts p0)) (filter (fun c => String.eqb (pair_of c) P) cs)) t) L).
Proof.
  intros H Hp L. induction L as [|P L IH]; intros d HL D A; cbn [rfold].
  - exists d. split; [reflexivity|]. split; [reflexivity|]. intros t. cbn [map]. rewrite total_nil. ring.
  - destruct (HL P (or_introl eq_refl)) as (c & Hc & ->). rewrite Forall_forall in H. destruct (H c Hc) as (_ & N & F1 & F2). unfold pair_of.
    destruct (pair_value cs ts p0 d (tknx c) (tkny c)) as (d1 & E1 & K1 & V1); try assumption; try (apply A, tokens_in; exists c; auto); [apply Forall_forall; exact H|].
    rewrite E1. cbn [rbind]. destruct (IH d1) as (d2 & E2 & K2 & V2); [intros Q HQ; apply HL; right; exact HQ|rewrite K1; exact D|rewrite K1; exact A|].
    exists d2. split; [exact E2|]. split; [congruence|]. intros t. rewrite V2, V1. cbn [map]. rewrite total_cons. unfold pair_of. ring.
Qed.
Lemma dget_zero l t : dget (map (fun t => (t, 0)) l) t = 0.
Proof. induction l as [|u l IH]; [reflexivity|]. cbn [map dget]. destruct (String.eqb u t); [reflexivity|exact IH]. Qed.
Lemma perm_in (o : list string -> list string) l t : order o -> (In t (o l) <-> In t l).
Proof. intros H. split; apply Permutation_in; [apply H|apply Permutation_sym, H]. Qed.
Lemma perm_nodup (o : list string -> list string) l : order o -> NoDup l -> NoDup (o l).
Proof. intros H D. eapply Permutation_NoDup; [apply Permutation_sym, H|exact D]. Qed.
Lemma aggregate ot op cs target p0 : order ot -> order op -> Forall proper cs -> Forall (fun v => 0 < v) p0 -> List.length p0 = List.length (tokens_t ot cs target) ->
  let P := price_of (tokens_t ot cs target) p0 in
  exists d, dtkn_d ot op cs target p0 = Ret (d, map (net (map (mtrade P) cs)) (tokens_t ot cs target)) /\ map fst d = ot (token_set cs) /\ forall t, dget d t = net (map (mtrade P) cs) t.
Proof.
  intros Ot Op H Hp L P. unfold dtkn_d. rewrite (proj2 (PeanoNat.Nat.eqb_eq _ _) L). cbn [negb].
  assert (K : map fst (map (fun t : string => (t, 0)) (ot (token_set cs))) = ot (token_set cs)) by (rewrite map_map; cbn [fst]; apply map_id).
  destruct (folded cs (tokens_t ot cs target) p0 H Hp (op (pair_set cs)) (map (fun t => (t, 0)) (ot (token_set cs)))) as (d & E & Kd & V).
  - intros Q HQ. apply (proj1 (perm_in op _ _ Op)) in HQ. apply nodup_In, in_map_iff in HQ as (c & <- & Hc). exists c. auto.
  - rewrite K. apply perm_nodup; [exact Ot|]. apply NoDup_nodup.
  - rewrite K. intros t Ht. apply perm_in; assumption.
  - exists d. assert (V' : forall t, dget d t = net (map (mtrade P) cs) t).
    { intros t. rewrite V, dget_zero, (split_pairs pair_of); [fold P; ring|apply perm_nodup; [exact Op|apply NoDup_nodup]|].
      intros c Hc. apply perm_in; [exact Op|]. apply nodup_In, in_map, Hc. }
    rewrite E. cbn [rbind]. split; [|split; [congruence|exact V']]. do 2 f_equal. apply map_ext. exact V'.
Qed.

(** ** duality *)
Lemma worth_plus P toks f g : worth P toks (fun t => f t + g t) = worth P toks f + worth P toks g.
Proof. induction toks as [|t toks IH]; cbn [worth fold_right]; [ring|]. unfold worth in IH. rewrite IH. ring. Qed.
Lemma worth_ext P toks f g : (forall t, In t toks -> f t = g t) -> worth P toks f = worth P toks g.
Proof. induction toks as [|t toks IH]; intros H; [reflexivity|]. cbn [worth fold_right]. unfold worth in IH. rewrite IH by (intros u Hu; apply H; right; exact Hu). rewrite H by (left; reflexivity). reflexivity. Qed.
Lemma worth_zero P toks f : (forall t, In t toks -> f t = 0) -> worth P toks f = 0.
Proof. intros H. induction toks as [|t toks IH]; [reflexivity|]. cbn [worth fold_right]. unfold worth in IH. rewrite IH, H by (try (left; reflexivity); intros u Hu; apply H; right; exact Hu). ring. Qed.
Lemma worth_single P toks u v : NoDup toks -> In u toks -> worth P toks (fun t => if string_dec u t then v else 0) = P u * v.
Proof.
  induction toks as [|t toks IH]; intros D I1; [destruct I1|]. inversion D as [|? ? D1 D2]; subst. cbn [worth fold_right]. unfold worth in IH. destruct (string_dec u t) as [->|N].
  - pose proof (worth_zero P toks (fun t0 => if string_dec t t0 then v else 0)) as Z. unfold worth in Z. rewrite Z; [ring|]. intros s Hs. destruct (string_dec t s); [subst; contradiction|reflexivity].
  - destruct I1 as [I1|I1]; [congruence|]. rewrite (IH D2 I1). ring.
Qed.
Lemma worth_flow P toks e : NoDup toks -> In (tknx (fst (fst e))) toks -> In (tkny (fst (fst e))) toks ->
  worth P toks (fun t => flow t e) = P (tknx (fst (fst e))) * snd (fst e) + P (tkny (fst (fst e))) * snd e.
Proof.
  destruct e as [[c dx] dy]. cbn [fst snd flow]. intros D I1 I2. rewrite worth_plus, !worth_single by assumption. reflexivity.
Qed.
Definition covers (toks : list string) (cs : list cpc) : Prop := forall c, In c cs -> In (tknx c) toks /\ In (tkny c) toks.
Lemma worth_net P toks l : NoDup toks -> covers toks (pools l) ->
  worth P toks (net l) = total (map (fun e => P (tknx (fst (fst e))) * snd (fst e) + P (tkny (fst (fst e))) * snd e) l).
Proof.
  intros D. induction l as [|e l IH]; intros C; [apply worth_zero; reflexivity|]. cbn [net map]. rewrite total_cons.
  change (worth P toks (fun t => flow t e + net l t) = P (tknx (fst (fst e))) * snd (fst e) + P (tkny (fst (fst e))) * snd e + total (map (fun e => P (tknx (fst (fst e))) * snd (fst e) + P (tkny (fst (fst e))) * snd e) l)).
  rewrite worth_plus, IH by (intros c Hc; apply C; right; exact Hc). destruct (C (fst (fst e)) (or_introl eq_refl)) as [C1 C2]. rewrite worth_flow by assumption. reflexivity.
Qed.
Lemma pools_mtrade P cs : pools (map (mtrade P) cs) = cs.
Proof. unfold pools. rewrite map_map. cbn [mtrade fst]. apply map_id. Qed.
Lemma mtrade_allowed P cs : Forall proper cs -> (forall t, 0 < P t) -> all_allowed (map (mtrade P) cs).
Proof.
  intros H PP. rewrite Forall_forall in H. apply Forall_forall. intros e He. apply in_map_iff in He as (c & <- & Hc). cbn [mtrade fst snd]. apply g_allowed; [apply H, Hc|]. apply Rdiv_lt_0_compat; apply PP.
Qed.
Lemma duality P toks cs l : Forall proper cs -> (forall t, 0 < P t) -> NoDup toks -> covers toks cs -> pools l = cs -> all_allowed l ->
  worth P toks (net (map (mtrade P) cs)) <= worth P toks (net l).
Proof.
  intros H PP D C E A. rewrite !worth_net by (try exact D; rewrite ?pools_mtrade, ?E; exact C). subst cs. clear C D. unfold all_allowed in A. unfold pools in *. rewrite !map_map.
  apply total_le. intros e He. rewrite Forall_forall in A, H. specialize (A e He). specialize (H _ (in_map (fun e => fst (fst e)) _ _ He)). cbn [mtrade fst snd].
  set (c := fst (fst e)) in *. pose proof (PP (tknx c)) as Px. pose proof (PP (tkny c)) as Py. assert (Pr : 0 < P (tknx c) / P (tkny c)) by (apply Rdiv_lt_0_compat; assumption).
  pose proof (g_best c _ _ _ (proj1 H) Pr A) as B. set (q := P (tknx c) / P (tkny c)) in *. assert (Eq : P (tknx c) = P (tkny c) * q) by (unfold q; field; lra). rewrite Eq.
  apply (Rmult_le_compat_l (P (tkny c))) in B; [|lra]. lra.
Qed.
Lemma duality_zero P toks cs : Forall proper cs -> (forall t, 0 < P t) -> NoDup toks -> covers toks cs -> worth P toks (net (map (mtrade P) cs)) <= 0.
Proof.
  intros H PP D C. assert (Z : forall t, net (map (fun c => (c, 0, 0)) cs) t = 0).
  { intros t. clear. induction cs as [|c cs IH]; [reflexivity|]. cbn [map net flow]. rewrite IH. destruct (string_dec _ _), (string_dec _ _); ring. }
  rewrite <- (worth_zero P toks (net (map (fun c => (c, 0, 0)) cs))) by (intros t _; apply Z). apply duality; try assumption.
  - unfold pools. rewrite map_map. cbn [fst]. apply map_id.
  - rewrite Forall_forall in H. apply Forall_forall. intros e He. apply in_map_iff in He as (c & <- & Hc). cbn [fst snd]. apply stay_allowed, H, Hc.
Qed.
Lemma worth_target P toks f t : NoDup toks -> In t toks -> P t = 1 -> (forall u, u <> t -> f u = 0) -> worth P toks f = f t.
Proof.
  intros D I1 E Z. rewrite (worth_ext P toks f (fun u => if string_dec t u then f t else 0)); [rewrite worth_single by assumption; rewrite E; ring|].
  intros u _. destruct (string_dec t u) as [->|N]; [reflexivity|]. apply Z. congruence.
Qed.
Lemma worth_le_target P toks f t : NoDup toks -> In t toks -> P t = 1 -> (forall u, 0 < P u) -> (forall u, u <> t -> f u <= 0) -> worth P toks f <= f t.
Proof.
  intros D I1 E PP Z. rewrite (worth_ext P toks f (fun u => (if string_dec t u then f t else 0) + (if string_dec t u then 0 else f u))) by (intros u _; destruct (string_dec t u) as [->|N]; ring).
  rewrite worth_plus, worth_single by assumption. assert (G : worth P toks (fun u => if string_dec t u then 0 else f u) <= 0); [|rewrite E; lra].
  clear D I1. induction toks as [|u toks IH]; [cbn; lra|]. cbn [worth fold_right]. unfold worth in IH. destruct (string_dec t u) as [_|N]; [lra|]. pose proof (Z u ltac:(congruence)). pose proof (PP u).
  assert (P u * f u <= 0) by (rewrite <- (Rmult_0_r (P u)); apply Rmult_le_compat_l; lra). lra.
Qed.
Lemma outside l t : (forall c, In c (pools l) -> tknx c <> t /\ tkny c <> t) -> net l t = 0.
Proof.
  induction l as [|[[c dx] dy] l IH]; intros H; [reflexivity|]. cbn [net flow]. rewrite IH by (intros d Hd; apply H; right; exact Hd). destruct (H c (or_introl eq_refl)).
  destruct (string_dec _ _); [contradiction|]. destruct (string_dec _ _); [contradiction|]. ring.
Qed.
Lemma covers_tokens cs : covers (token_set cs) cs.
Proof. intros c Hc. split; apply tokens_in; exists c; auto. Qed.
Lemma zero_arbitrage P cs t : Forall proper cs -> (forall u, 0 < P u) -> P t = 1 -> In t (token_set cs) ->
  (forall u, u <> t -> In u (token_set cs) -> net (map (mtrade P) cs) u = 0) -> arbitrage t (map (mtrade P) cs).
Proof.
  intros H PP E I1 Z. assert (Z' : forall u, u <> t -> net (map (mtrade P) cs) u = 0).
  { intros u N. destruct (in_dec string_dec u (token_set cs)) as [J|J]; [apply Z; assumption|]. apply outside. rewrite pools_mtrade. intros c Hc. split; intros G; apply J, tokens_in; exists c; auto. }
  split; [apply mtrade_allowed; assumption|]. split; [exact Z'|]. intros l El Al Nl. rewrite pools_mtrade in El.
  pose proof (duality P (token_set cs) cs l H PP (NoDup_nodup string_dec _) (covers_tokens cs) El Al) as D. rewrite (worth_target P _ _ t) in D by (try assumption; apply NoDup_nodup).
  eapply Rle_trans; [exact D|]. apply worth_le_target; try assumption. apply NoDup_nodup.
Qed.
(** prices at which no token but [t] is needed in total give the best trades for [t], whatever the residues are: how far off *)
Lemma near_arbitrage P cs t l : Forall proper cs -> (forall u, 0 < P u) -> P t = 1 -> In t (token_set cs) -> pools l = cs -> all_allowed l -> (forall u, u <> t -> net l u <= 0) ->
  net (map (mtrade P) cs) t + worth P (filter (fun u => negb (String.eqb u t)) (token_set cs)) (net (map (mtrade P) cs)) <= net l t.
Proof.
  intros H PP E I1 El Al Nl. pose proof (duality P (token_set cs) cs l H PP (NoDup_nodup string_dec _) (covers_tokens cs) El Al) as D.
  assert (S : forall toks f, NoDup toks -> In t toks -> worth P toks f = f t + worth P (filter (fun u => negb (String.eqb u t)) toks) f).
  { intros toks f. induction toks as [|u toks IH]; intros ND J; [destruct J|]. inversion ND as [|? ? N1 N2]; subst. cbn [filter worth fold_right]. destruct (String.eqb u t) eqn:Eu; cbn [negb].
    - apply String.eqb_eq in Eu. subst u. rewrite E. f_equal; [ring|]. clear - N1. unfold worth. f_equal. induction toks as [|w toks IH]; [reflexivity|]. cbn [filter].
      destruct (String.eqb w t) eqn:Ew; [apply String.eqb_eq in Ew; subst w; exfalso; apply N1; left; reflexivity|]. cbn [negb]. f_equal. apply IH. intros G. apply N1. right. exact G.
    - apply String.eqb_neq in Eu. destruct J as [J|J]; [congruence|]. unfold worth in IH. rewrite (IH N2 J). cbn [fold_right]. unfold worth. ring. }
  rewrite (S (token_set cs) (net (map (mtrade P) cs)) (NoDup_nodup string_dec _) I1) in D. eapply Rle_trans; [exact D|]. apply worth_le_target; try assumption. apply NoDup_nodup.
Qed.
