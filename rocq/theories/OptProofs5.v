(** Self-financing constraints and trade instructions (C95, C96). *)
From Coq Require Import Reals Lra Bool List String Lia.
From Verif Require Import CurveModel CurveProofs CpcModel CpcProofs ContainerModel ContainerProofs ContainerProofs2 OptModel OptSpec.
Import ListNotations.
Local Open Scope R_scope.

(** ** constraints *)
Lemma is_ov_iff v : is_ov v = true <-> exists w, v = Text w /\ (w = "AMMPays" \/ w = "AMMReceives" \/ w = "OptimizationVar")%string.
Proof.
  destruct v as [r|s]; cbn [is_ov].
  - split; [discriminate|]. intros (w & E & _). discriminate.
  - rewrite !orb_true_iff, !String.eqb_eq. unfold AMMPays, AMMReceives, OptimizationVar. split.
    + intros H. exists s. split; [reflexivity|]. tauto.
    + intros (w & E & H). assert (s = w) by congruence. subst w. tauto.
Qed.
Lemma marked_iff data t : marked data t <-> In t (map fst (filter (fun e => is_ov (snd e)) data)).
Proof.
  rewrite in_map_iff. split.
  - intros (w & I1 & Hw). exists (t, Text w). split; [reflexivity|]. apply filter_In. split; [exact I1|]. apply is_ov_iff. exists w. split; [reflexivity|exact Hw].
  - intros ([u v] & E & I1). cbn [fst] in E. subst u. apply filter_In in I1 as [I1 I2]. cbn [snd] in I2. apply is_ov_iff in I2 as (w & -> & Hw). exists w. split; assumption.
Qed.
Lemma nodup_marked data : NoDup (map fst data) -> NoDup (map fst (filter (fun e : string * sfcval => is_ov (snd e)) data)).
Proof.
  induction data as [|e d IH]; cbn [filter map]; intros H; [exact H|]. inversion H as [|? ? H1 H2]; subst. destruct (is_ov (snd e)); [|apply IH, H2]. cbn [map]. constructor; [|apply IH, H2].
  intros I1. apply H1. apply in_map_iff in I1 as (u & E & I1). apply filter_In in I1 as [I1 _]. rewrite <- E. apply in_map, I1.
Qed.
Lemma forallb_incl l ts : forallb (fun t => str_in t ts) l = true <-> incl l ts.
Proof. rewrite forallb_forall. split; intros H t Ht; apply str_in_iff; apply H, Ht. Qed.
Lemma sfc_make data tk : NoDup (map fst data) ->
  (forall s, make_sfc data tk = Ret s -> s_data s = data /\ marked data (s_ov s) /\ (forall t, marked data t -> t = s_ov s) /\
    incl (map fst data) (s_tokens s) /\ (forall t, In t (s_tokens s) <-> In t (match tk with Some ts => ts | None => map fst data end))) /\
  ((exists s, make_sfc data tk = Ret s) <-> (exists t, marked data t /\ forall u, marked data u -> u = t) /\ (forall ts, tk = Some ts -> incl (map fst data) ts)) /\
  ((exists s, make_sfc data tk = Ret s) \/ make_sfc data tk = Raise AssertionError).
Proof.
  intros D. pose proof (nodup_marked data D) as DM. pose proof (marked_iff data) as M. unfold make_sfc.
  destruct (map fst (filter _ data)) as [|v [|v' r]] eqn:E.
  - split; [discriminate|]. split; [|right; reflexivity]. split; [intros [s Hs]; discriminate|]. intros [(t & Ht & _) _]. apply M in Ht. destruct Ht.
  - assert (MV : marked data v) by (apply M; left; reflexivity). assert (U : forall t, marked data t -> t = v) by (intros t Ht; apply M in Ht as [Ht|[]]; symmetry; exact Ht).
    destruct tk as [ts|].
    + destruct (forallb _ _) eqn:F.
      * apply forallb_incl in F. split; [|split; [|left; eexists; reflexivity]].
        -- intros s Es. assert (s = mkSfc data (as_set ts) v) by congruence. subst s. cbn [s_data s_tokens s_ov]. split; [reflexivity|]. split; [exact MV|]. split; [exact U|].
           split; [intros t Ht; apply nodup_In, F, Ht|]. intros t. apply nodup_In.
        -- split; [intros _|intros _; eexists; reflexivity]. split; [exists v; split; assumption|]. intros ts' E'. assert (ts' = ts) by congruence. subst ts'. exact F.
      * split; [discriminate|]. split; [|right; reflexivity]. split; [intros [s Hs]; discriminate|]. intros [_ G]. specialize (G ts eq_refl). apply forallb_incl in G. congruence.
    + split; [|split; [|left; eexists; reflexivity]].
      * intros s Es. assert (s = mkSfc data (as_set (map fst data)) v) by congruence. subst s. cbn [s_data s_tokens s_ov]. split; [reflexivity|]. split; [exact MV|]. split; [exact U|].
        split; [intros t Ht; apply nodup_In, Ht|]. intros t. apply nodup_In.
      * split; [intros _|intros _; eexists; reflexivity]. split; [exists v; split; assumption|]. intros ts' E'. discriminate.
  - split; [discriminate|]. split; [|right; reflexivity]. split; [intros [s Hs]; discriminate|]. intros [(t & Ht & U) _]. exfalso.
    assert (v = v'). { rewrite (U v), (U v'); [reflexivity| |]; apply M; [right; left|left]; reflexivity. }
    subst v'. inversion DM as [|? ? D1 _]. apply D1. left. reflexivity.
Qed.
Lemma sget_in d t v : NoDup (map fst d) -> (sget d t = Some v <-> In (t, v) d).
Proof.
  induction d as [|[u w] d IH]; cbn [sget map fst]; intros D; [split; [discriminate|intros []]|]. inversion D as [|? ? D1 D2]; subst. destruct (String.eqb u t) eqn:E.
  - apply String.eqb_eq in E. subst u. split; [intros [= ->]; left; reflexivity|]. intros [I1|I1]; [congruence|]. exfalso. apply D1. apply (in_map fst) in I1. exact I1.
  - apply String.eqb_neq in E. rewrite (IH D2). split; [intros I1; right; exact I1|]. intros [I1|I1]; [congruence|exact I1].
Qed.
Lemma sget_none d t : sget d t = None <-> ~ In t (map fst d).
Proof.
  induction d as [|[u w] d IH]; cbn [sget map fst]; [split; [intros _ []|reflexivity]|]. destruct (String.eqb u t) eqn:E.
  - apply String.eqb_eq in E. subst u. split; [discriminate|]. intros H. exfalso. apply H. left. reflexivity.
  - apply String.eqb_neq in E. rewrite IH. split; [intros H [H1|H1]; [congruence|exact (H H1)]|]. intros H H1. apply H. right. exact H1.
Qed.
Lemma sfc_lookup s t : NoDup (map fst (s_data s)) ->
  (~ In t (s_tokens s) -> sfc_get s t = Raise AssertionError /\ is_optimizationvar s t = Raise AssertionError /\ is_constraint s t = Raise AssertionError) /\
  (In t (s_tokens s) -> (forall v, In (t, v) (s_data s) -> sfc_get s t = Ret v) /\ (~ In t (map fst (s_data s)) -> sfc_get s t = Ret (Num 0)) /\
    exists b, is_optimizationvar s t = Ret b /\ is_constraint s t = Ret (negb b) /\ (b = true <-> t = s_ov s)).
Proof.
  intros D. unfold sfc_get, is_constraint, is_optimizationvar. split; intros H.
  - destruct (str_in t (s_tokens s)) eqn:E; [exfalso; apply H, str_in_iff, E|]. auto.
  - rewrite (proj2 (str_in_iff t (s_tokens s)) H). split; [|split].
    + intros v Hv. rewrite (proj2 (sget_in (s_data s) t v D) Hv). reflexivity.
    + intros N. rewrite (proj2 (sget_none (s_data s) t) N). reflexivity.
    + exists (String.eqb t (s_ov s)). split; [reflexivity|]. split; [reflexivity|]. apply String.eqb_eq.
Qed.
Lemma filter_one {A} (f : A -> bool) l e : In e l -> f e = true -> NoDup l -> (List.length (filter f l) = 1%nat <-> forall u, In u l -> f u = true -> u = e).
Proof.
  intros I1 F D. assert (I2 : In e (filter f l)) by (apply filter_In; split; assumption). assert (ND : NoDup (filter f l)) by (apply NoDup_filter, D). split.
  - intros L u Iu Fu. assert (I3 : In u (filter f l)) by (apply filter_In; split; assumption). destruct (filter f l) as [|a [|b r]]; try discriminate. destruct I2 as [<-|[]], I3 as [<-|[]]. reflexivity.
  - intros U. assert (V : forall u, In u (filter f l) -> u = e) by (intros u Hu; apply filter_In in Hu as [H1 H2]; apply U; assumption).
    destruct (filter f l) as [|a [|b r]]; [destruct I2|reflexivity|]. exfalso. rewrite (V a), (V b) in ND by (try (left; reflexivity); right; left; reflexivity).
    inversion ND as [|? ? N1 _]. apply N1. left. reflexivity.
Qed.
Lemma sfc_arb data tk s : NoDup (map fst data) -> make_sfc data tk = Ret s -> (is_arbsfc s = true <-> forall t v, In (t, v) data -> t <> s_ov s -> v = Num 0).
Proof.
  intros D E. destruct (sfc_make data tk D) as [P _]. destruct (P s E) as (E1 & (w & M1 & Mw) & M2 & _). unfold is_arbsfc. rewrite E1.
  assert (ND : NoDup data) by (apply (NoDup_map_inv fst); exact D).
  set (g := fun e : string * sfcval => match snd e with Num v => negb (req v 0) | Text _ => true end).
  pose proof (filter_one g data (s_ov s, Text w) M1 eq_refl ND) as Q. rewrite orb_true_iff, !PeanoNat.Nat.eqb_eq. rewrite Q. split.
  - intros [L|L].
    + intros t v I1 N. destruct data as [|a [|b r]]; try discriminate. destruct M1 as [M1|[]], I1 as [I1|[]]. congruence.
    + intros t v I1 N. specialize (L (t, v) I1). destruct v as [v|v]; cbn [g snd] in L; [|exfalso; apply N; specialize (L eq_refl); congruence].
      destruct (req v 0) eqn:Z; [apply req_iff in Z; subst v; reflexivity|]. exfalso. apply N. specialize (L eq_refl). congruence.
  - intros H. right. intros [t v] I1 G. destruct (string_dec t (s_ov s)) as [->|N].
    + f_equal. apply (sget_in data (s_ov s) _ D) in I1, M1. congruence.
    + exfalso. rewrite (H t v I1 N) in G. cbn [g snd] in G. rewrite (proj2 (req_iff 0 0) eq_refl) in G. discriminate.
Qed.
Lemma arb_sfc t : exists s, arb t = Ret s /\ s_data s = [(t, Text OptimizationVar)] /\ s_tokens s = [t] /\ s_ov s = t /\ is_arbsfc s = true.
Proof. exists (mkSfc [(t, Text OptimizationVar)] [t] t). repeat split. Qed.
Lemma SFC_tokens cs data s : NoDup (map fst data) -> SFC cs data = Ret s -> forall t, In t (s_tokens s) <-> exists c, In c cs /\ (tknx c = t \/ tkny c = t).
Proof.
  intros D E t. destruct (sfc_make data (Some (as_set (map tknx cs ++ map tkny cs))) D) as [P _]. destruct (P s E) as (_ & _ & _ & _ & T). rewrite T. unfold as_set. rewrite nodup_In, in_app_iff, !in_map_iff.
  split; [intros [(c & H1 & H2)|(c & H1 & H2)]; exists c; auto|]. intros (c & H1 & [H2|H2]); [left|right]; exists c; auto.
Qed.

(** ** trade instructions *)
Lemma tiny_iff a b : rlt (Rabs a) POSNEGEPS && rlt (Rabs b) POSNEGEPS = true <-> tiny a /\ tiny b.
Proof. rewrite andb_true_iff, !rlt_iff. reflexivity. Qed.
Lemma ti_value cid tin ain tout aout :
  (ain * aout < 0 -> 0 < ain -> make_ti cid tin ain tout aout = Ret (mkTI cid tin ain tout aout)) /\
  (ain * aout < 0 -> ain < 0 -> make_ti cid tin ain tout aout = Raise AssertionError) /\
  (0 <= ain * aout -> tiny ain -> tiny aout -> make_ti cid tin ain tout aout = Ret (mkTI cid tin 0 tout 0)) /\
  (0 <= ain * aout -> ~ (tiny ain /\ tiny aout) -> make_ti cid tin ain tout aout = Raise ValueError).
Proof.
  unfold make_ti. split; [|split; [|split]].
  - intros N P. assert (aout < 0). { destruct (Rlt_dec aout 0) as [L|L]; [exact L|]. exfalso. apply Rnot_lt_le in L. pose proof (Rmult_le_pos ain aout ltac:(lra) L). lra. }
    rewrite rlt_true by exact N. cbn [rbind fst snd]. rewrite !rle_true by lra. reflexivity.
  - intros N P. rewrite rlt_true by exact N. cbn [rbind fst snd]. destruct (rle 0 ain) eqn:G; [apply rle_iff in G; lra|]. reflexivity.
  - intros N T1 T2. rewrite rlt_false by exact N. rewrite (proj2 (tiny_iff ain aout) (conj T1 T2)). cbn [rbind fst snd]. rewrite !rle_true by lra. reflexivity.
  - intros N T. rewrite rlt_false by exact N. destruct (_ && _) eqn:G; [exfalso; apply T, tiny_iff, G|]. reflexivity.
Qed.
Lemma ti_signs cid tin ain tout aout i : make_ti cid tin ain tout aout = Ret i ->
  0 <= amtin i /\ amtout i <= 0 /\ (amtin i = 0 <-> amtout i = 0) /\ tknin i = tin /\ tknout i = tout /\ ti_cid i = cid.
Proof.
  intros E. destruct (ti_value cid tin ain tout aout) as (V1 & V2 & V3 & V4).
  destruct (Rlt_dec (ain * aout) 0) as [N|N].
  - destruct (Rlt_dec 0 ain) as [P|P].
    + rewrite (V1 N P) in E. assert (i = mkTI cid tin ain tout aout) by congruence. subst i. cbn [amtin amtout tknin tknout ti_cid].
      assert (aout < 0). { destruct (Rlt_dec aout 0) as [L|L]; [exact L|]. exfalso. apply Rnot_lt_le in L. pose proof (Rmult_le_pos ain aout ltac:(lra) L). lra. }
      repeat split; lra.
    + assert (ain < 0). { destruct (Req_dec ain 0) as [->|Z]; [|lra]. rewrite Rmult_0_l in N. lra. } rewrite V2 in E by assumption. discriminate.
  - destruct (Rlt_dec (Rabs ain) (/ 10 ^ 8)) as [T1|T1]; [destruct (Rlt_dec (Rabs aout) (/ 10 ^ 8)) as [T2|T2]|].
    + rewrite V3 in E by (try assumption; lra). assert (i = mkTI cid tin 0 tout 0) by congruence. subst i. cbn [amtin amtout tknin tknout ti_cid]. repeat split; lra.
    + rewrite V4 in E; [discriminate|lra|]. intros [_ G]. exact (T2 G).
    + rewrite V4 in E; [discriminate|lra|]. intros [G _]. exact (T1 G).
Qed.
Lemma new_value cid t1 a1 t2 a2 : t1 <> t2 ->
  (a1 * a2 < 0 -> exists i, new_ti cid t1 a1 t2 a2 = Ret i /\ new_ti cid t2 a2 t1 a1 = Ret i /\ ti_cid i = cid /\
     ((0 < a1 /\ i = mkTI cid t1 a1 t2 a2) \/ (0 < a2 /\ i = mkTI cid t2 a2 t1 a1))) /\
  (0 <= a1 * a2 -> tiny a1 -> tiny a2 -> exists i, new_ti cid t1 a1 t2 a2 = Ret i /\ amtin i = 0 /\ amtout i = 0) /\
  (0 <= a1 * a2 -> ~ (tiny a1 /\ tiny a2) -> new_ti cid t1 a1 t2 a2 = Raise ValueError).
Proof.
  intros N. unfold new_ti. rewrite (proj2 (String.eqb_neq t1 t2)), (proj2 (String.eqb_neq t2 t1)) by congruence. split; [|split].
  - intros L. destruct (Rlt_dec 0 a1) as [P|P].
    + assert (~ 0 < a2). { intros Q. pose proof (Rmult_lt_0_compat _ _ P Q). lra. }
      exists (mkTI cid t1 a1 t2 a2). rewrite rlt_true, rlt_false by lra. rewrite (proj1 (ti_value cid t1 a1 t2 a2)) by assumption. repeat split. left. split; [exact P|reflexivity].
    + assert (Q : 0 < a2). { destruct (Rlt_dec 0 a2) as [Q|Q]; [exact Q|]. exfalso. pose proof (Rmult_le_pos (- a1) (- a2) ltac:(lra) ltac:(lra)) as G. rewrite Rmult_opp_opp in G. lra. }
      exists (mkTI cid t2 a2 t1 a1). rewrite rlt_false, rlt_true by lra. rewrite (proj1 (ti_value cid t2 a2 t1 a1)) by (try exact Q; rewrite Rmult_comm; exact L). repeat split. right. split; [exact Q|reflexivity].
  - intros L T1 T2. destruct (rlt 0 a1).
    + destruct (ti_value cid t1 a1 t2 a2) as (_ & _ & V & _). rewrite V by assumption. eexists. repeat split.
    + destruct (ti_value cid t2 a2 t1 a1) as (_ & _ & V & _). rewrite V by (try assumption; rewrite Rmult_comm; exact L). eexists. repeat split.
  - intros L T. destruct (rlt 0 a1).
    + destruct (ti_value cid t1 a1 t2 a2) as (_ & _ & _ & V). apply V; assumption.
    + destruct (ti_value cid t2 a2 t1 a1) as (_ & _ & _ & V). apply V; [rewrite Rmult_comm; exact L|]. intros [A B]. apply T. split; assumption.
Qed.
Lemma ti_prices i : 0 <= amtin i -> amtout i <= 0 -> (amtin i = 0 <-> amtout i = 0) ->
  (amtin i <> 0 -> is_empty i = false /\ exists v, price_outperin i = Ret v /\ price_inperout i = Ret (/ v) /\ 0 < v /\ v * amtin i = - amtout i) /\
  (amtin i = 0 -> is_empty i = true /\ price_outperin i = Raise ZeroDivision /\ price_inperout i = Raise ZeroDivision).
Proof.
  intros A B C. unfold is_empty, price_outperin, price_inperout. split; intros Z.
  - assert (Z' : amtout i <> 0) by (intros G; apply Z, C, G). rewrite !req_false, !rdiv_ok by assumption. split; [reflexivity|]. exists (- amtout i / amtin i).
    split; [reflexivity|]. split; [f_equal; field; split; assumption|]. split; [|field; exact Z]. apply Rdiv_lt_0_compat; lra.
  - rewrite (proj1 C Z), Z. rewrite (proj2 (req_iff 0 0) eq_refl). unfold rdiv. rewrite (proj2 (req_iff 0 0) eq_refl). split; [reflexivity|]. split; reflexivity.
Qed.
