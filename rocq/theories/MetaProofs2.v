(** Proofs for C154 and C155. *)
From Coq Require Import Reals Lra Bool List String Ascii Arith Lia.
From Verif Require Import CurveModel CurveProofs PairModel PairProofs HelperModel CpcModel CpcSpec CpcProofs ContainerModel ContainerProofs2 MetaModel MetaSpec.
From Verif Require SdkModel CcModel CcSpec CcProofs PairSpec SimProofs5.
Import ListNotations.
Local Open Scope R_scope.

(** ** keys *)
Lemma get_entry {A} (d : list (string * A)) a v : aget d a = Some v <-> entry_at d a v.
Proof.
  unfold entry_at. induction d as [|[b w] d IH]; cbn [aget].
  - split; [discriminate|]. intros (l1 & l2 & E & _). destruct l1; discriminate.
  - destruct (String.eqb_spec b a) as [->|N].
    + split; [intros E; injection E as ->; exists [], d; auto|]. intros (l1 & l2 & E & M). destruct l1 as [|[c u] l1]; [injection E as -> ->; reflexivity|]. injection E as <- <- E. cbn in M. tauto.
    + rewrite IH. split; intros (l1 & l2 & E & M).
      * exists ((b, w) :: l1), l2. rewrite E. cbn. tauto.
      * destruct l1 as [|[c u] l1]; [injection E as -> -> ->; congruence|]. injection E as <- <- E. exists l1, l2. cbn in M. tauto.
Qed.
Lemma get_none {A} (d : list (string * A)) a : aget d a = None <-> ~ In a (map fst d).
Proof.
  induction d as [|[b w] d IH]; cbn; [tauto|]. destruct (String.eqb_spec b a) as [->|N]; [split; [discriminate|tauto]|]. rewrite IH. tauto.
Qed.
Lemma get_set {A} (d : list (string * A)) a v b : aget (aset d a v) b = if String.eqb a b then Some v else aget d b.
Proof.
  induction d as [|[c u] d IH]; cbn [aset aget]; [reflexivity|]. destruct (String.eqb_spec c a) as [->|N]; cbn [aget].
  - destruct (String.eqb a b); reflexivity.
  - rewrite IH. destruct (String.eqb_spec c b) as [->|N2]; [|reflexivity]. destruct (String.eqb_spec a b); [congruence|reflexivity].
Qed.
Lemma get_update {A} (e : list (string * A)) : forall d b, ~ In b (map fst e) -> aget (update d e) b = aget d b.
Proof.
  induction e as [|[a v] e IH]; intros d b N; [reflexivity|]. unfold update. cbn [fold_left fst snd]. fold (update (aset d a v) e). cbn in N. rewrite IH by tauto. rewrite get_set. destruct (String.eqb_spec a b); [tauto|reflexivity].
Qed.
Lemma same_get {A} (d d' : list (string * A)) a : aget d a = aget d' a -> same_entry d d' a.
Proof. intros E v. rewrite <- !get_entry, E. tauto. Qed.
(** ** paths *)
Lemma lookup_leads fs : forall v w, leads v fs w -> plookup v fs = Ret (Some w).
Proof. induction 1 as [|d f fs v w E L IH]; [reflexivity|]. cbn [plookup]. rewrite (proj2 (get_entry _ _ _) E). exact IH. Qed.
Lemma lookup_app f1 : forall v w f2, leads v f1 w -> plookup v (f1 ++ f2) = plookup w f2.
Proof. induction 1 as [|d f fs v w E L IH]; [reflexivity|]. cbn [plookup app]. rewrite (proj2 (get_entry _ _ _) E). exact IH. Qed.
Lemma lookup_lacks v fs : lacks v fs -> plookup v fs = Ret None.
Proof. intros (f1 & f & f2 & d & -> & L & N). rewrite (lookup_app f1 v _ _ L). cbn [plookup]. rewrite (proj2 (get_none d f) N). reflexivity. Qed.
Lemma lookup_stuck v fs : stuck v fs -> plookup v fs = Raise TypeError.
Proof. intros (f1 & f & f2 & w & -> & L & N). rewrite (lookup_app f1 v _ _ L). cbn [plookup]. destruct w as [|? |? |?|d]; try reflexivity. destruct N. exists d. reflexivity. Qed.
Lemma path_cases fs : forall v, (exists w, leads v fs w) \/ lacks v fs \/ stuck v fs.
Proof.
  induction fs as [|f fs IH]; intros v; [left; exists v; constructor|].
  assert (D : is_dict v \/ ~ is_dict v). { destruct v as [|?|?|?|d]; try (right; intros [d' X]; discriminate). left. exists d. reflexivity. }
  destruct D as [[d ->]|N]; [|right; right; exists [], f, fs, v; repeat split; [constructor|exact N]].
  destruct (aget d f) as [u|] eqn:E.
  - apply get_entry in E. destruct (IH u) as [(w & L)|[(f1 & g & f2 & d' & -> & L & N)|(f1 & g & f2 & w & -> & L & N)]].
    + left. exists w. econstructor; eassumption.
    + right. left. exists (f :: f1), g, f2, d'. repeat split; [econstructor; eassumption|exact N].
    + right. right. exists (f :: f1), g, f2, w. repeat split; [econstructor; eassumption|exact N].
  - right. left. exists [], f, fs, d. repeat split; [constructor|apply get_none, E].
Qed.
Lemma blank_cons c s : blank (String c s) -> SdkModel.is_space c = true /\ blank s.
Proof. intros H. split; [apply (H "" c s)%string; reflexivity|]. intros a d b ->. apply (H (String c a) d b). reflexivity. Qed.
Lemma lstrip_blank a : forall s, blank a -> SdkModel.lstrip (a ++ s) = SdkModel.lstrip s.
Proof. induction a as [|c a IH]; intros s H; [reflexivity|]. apply blank_cons in H as [A B]. cbn [append SdkModel.lstrip]. rewrite A. apply IH, B. Qed.
Lemma rstrip_blank s : blank s -> SdkModel.rstrip s = ""%string.
Proof. induction s as [|c s IH]; intros H; [reflexivity|]. apply blank_cons in H as [A B]. cbn [SdkModel.rstrip]. rewrite (IH B), A. reflexivity. Qed.
Lemma rstrip_app s : forall post, blank post -> (forall c r, s = (r ++ String c "")%string -> SdkModel.is_space c = false) -> SdkModel.rstrip (s ++ post) = s.
Proof.
  induction s as [|c s IH]; intros post B H; [apply rstrip_blank, B|]. cbn [append SdkModel.rstrip]. rewrite IH; [|exact B|intros d r ->; apply (H d (String c r)); reflexivity].
  destruct s as [|d s]; [rewrite (H c ""%string eq_refl); reflexivity|reflexivity].
Qed.
Lemma app_empty s : (s ++ "")%string = s.
Proof. induction s as [|c s IH]; cbn; [reflexivity|f_equal; exact IH]. Qed.
Lemma strip_spec pre s post : blank pre -> blank post -> (forall c r, s = String c r -> SdkModel.is_space c = false) -> (forall c r, s = (r ++ String c "")%string -> SdkModel.is_space c = false) ->
  SdkModel.strip (pre ++ s ++ post) = s.
Proof.
  intros A B H1 H2. unfold SdkModel.strip. rewrite lstrip_blank by exact A. destruct s as [|c s].
  - cbn [append]. rewrite <- (app_empty post), lstrip_blank by exact B. reflexivity.
  - cbn [append SdkModel.lstrip]. rewrite (H1 c s eq_refl). apply (rstrip_app (String c s) post B H2).
Qed.
Lemma no_occ c s : (forall a b, s <> (a ++ String c b)%string) -> CcSpec.occurs c s = O.
Proof.
  induction s as [|d s IH]; intros H; [reflexivity|]. cbn [CcSpec.occurs]. destruct (Ascii.eqb_spec d c) as [->|N]; [destruct (H ""%string s); reflexivity|]. apply IH. intros a b ->. apply (H (String d a) b). reflexivity.
Qed.
Lemma split_join fs : fs <> [] -> (forall f a b, In f fs -> f <> (a ++ ":" ++ b)%string) -> CcModel.split_on ":" (String.concat ":" fs) = fs.
Proof.
  induction fs as [|f fs IH]; intros N H; [congruence|]. assert (Of : CcSpec.occurs ":" f = O) by (apply no_occ; intros a b; apply (H f a b); left; reflexivity). destruct fs as [|g fs].
  - cbn. apply CcProofs.split_one, Of.
  - change (String.concat ":" (f :: g :: fs)) with (f ++ String ":" (String.concat ":" (g :: fs)))%string. rewrite CcProofs.split_app_on by exact Of. f_equal. apply IH; [discriminate|]. intros h a b I1. apply H. right. exact I1.
Qed.
Lemma spells_fields s fs : spells s fs -> CcModel.split_on ":" (SdkModel.strip s) = fs.
Proof. intros (N & H & pre & post & -> & A & B & C & D). rewrite strip_spec by assumption. apply split_join; assumption. Qed.
Lemma P_spec c s fs dv : spells s fs -> (forall w, leads (PDict (o_params c)) fs w -> P c s dv = Ret w) /\ (lacks (PDict (o_params c)) fs -> P c s dv = Ret dv) /\ (stuck (PDict (o_params c)) fs -> P c s dv = Raise TypeError).
Proof.
  intros S. unfold P. rewrite (spells_fields s fs S). split; [|split].
  - intros w L. rewrite (lookup_leads _ _ _ L). reflexivity.
  - intros L. rewrite (lookup_lacks _ _ L). reflexivity.
  - intros L. rewrite (lookup_stuck _ _ L). reflexivity.
Qed.
(** ** constructors *)
Lemma bind_ok {A B} (o : res A) (f : A -> res B) b : rbind o f = Ret b <-> exists a, o = Ret a /\ f a = Ret b.
Proof. destruct o as [a|e]; cbn; split; [eauto|intros (a' & E & H); injection E as <-; exact H|discriminate|intros (a' & E & _); discriminate]. Qed.
Lemma carbon_has yint yy pa pb A B b q tkn d c : from_carbon yint yy pa pb A B b q tkn d = Ret c -> exists AB, carbon_AB pa pb A B d (String.eqb tkn q) = Ret AB.
Proof.
  unfold from_carbon. destruct (rlt yint yy); [discriminate|]. destruct (rlt yy 0); [discriminate|]. destruct (negb _); [discriminate|]. intros H. apply bind_ok in H as (AB & E & _). exists AB. exact E.
Qed.
Ltac simple_build H := cbn [build] in H; apply bind_ok in H as (c0 & Ec & H); injection H as <-; cbn [o_cid o_fee o_descr o_constr o_params o_body curve_of name_of]; repeat split; auto.
Lemma build_records h b q i fee descr ps c : build h b q i fee descr ps = Ret c -> curve_of h b q = Ret (o_body c) /\ o_cid c = i /\ o_fee c = fee /\ o_descr c = descr /\ (named h -> o_constr c = name_of h) /\ (~ named h -> o_constr c = "pkpp"%string).
Proof.
  intros H. destruct h as [k0 x0 xa ya|k0 y0 xa ya|x0 y0 xa ya|p0 k0 xa ya|p0 x0 xa ya|p0 y0 xa ya|p0 k0 lo hi [n|]|x0 y0 k0|Pm L Pa Pb|yint y0 pa pb A B tkn d].
  1-6: (simple_build H; try (intros N; destruct N; exact I)).
  1-2: simple_build H; cbn [named]; try tauto.
  - cbn [build] in H. destruct i as [i|], descr as [descr|], fee as [fee|]; try discriminate. simple_build H; try (intros N; destruct N; exact I).
  - simple_build H; intros [].
  - cbn [build] in H. apply bind_ok in H as (c0 & Ec & H). apply bind_ok in H as (AB & Eab & H). cbn [rbind] in H. injection H as <-. cbn [o_cid o_fee o_descr o_constr o_params o_body curve_of name_of]. repeat split; auto. intros N; destruct N; exact I.
Qed.
Lemma build_some h b q i fee descr ps : (exists c, build h b q i fee descr ps = Ret c) <-> (exists c, curve_of h b q = Ret c) /\ (is_univ2 h -> i <> None /\ fee <> None /\ descr <> None).
Proof.
  assert (S : forall (o : res cpc) nm pp, (exists c, (let* c0 := o in Ret (mkO c0 i fee descr nm pp)) = Ret c) <-> (exists c, o = Ret c)).
  { intros o nm pp. destruct o as [a|e]; cbn; split; intros [c E]; try discriminate; eauto. }
  destruct h; cbn [build curve_of is_univ2]; try (rewrite S; tauto).
  - destruct i as [i|], descr as [descr|], fee as [fee|]; try rewrite S.
    + split; [intros X; split; [exact X|repeat split; discriminate]|tauto].
    + split; [intros [c X]; discriminate|intros [_ X]; destruct (X I) as (_ & X1 & _); congruence].
    + split; [intros [c X]; discriminate|intros [_ X]; destruct (X I) as (_ & _ & X1); congruence].
    + split; [intros [c X]; discriminate|intros [_ X]; destruct (X I) as (_ & _ & X1); congruence].
    + split; [intros [c X]; discriminate|intros [_ X]; destruct (X I) as (X1 & _); congruence].
    + split; [intros [c X]; discriminate|intros [_ X]; destruct (X I) as (X1 & _); congruence].
    + split; [intros [c X]; discriminate|intros [_ X]; destruct (X I) as (X1 & _); congruence].
    + split; [intros [c X]; discriminate|intros [_ X]; destruct (X I) as (X1 & _); congruence].
  - split.
    + intros [c H]. apply bind_ok in H as (c0 & E & _). split; [eauto|tauto].
    + intros [[c E] _]. destruct (carbon_has _ _ _ _ _ _ _ _ _ _ _ E) as [AB Eab]. rewrite E. cbn [rbind]. rewrite Eab. cbn [rbind]. eauto.
Qed.
Lemma build_params h b q i fee descr ps c : build h b q i fee descr ps = Ret c ->
  (forall a, ~ In a (own_keys h) -> same_entry (o_params c) (match ps with Some d => d | None => [] end) a) /\ (own_keys h = [] -> o_params c = match ps with Some d => d | None => [] end).
Proof.
  intros H. destruct h as [k0 x0 xa ya|k0 y0 xa ya|x0 y0 xa ya|p0 k0 xa ya|p0 x0 xa ya|p0 y0 xa ya|p0 k0 lo hi nm|x0 y0 k0|Pm L Pa Pb|yint y0 pa pb A B tkn d].
  1-7: cbn [build] in H; apply bind_ok in H as (c0 & Ec & H); injection H as <-; cbn [o_params own_keys]; split; [intros a _ v; tauto|auto].
  - cbn [build] in H. destruct i as [i|], descr as [descr|], fee as [fee|]; try discriminate. apply bind_ok in H as (c0 & Ec & H); injection H as <-; cbn [o_params own_keys]; split; [intros a _ v; tauto|auto].
  - cbn [build] in H; apply bind_ok in H as (c0 & Ec & H); injection H as <-; cbn [o_params own_keys]. split; [|discriminate]. intros a N. apply same_get. exact (get_update [("L"%string, PNum L)] _ a N).
  - cbn [build] in H. apply bind_ok in H as (c0 & Ec & H). apply bind_ok in H as (AB & Eab & H). cbn [rbind] in H. injection H as <-. cbn [o_params own_keys]. split; [|discriminate]. intros a N. apply same_get. exact (get_update [("y", PNum y0); ("yint", PNum yint); ("A", PNum (fst AB)); ("B", PNum (snd AB))]%string _ a N).
Qed.
Lemma univ3_params Pm L Pa Pb b q i fee descr ps c : build (Univ3 Pm L Pa Pb) b q i fee descr ps = Ret c -> entry_at (o_params c) "L" (PNum L).
Proof. intros H. cbn [build] in H; apply bind_ok in H as (c0 & Ec & H); injection H as <-. cbn [o_params]. apply get_entry. unfold update. cbn [fold_left fst snd]. rewrite get_set, String.eqb_refl. reflexivity. Qed.
Lemma carbon_params yint y0 pa pb A B tkn d b q i fee descr ps c : build (Carbon yint y0 pa pb A B tkn d) b q i fee descr ps = Ret c ->
  exists A0 B0, entry_at (o_params c) "y" (PNum y0) /\ entry_at (o_params c) "yint" (PNum yint) /\ entry_at (o_params c) "A" (PNum A0) /\ entry_at (o_params c) "B" (PNum B0) /\
  (forall a b0, A = Some a -> B = Some b0 -> A0 = a /\ B0 = b0) /\ (A = None -> exists v w, pa = Some v /\ pb = Some w /\
     let v1 := if d || String.eqb tkn q then v else / v in let w1 := if d || String.eqb tkn q then w else / w in 
     (v1 <> w1 -> (A0 + B0) ^ 2 = v1 /\ B0 ^ 2 = w1) /\ (v1 = w1 -> (A0 + B0) ^ 2 = v1 * WIDEN /\ B0 ^ 2 = w1 / WIDEN)) /\ k (o_body c) = (yint / A0) ^ 2.
Proof.
  intros H. cbn [build] in H. apply bind_ok in H as (c0 & Ec & H). apply bind_ok in H as ([A0 B0] & Eab & H). cbn [rbind fst snd] in H. injection H as <-. exists A0, B0. cbn [o_params o_body].
  assert (U : forall a v, aget (update (match ps with Some d0 => d0 | None => [] end) [("y", PNum y0); ("yint", PNum yint); ("A", PNum A0); ("B", PNum B0)]%string) a = Some v -> entry_at (update (match ps with Some d0 => d0 | None => [] end) [("y", PNum y0); ("yint", PNum yint); ("A", PNum A0); ("B", PNum B0)]%string) a v) by (intros a v; apply get_entry).
  split; [apply U; unfold update; cbn [fold_left fst snd]; rewrite !get_set; reflexivity|]. split; [apply U; unfold update; cbn [fold_left fst snd]; rewrite !get_set; reflexivity|].
  split; [apply U; unfold update; cbn [fold_left fst snd]; rewrite !get_set; reflexivity|]. split; [apply U; unfold update; cbn [fold_left fst snd]; rewrite !get_set; reflexivity|]. clear U.
  split; [|split].
  - intros a b0 -> ->. unfold carbon_AB in Eab. destruct pa, pb; try discriminate. destruct (negb d); [discriminate|]. destruct (rlt a 0); [discriminate|]. injection Eab as -> ->. auto.
  - intros ->. unfold carbon_AB in Eab. destruct B; [destruct pa; discriminate|]. destruct pa as [v|]; [|discriminate]. destruct pb as [w|]; [|discriminate]. exists v, w. split; [reflexivity|]. split; [reflexivity|]. cbv zeta.
    assert (Sd : negb d && negb (String.eqb tkn q) = negb (d || String.eqb tkn q)) by (rewrite negb_orb; reflexivity). rewrite Sd in Eab. clear Sd.
    apply bind_ok in Eab as (v1 & E1 & Eab). apply bind_ok in Eab as (w1 & E2 & Eab).
    assert (V1 : v1 = if d || String.eqb tkn q then v else / v). { destruct (d || String.eqb tkn q); cbn [negb] in E1; [congruence|]. apply rdiv_inv in E1 as [_ ->]. unfold Rdiv. ring. }
    assert (W1 : w1 = if d || String.eqb tkn q then w else / w). { destruct (d || String.eqb tkn q); cbn [negb] in E2; [congruence|]. apply rdiv_inv in E2 as [_ ->]. unfold Rdiv. ring. }
    rewrite <- V1, <- W1. cbv zeta in Eab. destruct (negb (rlt _ _)); [discriminate|]. apply bind_ok in Eab as (sa & E3 & Eab). apply bind_ok in Eab as (sb & E4 & Eab). injection Eab as <- <-.
    assert (Sq : forall u s, rsqrt u = Ret s -> s ^ 2 = u). { intros u s Eu. unfold rsqrt in Eu. destruct (rlt u 0) eqn:Lu; [discriminate|]. apply nrlt_iff in Lu. injection Eu as <-. rewrite <- Rsqr_pow2. apply Rsqr_sqrt, Lu. }
    apply Sq in E3. apply Sq in E4. replace (sa - sb + sb) with sa by ring. split; intros Hv.
    + rewrite req_false in E3, E4 by exact Hv. auto.
    + rewrite req_true in E3, E4 by exact Hv. auto.
  - unfold from_carbon in Ec. destruct (rlt yint y0); [discriminate|]. destruct (rlt y0 0); [discriminate|]. destruct (negb _); [discriminate|]. rewrite Eab in Ec. cbn [rbind] in Ec. apply bind_ok in Ec as (ya & E1 & Ec). apply bind_ok in Ec as (kap & E2 & Ec). apply bind_ok in Ec as (xx & E3 & Ec). apply make_inv in Ec as [_ ->]. cbn [k]. apply rdiv_inv in E1 as [NA _]. apply rdiv_inv in E2 as [_ ->]. field. exact NA.
Qed.
(** ** trades *)
Section TRADES.
Variable text : R -> string.
Lemma exec_one c t c' : execute_obj text c (t_dx t) (t_dy t) (t_ib t) (t_verbose t) = Ret c' ->
  execute (o_body c) (t_dx t) (t_dy t) (t_ib t) = Ret (o_body c') /\ o_cid c' = Some (CStr (cid_text (o_cid c) ++ "-x")) /\ o_fee c' = o_fee c /\ o_constr c' = "default"%string /\
  (forall a, a <> "traded"%string -> same_entry (o_params c') (o_params c) a) /\
  exists rx ry, recorded c c' t rx ry /\ entry_at (o_params c') "traded" (PDict [("dx", rx); ("dy", ry)]%string) /\
  o_descr c' = Some ((match o_descr c with Some d => d | None => "None" end) ++ " [dx=" ++ shown text rx ++ "]")%string.
Proof.
  destruct t as [dx dy ib vb]. cbn [t_dx t_dy t_ib t_verbose]. unfold execute_obj. intros H. apply bind_ok in H as (n & E & H). injection H as <-. cbn [o_body o_cid o_fee o_constr o_params o_descr].
  split; [exact E|]. split; [reflexivity|]. split; [reflexivity|]. split; [reflexivity|]. split; [intros a N; apply same_get; rewrite get_set; destruct (String.eqb_spec "traded" a); [congruence|reflexivity]|].
  eexists. eexists. split; [|split; [apply get_entry; rewrite get_set, String.eqb_refl; reflexivity|]].
  - unfold recorded, given_dx. cbn [t_verbose t_dx t_dy o_body]. destruct vb; [|split; destruct dx, dy; reflexivity].
    destruct dx as [dx|], dy as [dy|]; cbn [opval dflt].
    + discriminate.
    + apply exec_dx in E as (_ & N & ->). unfold moved. cbn [x y_act]. split; f_equal; ring.
    + apply exec_dy in E as (_ & Nk & N & ->). unfold moved. cbn [x y_act]. split; f_equal; ring.
    + rewrite exec_none in E. apply exec_dx in E as (_ & N & ->). unfold moved. cbn [x y_act]. split; f_equal; ring.
  - do 4 f_equal. destruct vb; destruct dx, dy; reflexivity.
Qed.
Lemma executes_history l : forall c c', executes text c l = Ret c' <-> exists h, history text c h /\ map fst h = l /\ final c h = c'.
Proof.
  induction l as [|t l IH]; intros c c'; cbn [executes].
  - split; [intros E; injection E as ->; exists []; repeat split; constructor|]. intros (h & H & M & F). destruct h; [|discriminate]. cbn in F. congruence.
  - split.
    + intros E. apply bind_ok in E as (c1 & E1 & E2). apply IH in E2 as (h & H & M & F). exists ((t, c1) :: h). split; [constructor; assumption|]. split; [cbn; rewrite M; reflexivity|]. unfold final in *. cbn [map snd]. rewrite <- F. destruct h as [|a h]; [reflexivity|]. cbn [map]. clear. generalize (snd a). induction (map snd h) as [|u v IHv]; intros w; [reflexivity|]. exact (IHv u).
    + intros (h & H & M & F). inversion H as [|? t0 c1 h' E H']; subst; [discriminate|]. cbn [map fst] in M. injection M as -> M. apply bind_ok. exists c1. split; [exact E|]. apply IH. exists h'. split; [exact H'|]. split; [exact M|]. unfold final. cbn [map snd]. destruct h' as [|a h']; [reflexivity|]. cbn [map]. clear. generalize (snd a). induction (map snd h') as [|u v IHv]; intros w; [reflexivity|]. exact (IHv u).
Qed.
Lemma app_str a b c : ((a ++ b) ++ c)%string = (a ++ (b ++ c))%string.
Proof. induction a as [|d a IH]; cbn; [reflexivity|f_equal; exact IH]. Qed.
Lemma after l : forall c c', executes text c l = Ret c' -> o_fee c' = o_fee c /\ k (o_body c') = k (o_body c) /\ tknx (o_body c') = tknx (o_body c) /\ tkny (o_body c') = tkny (o_body c) /\
  (forall a, a <> "traded"%string -> same_entry (o_params c') (o_params c) a) /\ (l <> [] -> o_cid c' = Some (CStr (cid_text (o_cid c) ++ times_x (List.length l))) /\ o_constr c' = "default"%string).
Proof.
  induction l as [|t l IH]; intros c c' E; cbn [executes] in E.
  - injection E as ->. repeat split; auto; congruence.
  - apply bind_ok in E as (c1 & E1 & E2). destruct (IH c1 c' E2) as (F & K & X & Y & S & N). destruct (exec_one c t c1 E1) as (B & I1 & F1 & C1 & S1 & _).
    assert (Bk : k (o_body c1) = k (o_body c) /\ tknx (o_body c1) = tknx (o_body c) /\ tkny (o_body c1) = tkny (o_body c)).
    { destruct (t_dx t) as [dx|], (t_dy t) as [dy|]; [discriminate|apply exec_dx in B as (_ & _ & ->)|apply exec_dy in B as (_ & _ & _ & ->)|rewrite exec_none in B; apply exec_dx in B as (_ & _ & ->)]; auto. }
    destruct Bk as (K1 & X1 & Y1). split; [congruence|]. split; [congruence|]. split; [congruence|]. split; [congruence|]. split; [intros a Na v; rewrite (S a Na v); apply (S1 a Na)|]. intros _. destruct l as [|t2 l].
    + cbn [executes] in E2. injection E2 as ->. cbn [List.length times_x]. auto.
    + destruct (N ltac:(discriminate)) as [N1 N2]. split; [|exact N2]. rewrite N1, I1. cbn [cid_text]. rewrite app_str. reflexivity.
Qed.
End TRADES.
(** ** dicts *)
Lemma free_noslash s : PairSpec.slash_free s -> no_slash s = true.
Proof. apply no_slash_free. Qed.
Lemma read_back c fee v : well_made c -> (fee = FNone /\ v = NoFee) \/ (exists f, fee = FNum f /\ v = Fee f) \/ (fee = FNaN /\ v = NaNFee) ->
  forall d, (forall a, aget d a = aget (aset (asdict c) "fee" fee) a) -> forallb (fun i => existsb (String.eqb (fst i)) field_names) d = true -> from_dict d = Ret (as_read c v).
Proof.
  intros (Nx & A & B) F d G K. destruct c as [b i f de co ps]. cbn [o_body] in *. unfold from_dict. rewrite K. cbn [negb].
  assert (G2 : forall a, aget d a = aget (asdict (mkO b i f de co ps)) a \/ a = "fee"%string /\ aget d a = Some fee). { intros a. rewrite G, get_set. destruct (String.eqb_spec "fee" a) as [<-|N]; auto. }
  assert (Gf : aget d "fee" = Some fee) by (destruct (G2 "fee"%string) as [X|[_ X]]; [rewrite G, get_set, String.eqb_refl; reflexivity|exact X]).
  assert (Go : forall a, a <> "fee"%string -> aget d a = aget (asdict (mkO b i f de co ps)) a) by (intros a N; destruct (G2 a) as [X|[X _]]; [exact X|congruence]).
  rewrite Gf. rewrite (Go "k"%string) by discriminate. rewrite (Go "x"%string) by discriminate. rewrite (Go "x_act"%string) by discriminate. rewrite (Go "y_act"%string) by discriminate. rewrite (Go "pair"%string) by discriminate. rewrite (Go "cid"%string) by discriminate. rewrite (Go "descr"%string) by discriminate. rewrite (Go "constr"%string) by discriminate. rewrite (Go "params"%string) by discriminate. cbn [asdict aget String.eqb Ascii.eqb Bool.eqb o_body o_cid o_fee o_descr o_constr o_params fnum fstr rbind]. unfold pair_of. rewrite parse_str by (apply free_noslash; assumption). rewrite make_ok by exact Nx. cbn [rbind dflt].
  assert (E1 : forall T (kk : option cid -> res T), (let* j := match fcid i with FNone => Ret None | FInt n => Ret (Some (CInt n)) | FStr s => Ret (Some (CStr s)) | _ => Raise TypeError end in kk j) = kk i) by (intros T kk; destruct i as [[n|s]|]; reflexivity).
  assert (E2 : forall T (kk : nfee -> res T), (let* j := match fee with FNone => Ret NoFee | FNum v => Ret (Fee v) | FNaN => Ret NaNFee | _ => Raise TypeError end in kk j) = kk v) by (intros T kk; destruct F as [[-> ->]|[(f0 & -> & ->)|[-> ->]]]; reflexivity).
  rewrite E1, E2. destruct de as [de|]; cbn [fstr rbind]; unfold as_read; cbn [o_body o_cid o_descr o_constr o_params]; destruct b; reflexivity.
Qed.
Lemma dict_back c : well_made c -> from_dict (asdict c) = Ret (as_read c (plain_fee c)).
Proof.
  intros W. apply (read_back c (match o_fee c with Some v => FNum v | None => FNone end)); [exact W| | |reflexivity].
  - unfold plain_fee. destruct (o_fee c); eauto.
  - intros a. rewrite get_set. destruct (String.eqb_spec "fee" a) as [<-|N]; reflexivity.
Qed.
Lemma ids_nth l : forall i j, nth_error (ids i l) j = option_map (placed (i + j)) (nth_error l j).
Proof.
  induction l as [|c l IH]; intros i [|j]; cbn [ids nth_error option_map]; try reflexivity.
  - rewrite Nat.add_0_r. reflexivity.
  - rewrite IH. do 2 f_equal. lia.
Qed.
Lemma ids_length l : forall i, List.length (ids i l) = List.length l.
Proof. induction l as [|c l IH]; intros i; cbn; [reflexivity|]. rewrite IH. reflexivity. Qed.
Lemma rmap_map {A B C} (f : A -> B) (g : B -> res C) (h : A -> C) l : (forall a, In a l -> g (f a) = Ret (h a)) -> rmap g (map f l) = Ret (map h l).
Proof. induction l as [|a l IH]; intros H; [reflexivity|]. cbn [map rmap]. rewrite (H a (or_introl eq_refl)). cbn [rbind]. rewrite IH by (intros b I1; apply H; right; exact I1). reflexivity. Qed.
Lemma dicts_back l : Forall well_made l -> exists r, from_dicts (asdicts l) = Ret r /\ List.length r = List.length l /\ forall j c, nth_error l j = Some c -> nth_error r j = Some (placed j (as_read c (plain_fee c))).
Proof.
  intros W. rewrite Forall_forall in W. unfold from_dicts, asdicts. rewrite (rmap_map asdict from_dict (fun c => as_read c (plain_fee c))) by (intros a I1; apply dict_back, W, I1). cbn [rbind]. eexists. split; [reflexivity|]. split; [rewrite ids_length, map_length; reflexivity|].
  intros j c E. rewrite ids_nth, nth_error_map, E. reflexivity.
Qed.
Lemma get_filter (d : frow) a : a <> "cid"%string -> aget (filter (fun i => negb (String.eqb (fst i) "cid")) d) a = aget d a.
Proof.
  intros N. induction d as [|[b v] d IH]; [reflexivity|]. cbn [filter fst]. destruct (String.eqb_spec b "cid") as [->|Nb]; cbn [negb aget].
  - rewrite IH. destruct (String.eqb_spec "cid" a); [congruence|reflexivity].
  - rewrite IH. reflexivity.
Qed.
Lemma get_first d a : aget (cid_first d) a = aget d a.
Proof.
  unfold cid_first. destruct (aget d "cid") as [v|] eqn:E; [|reflexivity]. cbn [aget]. destruct (String.eqb_spec "cid" a) as [<-|N]; [symmetry; exact E|]. apply get_filter. congruence.
Qed.
Lemma keys_first d : forallb (fun i => existsb (String.eqb (fst i)) field_names) d = true -> forallb (fun i : string * fval => existsb (String.eqb (fst i)) field_names) (cid_first d) = true.
Proof.
  intros H. unfold cid_first. destruct (aget d "cid"); [|exact H]. cbn [forallb fst]. apply andb_true_iff. split; [reflexivity|]. rewrite forallb_forall in *. intros i I1. apply filter_In in I1 as [I1 _]. apply H, I1.
Qed.
Lemma df_back l : l <> [] -> Forall well_made l -> exists t r, asdf l = Ret t /\ from_df t = Ret r /\ List.length r = List.length l /\ forall j c, nth_error l j = Some c -> nth_error r j = Some (placed j (as_read c (frame_fee (some_fee l) c))).
Proof.
  intros N W. rewrite Forall_forall in W. unfold asdf. destruct l as [|c0 l0]; [congruence|]. set (l := c0 :: l0) in *. clearbody l. eexists. 
  set (row := fun c => if some_fee l then (match o_fee c with None => aset (asdict c) "fee" FNaN | Some _ => asdict c end) else asdict c).
  assert (E : num_column "fee" (asdicts l) = map row l).
  { unfold num_column, asdicts, row. replace (existsb _ (map asdict l)) with (some_fee l).
    - destruct (some_fee l); [|reflexivity]. rewrite map_map. apply map_ext. intros c. cbn [asdict aget String.eqb Ascii.eqb Bool.eqb]. destruct (o_fee c); reflexivity.
    - unfold some_fee. clear. induction l as [|c l IH]; [reflexivity|]. cbn [map existsb]. rewrite IH. f_equal. cbn. destruct (o_fee c); reflexivity. }
  assert (R1 : forall c, In c l -> from_dict (cid_first (row c)) = Ret (as_read c (frame_fee (some_fee l) c))).
  { intros c I1. apply (read_back c (match o_fee c with Some v => FNum v | None => if some_fee l then FNaN else FNone end)); [apply W, I1| | |].
    - unfold frame_fee. destruct (o_fee c); [eauto|]. destruct (some_fee l); auto.
    - intros a. rewrite get_first, get_set. unfold row. destruct (some_fee l), (o_fee c) eqn:Ef; try rewrite get_set; (destruct (String.eqb_spec "fee" a) as [<-|Na]; [try reflexivity; cbn; rewrite Ef; reflexivity|reflexivity]).
    - apply keys_first. unfold row. destruct (some_fee l), (o_fee c); reflexivity. }
  exists (ids 0 (map (fun c => as_read c (frame_fee (some_fee l) c)) l)). split; [reflexivity|]. split.
  - rewrite E. unfold from_df, from_dicts. rewrite map_map. rewrite (rmap_map (fun c => cid_first (row c)) from_dict (fun c => as_read c (frame_fee (some_fee l) c))) by exact R1. reflexivity.
  - split; [rewrite ids_length, map_length; reflexivity|]. intros j c Ej. rewrite ids_nth, nth_error_map, Ej. reflexivity.
Qed.
(** refusals *)
Lemma dict_unknown d a v : In (a, v) d -> ~ In a field_names -> from_dict d = Raise TypeError.
Proof.
  intros I1 N. unfold from_dict. destruct (forallb _ d) eqn:F; [|reflexivity]. rewrite forallb_forall in F. apply F in I1. cbn [fst] in I1. apply existsb_exists in I1 as (b & I2 & Eb). apply String.eqb_eq in Eb. subst. contradiction.
Qed.
Lemma dict_missing d : ~ In "k"%string (map fst d) \/ ~ In "x"%string (map fst d) -> from_dict d = Raise TypeError.
Proof.
  intros N. unfold from_dict. destruct (negb _); [reflexivity|]. unfold fnum.
  destruct N as [N|N]; apply (proj2 (get_none d _)) in N; rewrite N.
  - cbn [rbind]. destruct (aget d "x") as [[]|]; reflexivity.
  - destruct (aget d "k") as [[]|]; reflexivity.
Qed.
Lemma dict_minimal kk xx : xx <> 0 -> from_dict [("k", FNum kk); ("x", FNum xx)]%string = Ret (mkN (mkCpc kk xx xx (kk / xx) "TKNB" "TKNQ") None NoFee None "default" []).
Proof.
  intros N. unfold from_dict. cbn [forallb fst existsb field_names String.eqb Ascii.eqb Bool.eqb orb andb negb aget fnum fstr rbind]. rewrite rdiv_ok by exact N. cbn [rbind]. replace (parse_pair "TKNB/TKNQ") with (Some ("TKNB", "TKNQ")%string) by reflexivity. rewrite make_ok by exact N. cbn [rbind dflt]. reflexivity.
Qed.
(** curves that constructors make can be written *)
Lemma build_good h b q i fee descr ps c : build h b q i fee descr ps = Ret c -> PairSpec.slash_free b -> PairSpec.slash_free q -> well_made c.
Proof.
  intros H Fb Fq. destruct (build_records _ _ _ _ _ _ _ _ H) as (E & _). unfold well_made.
  assert (G : forall kk xx xa ya tx ty, make kk xx xa ya tx ty = Ret (o_body c) -> PairSpec.slash_free tx -> PairSpec.slash_free ty -> x (o_body c) <> 0 /\ PairSpec.slash_free (tknx (o_body c)) /\ PairSpec.slash_free (tkny (o_body c))).
  { intros kk xx xa ya tx ty Em F1 F2. apply make_inv in Em as [N ->]. auto. }
  assert (Gp : forall p0 k0 lo hi, from_pkpp p0 k0 lo hi b q = Ret (o_body c) -> x (o_body c) <> 0 /\ PairSpec.slash_free (tknx (o_body c)) /\ PairSpec.slash_free (tkny (o_body c))).
  { intros p0 k0 lo hi Ep. unfold from_pkpp in Ep. cbv zeta in Ep. do 6 (apply bind_ok in Ep as (? & _ & Ep)). exact (G _ _ _ _ _ _ Ep Fb Fq). }
  destruct h; cbn [curve_of] in E.
  - exact (G _ _ _ _ _ _ E Fb Fq).
  - unfold from_ky in E. apply bind_ok in E as (? & _ & E). exact (G _ _ _ _ _ _ E Fb Fq).
  - exact (G _ _ _ _ _ _ E Fb Fq).
  - unfold from_pk in E. apply bind_ok in E as (? & _ & E). apply bind_ok in E as (? & _ & E). exact (G _ _ _ _ _ _ E Fb Fq).
  - exact (G _ _ _ _ _ _ E Fb Fq).
  - unfold from_py in E. apply bind_ok in E as (? & _ & E). apply bind_ok in E as (? & _ & E). exact (G _ _ _ _ _ _ E Fb Fq).
  - exact (Gp _ _ _ _ E).
  - unfold from_univ2 in E. destruct k as [k0|], x as [x0|], y as [y0|]; try discriminate; first [exact (G _ _ _ _ _ _ E Fb Fq)|apply bind_ok in E as (? & _ & E); exact (G _ _ _ _ _ _ E Fb Fq)].
  - unfold from_univ3 in E. destruct (negb _); [discriminate|]. destruct (negb _); [discriminate|]. exact (Gp _ _ _ _ E).
  - unfold from_carbon in E. destruct (rlt _ _); [discriminate|]. destruct (rlt _ _); [discriminate|]. destruct (String.eqb_spec tkn b) as [->|Nb]; cbn [orb negb] in E.
    + apply bind_ok in E as ([A0 B0] & _ & E). apply bind_ok in E as (? & _ & E). apply bind_ok in E as (? & _ & E). apply bind_ok in E as (? & _ & E). refine (G _ _ _ _ _ _ E _ Fb). destruct (String.eqb b q); assumption.
    + destruct (String.eqb_spec tkn q) as [->|Nq]; cbn [negb] in E; [|discriminate]. apply bind_ok in E as ([A0 B0] & _ & E). apply bind_ok in E as (? & _ & E). apply bind_ok in E as (? & _ & E). apply bind_ok in E as (? & _ & E). exact (G _ _ _ _ _ _ E Fb Fq).
Qed.
Lemma executes_good text l : forall c c', executes text c l = Ret c' -> well_made c -> well_made c'.
Proof.
  induction l as [|t l IH]; intros c c' E W; cbn [executes] in E; [injection E as ->; exact W|]. apply bind_ok in E as (c1 & E1 & E2). apply (IH c1 c' E2). destruct (exec_one text c t c1 E1) as (B & _). destruct W as (Nx & A & D). unfold well_made.
  destruct (t_dx t) as [dx|], (t_dy t) as [dy|]; [discriminate|apply exec_dx in B as (_ & N & ->)|apply exec_dy in B as (_ & Nk & N & ->)|rewrite exec_none in B; apply exec_dx in B as (_ & N & ->)]; cbn [moved x tknx tkny]; repeat split; auto. apply div_nz; assumption.
Qed.
