(** The matching loop of the exact router with an arbitrary split formula. *)
From Coq Require Import Reals Lra Lia Bool List Arith Permutation.
From Verif Require Import CurveModel CurveProofs OrderModel ExactModel ExactSpec ExactProofs.
Import ListNotations.
Local Open Scope R_scope.

Lemma mem_in i l : mem i l = true <-> In i l.
Proof.
  unfold mem. rewrite existsb_exists. split; [intros (x & Hx & E); apply Nat.eqb_eq in E; subst; assumption|intros H; exists i; split; [assumption|apply Nat.eqb_refl]].
Qed.
Lemma mem_not i l : mem i l = false <-> ~ In i l.
Proof. rewrite <- mem_in. destruct (mem i l); intuition congruence. Qed.
Lemma mem_app i a b : mem i (a ++ b) = mem i a || mem i b. Proof. apply existsb_app. Qed.
Definition live (os : list xorder) (d : list nat) : list nat := filter (fun i => negb (mem i d)) (indexes os).
Definition zeros (os : list xorder) : list nat := filter (fun i => req (xo_y (getx os i)) 0) (indexes os).
Lemma in_live os d i : In i (live os d) <-> (i < length os)%nat /\ ~ In i d.
Proof. unfold live, indexes. rewrite filter_In, in_seq, negb_true_iff, mem_not. intuition lia. Qed.
Lemma in_zeros os i : In i (zeros os) <-> (i < length os)%nat /\ xo_y (getx os i) = 0.
Proof.
  unfold zeros, indexes. rewrite filter_In, in_seq. unfold req. destruct (Req_EM_T (xo_y (getx os i)) 0); intuition (try lia; try congruence).
Qed.
Lemma live_nodup os d : NoDup (live os d). Proof. apply NoDup_filter, seq_NoDup. Qed.
Lemma filter_le {A} (p q : A -> bool) l : (forall a, In a l -> p a = true -> q a = true) -> (length (filter p l) <= length (filter q l))%nat.
Proof.
  induction l as [|a l IH]; intros H; [cbn; lia|]. cbn. assert (IH' := IH (fun a Ha => H a (or_intror Ha))). specialize (H a (or_introl eq_refl)).
  destruct (p a); [rewrite H by reflexivity; cbn; lia|]. destruct (q a); cbn; lia.
Qed.
Lemma filter_lt {A} (p q : A -> bool) l : (forall a, In a l -> p a = true -> q a = true) -> (exists a, In a l /\ p a = false /\ q a = true) -> (length (filter p l) < length (filter q l))%nat.
Proof.
  induction l as [|a l IH]; intros H [b [Hb [Hp Hq]]]; [destruct Hb|]. cbn. specialize (H a (or_introl eq_refl)) as Ha.
  assert (Hle := filter_le p q l (fun a Ha => H a (or_intror Ha))).
  destruct Hb as [->|Hb]; [rewrite Hp, Hq; cbn; lia|]. specialize (IH (fun a Ha => H a (or_intror Ha)) (ex_intro _ b (conj Hb (conj Hp Hq)))).
  destruct (p a); [rewrite Ha by reflexivity; cbn; lia|]. destruct (q a); cbn; lia.
Qed.
Lemma live_length os d : (length (live os d) <= length os)%nat.
Proof.
  rewrite <- (seq_length (length os) 0). apply NoDup_incl_length; [apply live_nodup|]. intros i Hi. apply in_live in Hi. apply in_seq. lia.
Qed.

Lemma rmap_keys (f : nat -> res R) l r : rmap (fun i => let* v := f i in Ret (i, v)) l = Ret r -> map fst r = l.
Proof.
  intros H. apply rmap_inv in H. induction H as [|i kv l r E _ IH]; [reflexivity|]. cbn [map]. f_equal; [|assumption].
  destruct (f i); [|discriminate]. cbn in E. injection E as <-. reflexivity.
Qed.
Lemma check_false ps : ps <> [] -> check_partial_swaps ps = false -> exists kv, In kv ps /\ 0 < snd kv.
Proof.
  destruct ps as [|kv0 ps0]; [congruence|]. intros _. unfold check_partial_swaps. set (ps := kv0 :: ps0). clearbody ps. induction ps as [|kv ps IH]; [discriminate|].
  cbn. intros H. apply andb_false_iff in H. destruct H as [H|H].
  - exists kv. split; [left; reflexivity|]. destruct (Rle_dec (snd kv) 0) as [E|E]; [rewrite rle_true in H by assumption; discriminate|lra].
  - destruct (IH H) as (kv' & ? & ?). exists kv'. split; [right; assumption|assumption].
Qed.

Definition positives (ps : swaps) : list nat := map fst (filter (fun kv => rlt 0 (snd kv)) ps).
Lemma in_positives i ps : In i (positives ps) <-> exists v, In (i, v) ps /\ 0 < v.
Proof.
  unfold positives. rewrite in_map_iff. split.
  - intros ((j & v) & <- & H). apply filter_In in H. destruct H as [H E]. exists v. split; [assumption|]. cbn in E. unfold rlt in E. destruct (Rlt_dec 0 v); [assumption|discriminate].
  - intros (v & H & Hv). exists (i, v). split; [reflexivity|]. apply filter_In. split; [assumption|]. cbn. apply rlt_true. assumption.
Qed.
Lemma inner_unfold fuel os split amt dropped ps : inner (S fuel) os split amt dropped ps =
  if check_partial_swaps ps then Some (Ret ps) else
  match live os (dropped ++ positives ps ++ zeros os) with
  | [] => Some (Ret ps)
  | _ => match rmap (fun i => let* v := split i amt (live os (dropped ++ positives ps ++ zeros os)) in Ret (i, v)) (live os (dropped ++ positives ps ++ zeros os)) with
         | Raise e => Some (Raise e)
         | Ret ps' => inner fuel os split amt (dropped ++ positives ps ++ zeros os) ps'
         end
  end.
Proof. reflexivity. Qed.

(** the inner loop ends *)
Lemma inner_ends os split amt fuel dropped ps :
  (ps = [] /\ (length (live os dropped) + 2 <= fuel)%nat \/ map fst ps = live os dropped /\ (length (live os dropped) + 1 <= fuel)%nat) ->
  exists r, inner fuel os split amt dropped ps = Some r /\ forall more, inner (fuel + more) os split amt dropped ps = Some r.
Proof.
  revert dropped ps. induction fuel as [|fuel IH]; intros dropped ps H; [lia|]. cbn [Nat.add]. rewrite inner_unfold. setoid_rewrite inner_unfold.
  destruct (check_partial_swaps ps) eqn:C; [eexists; split; [reflexivity|intros; reflexivity]|].
  set (d' := dropped ++ positives ps ++ zeros os). destruct (live os d') as [|i l] eqn:L; [eexists; split; [reflexivity|intros; reflexivity]|]. rewrite <- L.
  destruct (rmap _ (live os d')) as [ps'|e] eqn:E; [|eexists; split; [reflexivity|intros; reflexivity]]. apply rmap_keys in E. apply IH. right. split; [assumption|].
  assert (Hle : (length (live os d') <= length (live os dropped))%nat).
  { apply filter_le. intros a _. rewrite !negb_true_iff. unfold d'. rewrite mem_app. intros Hm. apply orb_false_iff in Hm. tauto. }
  destruct H as [[-> Hf]|[K Hf]]; [lia|].
  assert (Hne : ps <> []). { intros ->. cbn in K. rewrite <- K in Hle. rewrite L in Hle. cbn in Hle. lia. }
  destruct (check_false ps Hne C) as (kv & Hkv & Hpos).
  assert (Hlt : (length (live os d') < length (live os dropped))%nat); [|lia].
  assert (Hk : In (fst kv) (live os dropped)) by (rewrite <- K; apply in_map; assumption). apply in_live in Hk.
  apply filter_lt.
  - intros a _. rewrite !negb_true_iff. unfold d'. rewrite mem_app. intros Hm. apply orb_false_iff in Hm. tauto.
  - exists (fst kv). split; [unfold indexes; apply in_seq; lia|]. rewrite negb_true_iff, negb_false_iff, mem_not, mem_in. split; [|tauto].
    unfold d'. rewrite !in_app_iff. right. left. apply in_positives. exists (snd kv). rewrite <- surjective_pairing. split; assumption.
Qed.
Lemma inner_keys os split amt fuel dropped ps r : inner fuel os split amt dropped ps = Some (Ret r) ->
  (ps = [] \/ map fst ps = live os dropped /\ incl (zeros os) dropped) -> r = [] \/ exists d, map fst r = live os d /\ incl dropped d /\ incl (zeros os) d.
Proof.
  revert dropped ps. induction fuel as [|fuel IH]; intros dropped ps H Hps; [discriminate|]. rewrite inner_unfold in H.
  destruct (check_partial_swaps ps) eqn:C.
  { injection H as <-. destruct Hps as [->|[K Z]]; [discriminate|]. right. exists dropped. split; [assumption|]. split; [apply incl_refl|assumption]. }
  set (d' := dropped ++ positives ps ++ zeros os) in *. destruct (live os d') as [|i l] eqn:L.
  { injection H as <-. destruct Hps as [->|[K Z]]; [left; reflexivity|]. right. exists dropped. split; [assumption|]. split; [apply incl_refl|assumption]. }
  rewrite <- L in H. destruct (rmap _ (live os d')) as [ps'|e] eqn:E; [|discriminate]. apply rmap_keys in E.
  assert (Hz : incl (zeros os) d') by (unfold d'; intros a Ha; rewrite !in_app_iff; tauto).
  destruct (IH _ _ H (or_intror (conj E Hz))) as [?|(d & ? & Hd & ?)]; [left; assumption|]. right. exists d. split; [assumption|]. split; [|assumption].
  intros a Ha. apply Hd. unfold d'. rewrite in_app_iff. tauto.
Qed.

(** ** the outer loop *)
Lemma dset_new i v d : ~ In i (map fst d) -> dset i v d = d ++ [(i, v)].
Proof.
  induction d as [|[j w] d IH]; intros H; [reflexivity|]. cbn in *. destruct (Nat.eqb_spec i j) as [->|]; [tauto|]. f_equal. apply IH. tauto.
Qed.
Lemma fold_dset (g : nat * R -> R) l d : NoDup (map fst d ++ map fst l) ->
  fold_left (fun d kv => dset (fst kv) (g kv) d) l d = d ++ map (fun kv => (fst kv, g kv)) l.
Proof.
  revert d. induction l as [|[i v] l IH]; intros d H; [rewrite app_nil_r; reflexivity|]. cbn [fold_left fst map] in *.
  assert (Hi : ~ In i (map fst d)). { apply NoDup_remove_2 in H. intro. apply H. apply in_or_app. left. assumption. }
  rewrite dset_new by assumption. rewrite IH.
  - rewrite <- app_assoc. reflexivity.
  - rewrite map_app. cbn [map fst]. rewrite <- app_assoc. assumption.
Qed.
Definition excluded (os : list xorder) (level : list nat) : list nat := match level with [] => [] | _ => filter (fun i => negb (mem i level)) (indexes os) end.
Lemma dropped_excluded os level (F : list nat) : match level with [] => F | _ => filter (fun i => negb (mem i level)) (indexes os) ++ F end = excluded os level ++ F.
Proof. destruct level; reflexivity. Qed.
Lemma usable_live os level F i : In i (live os (excluded os level ++ F ++ zeros os)) <-> usable os level i /\ ~ In i F.
Proof.
  rewrite in_live. unfold usable. fold (getx os i). rewrite !in_app_iff, in_zeros.
  assert (Hx : (i < length os)%nat -> (In i (excluded os level) <-> ~ (level = [] \/ In i level))).
  { intros Hi. unfold excluded. destruct level as [|a l]; [cbn; tauto|]. set (lv := a :: l) in *. assert (lv <> []) by discriminate.
    rewrite filter_In, negb_true_iff, mem_not. unfold indexes. rewrite in_seq. intuition lia. }
  destruct (in_dec Nat.eq_dec i level); destruct (list_eq_dec Nat.eq_dec level []); destruct (in_dec Nat.eq_dec i F); destruct (Req_EM_T (xo_y (getx os i)) 0); intuition (try congruence).
Qed.

Definition over os (ps : swaps) : swaps := filter (fun kv => rlt (xo_y (getx os (fst kv)) + snd kv) 0) ps.
Definition deltas_of (by_target : bool) os (final : swaps) : res (list R) := if by_target then Ret (map snd final) else rmap (fun kv => dxdy (getx os (fst kv)) (snd kv)) final.
Lemma outer_unfold fuel infuel os split by_target level x final : outer (S fuel) infuel os split by_target level x final =
  match deltas_of by_target os final with
  | Raise e => Some (Raise e)
  | Ret deltas =>
    match inner infuel os split (x - rsum deltas) (excluded os level ++ map fst final) [] with
    | None => None
    | Some (Raise e) => Some (Raise e)
    | Some (Ret ps) => match over os ps with [] => Some (Ret (final, ps)) | _ => outer fuel infuel os split by_target level x (fold_left (fun d kv => dset (fst kv) (- xo_y (getx os (fst kv))) d) (over os ps) final) end
    end
  end.
Proof. cbn [outer]. rewrite dropped_excluded. unfold deltas_of, over. destruct (if by_target then _ else _); [|reflexivity]. destruct (inner _ _ _ _ _ _) as [[ps|]|]; try reflexivity. destruct (filter _ ps); reflexivity. Qed.

(** what holds of the drained orders throughout *)
Definition drained os level (final : swaps) : Prop := NoDup (map fst final) /\ forall i v, In (i, v) final -> usable os level i /\ v = - xo_y (getx os i).
Lemma inner_from_empty os split amt fuel level F r : inner fuel os split amt (excluded os level ++ F) [] = Some (Ret r) ->
  NoDup (map fst r) /\ forall i, In i (map fst r) -> usable os level i /\ ~ In i F.
Proof.
  intros H. destruct (inner_keys _ _ _ _ _ _ _ H (or_introl eq_refl)) as [->|(d & K & I1 & I2)]; [split; [constructor|intros i []]|].
  rewrite K. split; [apply live_nodup|]. intros i Hi. apply (usable_live os level F i). apply in_live in Hi. apply in_live. split; [tauto|]. rewrite app_assoc, in_app_iff. intros [Hc|Hc]; [apply I1 in Hc|apply I2 in Hc]; tauto.
Qed.
Lemma nodup_app {A} (a b : list A) : NoDup a -> NoDup b -> (forall i, In i b -> ~ In i a) -> NoDup (a ++ b).
Proof.
  intros Ha Hb H. induction Ha as [|x a Hx Ha IH]; [assumption|]. cbn. constructor.
  - rewrite in_app_iff. intros [?|Hi]; [tauto|]. apply (H x Hi). left. reflexivity.
  - apply IH. intros i Hi Hia. apply (H i Hi). right. assumption.
Qed.
Lemma over_keys os ps i : In i (map fst (over os ps)) -> In i (map fst ps).
Proof. rewrite !in_map_iff. intros (kv & <- & H). apply filter_In in H. exists kv. tauto. Qed.
Lemma map_filter_nodup {A} (p : nat * A -> bool) l : NoDup (map fst l) -> NoDup (map fst (filter p l)).
Proof.
  induction l as [|kv l IH]; intros H; [constructor|]. cbn in *. inversion H as [|? ? H1 H2]; subst. destruct (p kv); [|apply IH; assumption]. cbn. constructor; [|apply IH; assumption].
  intro Hi. apply H1. apply in_map_iff in Hi. destruct Hi as (kv' & <- & Hf). apply filter_In in Hf. apply in_map. tauto.
Qed.
Lemma drained_step os level final ps : drained os level final -> NoDup (map fst ps) -> (forall i, In i (map fst ps) -> usable os level i /\ ~ In i (map fst final)) ->
  let final' := fold_left (fun d kv => dset (fst kv) (- xo_y (getx os (fst kv))) d) (over os ps) final in
  final' = final ++ map (fun i => (i, - xo_y (getx os i))) (map fst (over os ps)) /\ drained os level final'.
Proof.
  intros [N D] Np Hp final'.
  assert (Hov : forall i, In i (map fst (over os ps)) -> usable os level i /\ ~ In i (map fst final)) by (intros i Hi; apply Hp, over_keys with os; assumption).
  assert (Nn : NoDup (map fst final ++ map fst (over os ps))) by (apply nodup_app; [assumption|apply map_filter_nodup; assumption|intros i Hi; apply Hov; assumption]).
  assert (E : final' = final ++ map (fun i => (i, - xo_y (getx os i))) (map fst (over os ps))).
  { unfold final'. rewrite (fold_dset (fun kv => - xo_y (getx os (fst kv)))) by assumption. rewrite map_map. reflexivity. }
  split; [assumption|]. rewrite E. split.
  - rewrite map_app, map_map. cbn [fst]. rewrite map_id. assumption.
  - intros i v Hi. apply in_app_or in Hi. destruct Hi as [Hi|Hi]; [apply D; assumption|]. apply in_map_iff in Hi. destruct Hi as (j & Hj & Hin). injection Hj as <- <-. split; [apply Hov; assumption|reflexivity].
Qed.
Lemma drained_count os level final : drained os level final -> (length final <= length os)%nat.
Proof.
  intros [N D]. rewrite <- (map_length fst). replace (length os) with (length (indexes os)) by (unfold indexes; apply seq_length). apply NoDup_incl_length; [assumption|].
  intros i Hi. apply in_map_iff in Hi. destruct Hi as ((j & v) & <- & Hv). unfold indexes. apply in_seq. specialize (D _ _ Hv). unfold usable in D. cbn. lia.
Qed.

Lemma outer_ends os split by_target level x fuel infuel final : drained os level final -> (length os + 1 <= fuel + length final)%nat -> (length os + 2 <= infuel)%nat ->
  exists r, forall more more', outer (fuel + more) (infuel + more') os split by_target level x final = Some r.
Proof.
  revert final. induction fuel as [|fuel IH]; intros final HD Hf Hi; [pose proof (drained_count _ _ _ HD); lia|].
  cbn [Nat.add]. setoid_rewrite outer_unfold. destruct (deltas_of by_target os final) as [deltas|e]; [|eexists; intros; reflexivity].
  destruct (inner_ends os split (x - rsum deltas) infuel (excluded os level ++ map fst final) []) as (r & Er & Em).
  { left. split; [reflexivity|]. pose proof (live_length os (excluded os level ++ map fst final)). lia. }
  setoid_rewrite Em. destruct r as [ps|e]; [|eexists; intros; reflexivity].
  destruct (over os ps) as [|kv l] eqn:O; [eexists; intros; reflexivity|]. rewrite <- O.
  destruct (inner_from_empty _ _ _ _ _ _ _ Er) as [Np Hp]. destruct (drained_step os level final ps HD Np Hp) as [E HD'].
  apply IH; [assumption| |assumption]. rewrite E, app_length, !map_length, O. cbn [length]. lia.
Qed.

(** result of the outer loop *)
Definition bounded os level (final ps : swaps) : Prop :=
  drained os level final /\ NoDup (map fst ps) /\ (forall i, In i (map fst ps) -> usable os level i /\ ~ In i (map fst final)) /\ (forall i v, In (i, v) ps -> 0 <= xo_y (getx os i) + v).
Lemma outer_bounded os split by_target level x fuel infuel final f p : drained os level final ->
  outer fuel infuel os split by_target level x final = Some (Ret (f, p)) -> bounded os level f p.
Proof.
  revert final. induction fuel as [|fuel IH]; intros final HD H; [discriminate|]. rewrite outer_unfold in H.
  destruct (deltas_of by_target os final) as [deltas|e]; [|discriminate].
  destruct (inner _ _ _ _ _ _) as [[ps|e]|] eqn:Ei; try discriminate. destruct (inner_from_empty _ _ _ _ _ _ _ Ei) as [Np Hp].
  destruct (over os ps) as [|kv l] eqn:O.
  - injection H as <- <-. split; [assumption|]. split; [assumption|]. split; [assumption|]. intros i v Hv.
    destruct (Rlt_dec (xo_y (getx os i) + v) 0) as [E|E]; [|lra]. exfalso. assert (Hin : In (i, v) (over os ps)) by (apply filter_In; split; [assumption|cbn; apply rlt_true; assumption]). rewrite O in Hin. destruct Hin.
  - rewrite <- O in H. apply IH in H; [assumption|]. apply drained_step; assumption.
Qed.

(** ** match *)
Definition merged (final ps : swaps) : swaps := fold_left (fun d kv => dset (fst kv) (snd kv) d) ps final.
Lemma merged_eq os level final ps : bounded os level final ps -> merged final ps = final ++ ps /\ NoDup (map fst (final ++ ps)).
Proof.
  intros ([N _] & Np & Hp & _). assert (NoDup (map fst final ++ map fst ps)) by (apply nodup_app; [assumption|assumption|intros i Hi; apply Hp; assumption]).
  split; [|rewrite map_app; assumption]. unfold merged. rewrite (fold_dset snd) by assumption. f_equal. rewrite <- (map_id ps) at 2. apply map_ext. intros []; reflexivity.
Qed.
Definition nonzero (s : swaps) : swaps := filter (fun kv => negb (req (snd kv) 0)) s.
Lemma actions_fields ti tout l : map ac_index (actions ti tout l) = map (fun r => fst (fst r)) l /\ map ac_input (actions ti tout l) = map (fun r => snd (fst r)) l /\ map ac_output (actions ti tout l) = map snd l.
Proof.
  revert ti tout. induction l as [|[[i a] b] l IH]; intros ti tout; [repeat split|]. cbn [actions map ac_index ac_input ac_output fst snd]. destruct (IH (ti + a) (tout + b)) as (-> & -> & ->). repeat split.
Qed.
Lemma rows_fields os outs rows : rmap (fun kv => let* i := dxdy (getx os (fst kv)) (snd kv) in Ret (fst kv, i, snd kv)) outs = Ret rows ->
  map (fun r => (fst (fst r), snd r)) rows = outs /\ Forall (fun r => dxdy (getx os (fst (fst r))) (snd r) = Ret (snd (fst r))) rows.
Proof.
  intros H. apply rmap_inv in H. induction H as [|[i v] r outs rows E _ [IH1 IH2]]; [split; [reflexivity|constructor]|]. cbn [fst snd] in E.
  destruct (dxdy (getx os i) v) eqn:Ed; [|discriminate]. cbn in E. injection E as <-. split; [cbn; f_equal; assumption|constructor; [cbn; assumption|assumption]].
Qed.
Definition request os (x : R) (by_target check : bool) (level : list nat) (support_partial : bool) : res R :=
  if by_target && check then
           let* ok := sufficient_liquidity os x level support_partial in
           Ret (if ok : bool then x else rsum (map (fun i => xo_y (getx os i)) level))
         else Ret x.
Definition finish os (x : R) (by_target support_partial : bool) (outputs : swaps) : res (list action) :=
        let* rows := rmap (fun kv => let* i := dxdy (getx os (fst kv)) (snd kv) in Ret (fst kv, i, snd kv)) outputs in
        let actual := if by_target then rsum (map snd outputs) else rsum (map (fun r => snd (fst r)) rows) in
        let* ratio := rdiv x actual in
        let err := Rabs (ratio - 1) in
        if negb by_target && negb support_partial && rlt (actual - x) 0 then Raise AssertionError else
        if negb support_partial && rlt (/ 10000) err && rle (5 / 100) err then Raise RuntimeError else
        Ret (actions 0 0 rows).
Lemma match_unfold fuel infuel os split x by_target check level support_partial : match_with fuel infuel os split x by_target check level support_partial =
  match request os x by_target check level support_partial with
  | Raise e => Some (Raise e)
  | Ret x => match outer fuel infuel os split by_target level x [] with
             | None => None | Some (Raise e) => Some (Raise e)
             | Some (Ret (f, p)) => Some (finish os x by_target support_partial (nonzero (merged f p)))
             end
  end.
Proof. reflexivity. Qed.
Lemma drained_nil os level : drained os level []. Proof. split; [constructor|intros i v []]. Qed.

(** C32 *)
Lemma match_terminates os split x by_target check level support_partial :
  exists r, forall fuel infuel, (length os < fuel)%nat -> (length os + 1 < infuel)%nat -> match_with fuel infuel os split x by_target check level support_partial = Some r.
Proof.
  setoid_rewrite match_unfold. destruct (request os x by_target check level support_partial) as [x'|e]; [|eexists; intros; reflexivity].
  destruct (outer_ends os split by_target level x' (length os + 1) (length os + 2) [] (drained_nil os level)) as (r & Hr); [cbn; lia|lia|].
  assert (Hr' : forall fuel infuel, (length os < fuel)%nat -> (length os + 1 < infuel)%nat -> outer fuel infuel os split by_target level x' [] = Some r).
  { intros fuel infuel H1 H2. specialize (Hr (fuel - (length os + 1))%nat (infuel - (length os + 2))%nat).
    replace (length os + 1 + (fuel - (length os + 1)))%nat with fuel in Hr by lia. replace (length os + 2 + (infuel - (length os + 2)))%nat with infuel in Hr by lia. assumption. }
  exists (match r with Ret (f, p) => finish os x' by_target support_partial (nonzero (merged f p)) | Raise e => Raise e end).
  intros fuel infuel H1 H2. rewrite Hr' by assumption. destruct r as [[f p]|e]; reflexivity.
Qed.
