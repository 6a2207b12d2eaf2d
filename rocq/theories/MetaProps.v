(** C152-C155: token scales of containers, what curve objects record and how they are written to
    and read from dicts and data frames (carbon/tools/{cpc,tokenscale,optimizer}.py). *)
From Coq Require Import Reals QArith Qreals Lra Bool List String Ascii Arith Lia.
From Verif Require Import CurveModel CurveProofs PairModel PairProofs HelperModel HelperProofs CpcModel CpcSpec CpcProofs ContainerModel ContainerSpec ContainerProofs ContainerProofs2 ContainerProofs4 OptModel OptSpec MetaModel MetaSpec MetaProofs MetaProofs2 MetaProofs3.
From Verif Require SdkModel PairSpec.
Import ListNotations.
Local Open Scope R_scope.

(** ** C152: token scales *)
(** a curve has the scale of the container that was last built with it, whichever containers it is in ... *)
Theorem C152_last l1 a l2 l s r : builds (srun l1) a l s -> In r l -> untouched (l1 ++ [a]) l2 r -> curve_has (srun (l1 ++ a :: l2)) r s.
Proof. exact (last_built l1 a l2 l s r). Qed.
Print Assumptions C152_last.
(** ... and the trivial scale as long as no container was built with it *)
Theorem C152_new l1 c l2 : constructible c = true -> let r := List.length (w_heap (s_base (srun l1))) in untouched (l1 ++ [SCurve c]) l2 r -> curve_has (srun (l1 ++ SCurve c :: l2)) r 0.
Proof. exact (curve_new l1 c l2). Qed.
Print Assumptions C152_new.
(** a container keeps the scale it was built with *)
Theorem C152_container l1 a l2 l s : builds (srun l1) a l s -> let i := List.length (w_ccs (s_base (srun l1))) in let w := srun (l1 ++ a :: l2) in
  cont_has w i s /\ exists cc m, nth_error (w_ccs (s_base w)) i = Some cc /\ curves cc = (l ++ m)%list.
Proof. exact (cont_keeps l1 a l2 l s). Qed.
Print Assumptions C152_container.
(** the numbers: what the scale object says at the moment *)
Theorem C152_value l t v : (forall r s, curve_has (srun l) r s -> exists o, nth_error (s_scales (srun l)) s = Some o /\ (curve_scale (srun l) r t = v <-> tells o t v)) /\
  (forall i s, cont_has (srun l) i s -> exists o, nth_error (s_scales (srun l)) s = Some o /\ (cont_scale (srun l) i t = v <-> tells o t v)).
Proof. split; intros; [apply curve_value|apply cont_value]; assumption. Qed.
Print Assumptions C152_value.
(** a scale object says what was last added for a token, otherwise what it was made with *)
Theorem C152_object l1 d l2 : let s := List.length (s_scales (srun l1)) in exists d', nth_error (s_scales (srun (l1 ++ SScale d :: l2))) s = Some (Some d') /\
  forall t, (forall m v m', l2 = (m ++ SAddScale s t v :: m')%list -> (forall v', ~ In (SAddScale s t v') m') -> last_set d' t (Some v)) /\ ((forall v, ~ In (SAddScale s t v) l2) -> forall o, last_set d' t o <-> last_set d t o).
Proof. exact (scale_made l1 d l2). Qed.
Print Assumptions C152_object.
Theorem C152_trivial l : nth_error (s_scales (srun l)) 0 = Some None.
Proof. exact (srun_trivial l). Qed.
Print Assumptions C152_trivial.
(** apart from their scales, containers are as in C82-C90 *)
Theorem C152_same l : exists l', s_base (srun l) = run l'.
Proof. exact (srun_base l). Qed.
Print Assumptions C152_same.

Definition exm : ccurve := mkCC (mkCpc 100 10 10 10 "WETH" "USDC") None "".
Definition exm2 : ccurve := mkCC (mkCpc 100 10 10 10 "WETH" "USDC") (Some (CStr "b")) "".
Lemma exm_ok : constructible exm = true /\ constructible exm2 = true.
Proof.
  split; unfold constructible, exm, exm2; cbn [body x]; unfold pair_of; cbn [tknx tkny]; rewrite parse_str by reflexivity;
  (destruct (req _ _) eqn:E; [apply req_iff in E; lra|reflexivity]).
Qed.
Definition kilo : scale_dct := [("WETH"%string, 1000%Q); ("USDC"%string, 1%Q)].
(** two containers with different scales share a curve; the first is then read *)
Definition shared : list saction := [SScale kilo; SCurve exm; SContainer [0%nat] (Some 1%nat); SContainer [0%nat] None].
Lemma shared_run : let w := srun shared in s_scales w = [None; Some kilo] /\ s_curve w = [0%nat] /\ s_cont w = [1; 0]%nat /\ map curves (w_ccs (s_base w)) = [[0]; [0]]%nat /\ List.length (w_heap (s_base w)) = 1%nat.
Proof. cbv zeta. unfold srun, shared. cbn [fold_left sact]. rewrite (proj1 exm_ok). cbn [act w_heap w_ccs s_base s_scales s_curve s_cont app no_world]. rewrite (proj1 exm_ok). repeat split. Qed.
Lemma kilo_weth : scale_of (Some kilo) "WETH" = 1000 /\ scale_of None "WETH" = 1.
Proof. split; [|reflexivity]. unfold scale_of, scale, kilo. cbn [dct_get String.eqb Ascii.eqb Bool.eqb]. unfold Q2R. cbn. lra. Qed.
Example C152_ex : builds (srun shared) (SSelect 0 [0%nat]) [0%nat] 1 /\ curve_scale (srun shared) 0 "WETH" = 1 /\ curve_scale (srun (shared ++ [SSelect 0 [0%nat]])) 0 "WETH" = 1000.
Proof.
  destruct shared_run as (S & C & K & V & H). assert (B : builds (srun shared) (SSelect 0 [0%nat]) [0%nat] 1).
  { destruct (w_ccs (s_base (srun shared))) as [|cc l] eqn:E; [discriminate|]. injection V as V _. apply (by_selection _ 0 [0%nat] cc 1); [rewrite E; reflexivity|rewrite K; reflexivity|rewrite V; apply incl_refl]. }
  split; [exact B|]. split; [unfold curve_scale; rewrite C, S; apply kilo_weth|].
  rewrite srun_snoc. destruct (builds_does _ _ _ _ (srun_ok shared) B) as (_ & Va & ->). unfold construct_cc. rewrite Va. unfold curve_scale. cbn [s_curve s_scales]. rewrite C, S. cbn [set_scales fold_left put nth]. apply kilo_weth.
Qed.
(** "the curves of a container have the scale of the container" is false: another container may
    have been built with them ... *)
Theorem C152_container_refuted : exists l i cc r t, nth_error (w_ccs (s_base (srun l))) i = Some cc /\ In r (curves cc) /\ curve_scale (srun l) r t <> cont_scale (srun l) i t.
Proof.
  destruct shared_run as (S & C & K & V & H). destruct (w_ccs (s_base (srun shared))) as [|cc l] eqn:E; [discriminate|]. injection V as V _. exists shared, 0%nat, cc, 0%nat, "WETH"%string. rewrite E. split; [reflexivity|]. split; [rewrite V; left; reflexivity|].
  unfold curve_scale, cont_scale. rewrite C, K, S. cbn [nth]. destruct kilo_weth as [-> ->]. apply Rlt_not_eq. lra.
Qed.
Print Assumptions C152_container_refuted.
(** ... and curves that are added do not get the scale at all *)
Definition late : list saction := [SScale kilo; SCurve exm; SContainer [] (Some 1%nat); SAdd 0 [0%nat]].
Theorem C152_added_refuted : exists l i cc r t, nth_error (w_ccs (s_base (srun l))) i = Some cc /\ In r (curves cc) /\ curve_scale (srun l) r t <> cont_scale (srun l) i t /\ untouched [] l r.
Proof.
  assert (R1 : s_scales (srun late) = [None; Some kilo] /\ s_curve (srun late) = [0%nat] /\ s_cont (srun late) = [1%nat] /\ map curves (w_ccs (s_base (srun late))) = [[0%nat]]).
  { unfold srun, late. cbn [fold_left sact]. rewrite (proj1 exm_ok). cbn [act w_heap w_ccs s_base s_scales s_curve s_cont app no_world]. rewrite (proj1 exm_ok). repeat split. }
  destruct R1 as (S & C & K & V). destruct (w_ccs (s_base (srun late))) as [|cc l] eqn:E; [discriminate|]. injection V as V _. exists late, 0%nat, cc, 0%nat, "WETH"%string. rewrite E. split; [reflexivity|]. split; [rewrite V; left; reflexivity|]. split.
  - unfold curve_scale, cont_scale. rewrite C, K, S. cbn [nth]. destruct kilo_weth as [-> ->]. apply Rlt_not_eq. lra.
  - intros m a m' l0 s0 X B. unfold late in X. destruct m as [|b1 m]; [injection X as <- _; inversion B|]. injection X as _ X. destruct m as [|b2 m]; [injection X as <- _; inversion B|]. injection X as _ X. destruct m as [|b3 m]; [injection X as <- _; inversion B; intros []|]. injection X as _ X. destruct m as [|b4 m]; [injection X as <- _; inversion B|]. injection X as _ X. destruct m; discriminate.
Qed.
Print Assumptions C152_added_refuted.
(** "reading a container changes nothing" is false: a selection from one container changes the scale of curves of another *)
Theorem C152_reading_refuted : exists l i sel j cc r t, i <> j /\ nth_error (w_ccs (s_base (srun l))) j = Some cc /\ In r (curves cc) /\ builds (srun l) (SSelect i sel) sel 1 /\
  curve_scale (srun l) r t = cont_scale (srun l) j t /\ curve_scale (srun (l ++ [SSelect i sel])) r t <> curve_scale (srun l) r t.
Proof.
  destruct C152_ex as (B & V1 & V2). destruct shared_run as (S & C & K & V & H). destruct (w_ccs (s_base (srun shared))) as [|cc [|cc2 l]] eqn:E; try discriminate. injection V as Va Vb _. exists shared, 0%nat, [0%nat], 1%nat, cc2, 0%nat, "WETH"%string. split; [discriminate|]. rewrite E. split; [reflexivity|]. split; [rewrite Vb; left; reflexivity|]. split; [exact B|]. split.
  - rewrite V1. unfold cont_scale. rewrite K, S. reflexivity.
  - rewrite V1, V2. apply Rgt_not_eq. lra.
Qed.
Print Assumptions C152_reading_refuted.

(** ** C153: the optimisation problem when curves have different scales *)
(** the financing constraint adds up amounts each multiplied by the scale of its curve, and compares with the scale of the first *)
Theorem C153_feasible s l : positive_scales l -> Forall (fun e => pool_ok (fst (fst (fst e)))) l ->
  (mfeasible s l <-> all_allowed (map mreported l) /\ forall t v, In t (s_tokens s) -> sfc_get s t = Ret (Num v) -> weighted l t = v * first_scale l t).
Proof. exact (mfeasible_iff s l). Qed.
Print Assumptions C153_feasible.
Theorem C153_objective s l : positive_scales l -> mobjective s l = weighted l (s_ov s).
Proof. exact (weighted_sum l (s_ov s)). Qed.
Print Assumptions C153_objective.
(** if all curves agree on the scales, tokens are balanced *)
Theorem C153_common s l : positive_scales l -> Forall (fun e => pool_ok (fst (fst (fst e)))) l -> (forall e e' t, In e l -> In e' l -> snd (fst (fst e)) t = snd (fst (fst e')) t) ->
  l <> [] -> (mfeasible s l <-> all_allowed (map mreported l) /\ forall t v, In t (s_tokens s) -> sfc_get s t = Ret (Num v) -> net (map mreported l) t = v).
Proof. exact (mcommon s l). Qed.
Print Assumptions C153_common.
(** they agree in a container that was just built *)
Theorem C153_fresh l1 a l s cc es : builds (srun l1) a l s -> nth_error (w_ccs (s_base (srun (l1 ++ [a])))) (List.length (w_ccs (s_base (srun l1)))) = Some cc -> entries_of (srun (l1 ++ [a])) cc es ->
  curves cc = l /\ forall e e' t, In e es -> In e' es -> snd (fst (fst e)) t = snd (fst (fst e')) t.
Proof. exact (fresh_scale l1 a l s cc es). Qed.
Print Assumptions C153_fresh.
(** a container whose second curve kept the scale of another container *)
Definition mixed : list saction := [SScale kilo; SCurve exm; SCurve exm2; SContainer [0%nat] None; SContainer [1%nat] (Some 1%nat); SAddCont 0 1].
Lemma mixed_run : let w := srun mixed in s_scales w = [None; Some kilo] /\ s_curve w = [0; 1]%nat /\ (exists cc r, w_ccs (s_base w) = cc :: r /\ curves cc = [0; 1]%nat) /\ obj (w_heap (s_base w)) 0 = body exm /\ obj (w_heap (s_base w)) 1 = body exm2.
Proof.
  cbv zeta. unfold srun, mixed. cbn [fold_left sact]. repeat (cbn [act w_heap w_ccs s_base s_scales s_curve s_cont app no_world]; first [rewrite (proj1 exm_ok)|rewrite (proj2 exm_ok)]). cbn [act w_heap w_ccs s_base s_scales s_curve s_cont app no_world].
  split; [reflexivity|]. split; [reflexivity|]. split; [|split; reflexivity]. eexists. eexists. split; reflexivity.
Qed.
Definition exsfc : sfc := mkSfc [("WETH"%string, Num 0); ("USDC"%string, Text OptimizationVar)] ["WETH"; "USDC"]%string "USDC".
Definition mixed_entries : list mentry := [(body exm, curve_scale (srun mixed) 0, -1, 2); (body exm2, curve_scale (srun mixed) 1, 1, 0)].
(** "a feasible point balances every token that the constraint sets to zero" is false: one WETH is taken out and a thousandth put in *)
Theorem C153_balance_refuted : exists p cc i es s t, make_sfc (s_data s) None = Ret s /\ nth_error (w_ccs (s_base (srun p))) i = Some cc /\ entries_of (srun p) cc es /\ positive_scales es /\ Forall (fun e => pool_ok (fst (fst (fst e)))) es /\
  mfeasible s es /\ In t (s_tokens s) /\ sfc_get s t = Ret (Num 0) /\ net (map mreported es) t < 0.
Proof.
  destruct mixed_run as (S & C & (cc & r & W & Cc) & O1 & O2).
  assert (S0 : forall t, curve_scale (srun mixed) 0 t = 1) by (intros t; unfold curve_scale; rewrite S, C; reflexivity).
  assert (S1 : forall t, curve_scale (srun mixed) 1 t = scale_of (Some kilo) t) by (intros t; unfold curve_scale; rewrite S, C; reflexivity).
  assert (Us : scale_of (Some kilo) "USDC" = 1) by (unfold scale_of, scale, kilo; cbn [dct_get String.eqb Ascii.eqb Bool.eqb]; unfold Q2R; cbn; lra).
  assert (Kp : forall t, 0 < scale_of (Some kilo) t). { intros t. unfold scale_of, scale, kilo. cbn [dct_get]. destruct (String.eqb "WETH" t); [unfold Q2R; cbn; lra|]. destruct (String.eqb "USDC" t); unfold DEFAULT_SCALE, Q2R; cbn; lra. }
  assert (Ps : positive_scales mixed_entries). { unfold positive_scales, mixed_entries. constructor; [cbn [fst snd]; intros t; rewrite S0; lra|]. constructor; [cbn [fst snd]; intros t; rewrite S1; apply Kp|constructor]. }
  assert (Po : Forall (fun e : mentry => pool_ok (fst (fst (fst e)))) mixed_entries). { unfold mixed_entries, pool_ok, CpcModel.y. repeat constructor; cbn [fst body exm exm2 k x x_act y_act]; lra. }
  assert (Rp : map mreported mixed_entries = [(body exm, -1, 2); (body exm2, / 1000, 0)]).
  { unfold mixed_entries. cbn [map mreported reported]. change (tknx (body exm)) with "WETH"%string. change (tkny (body exm)) with "USDC"%string. change (tknx (body exm2)) with "WETH"%string. change (tkny (body exm2)) with "USDC"%string. rewrite !S0, !S1, Us, (proj1 kilo_weth). repeat f_equal; lra. }
  exists mixed, cc, 0%nat, mixed_entries, exsfc, "WETH"%string. split; [reflexivity|]. split; [rewrite W; reflexivity|]. split.
  { unfold entries_of. rewrite Cc. unfold mixed_entries. constructor; [split; [rewrite O1; reflexivity|reflexivity]|]. constructor; [split; [rewrite O2; reflexivity|reflexivity]|constructor]. }
  split; [exact Ps|]. split; [exact Po|]. split; [|split; [left; reflexivity|]; split; [reflexivity|]].
  - apply mfeasible_iff; [exact Ps|exact Po|]. split.
    + rewrite Rp. unfold all_allowed, allowed, CpcModel.y. repeat constructor; cbn [fst snd body exm exm2 k x x_act y_act]; lra.
    + intros t v [<-|[<-|[]]] G; [|discriminate]. injection G as <-. unfold mixed_entries. cbn [weighted mreported reported flow]. change (tknx (body exm)) with "WETH"%string. change (tkny (body exm)) with "USDC"%string. change (tknx (body exm2)) with "WETH"%string. change (tkny (body exm2)) with "USDC"%string.
      rewrite !S0, !S1, Us, (proj1 kilo_weth). destruct (string_dec "WETH" "WETH") as [_|N]; [|congruence]. destruct (string_dec "USDC" "WETH") as [N|_]; [discriminate|]. lra.
  - rewrite Rp. cbn [net flow]. change (tknx (body exm)) with "WETH"%string. change (tkny (body exm)) with "USDC"%string. change (tknx (body exm2)) with "WETH"%string. change (tkny (body exm2)) with "USDC"%string. destruct (string_dec "WETH" "WETH") as [_|N]; [|congruence]. destruct (string_dec "USDC" "WETH") as [N|_]; [discriminate|]. lra.
Qed.
Print Assumptions C153_balance_refuted.
Example C153_ex : exists l : list mentry, positive_scales l /\ Forall (fun e => pool_ok (fst (fst (fst e)))) l /\ l <> [] /\ mfeasible exsfc l /\ mobjective exsfc l < 0.
Proof.
  set (cA := mkCpc 100 10 10 10 "WETH" "USDC"). set (cB := mkCpc 400 10 10 40 "WETH" "USDC"). exists [(cA, fun _ => 10, -10, 12); (cB, fun _ => 10, 10, -30)].
  assert (Ps : positive_scales [(cA, fun _ => 10, -10, 12); (cB, fun _ => 10, 10, -30)]) by (repeat constructor; cbn; intros; lra).
  assert (Po : Forall (fun e : mentry => pool_ok (fst (fst (fst e)))) [(cA, fun _ => 10, -10, 12); (cB, fun _ => 10, 10, -30)]) by (unfold pool_ok, CpcModel.y; repeat constructor; cbn; lra).
  split; [exact Ps|]. split; [exact Po|]. split; [discriminate|]. split.
  - apply mfeasible_iff; [exact Ps|exact Po|]. split; [unfold all_allowed, allowed, CpcModel.y; repeat constructor; cbn; lra|]. intros t v [<-|[<-|[]]] G; [|discriminate]. injection G as <-. cbn [weighted mreported reported flow first_scale tknx tkny cA cB]. destruct (string_dec "WETH" "WETH") as [_|N]; [|congruence]. destruct (string_dec "USDC" "WETH") as [N|_]; [discriminate|]. lra.
  - rewrite C153_objective by exact Ps. cbn [weighted mreported reported flow exsfc s_ov tknx tkny cA cB]. destruct (string_dec "USDC" "USDC") as [_|N]; [|congruence]. destruct (string_dec "WETH" "USDC") as [N|_]; [discriminate|]. lra.
Qed.

(** ** C154: what curve objects record *)
(** a constructor keeps id, fee and description and records its name, except that curves from
    Uniswap v3, and those from from_pkpp whatever name is given, are recorded as pkpp *)
Theorem C154_recorded h b q i fee descr ps c : build h b q i fee descr ps = Ret c -> curve_of h b q = Ret (o_body c) /\ o_cid c = i /\ o_fee c = fee /\ o_descr c = descr /\ (named h -> o_constr c = name_of h) /\ (~ named h -> o_constr c = "pkpp"%string).
Proof. exact (build_records h b q i fee descr ps c). Qed.
Print Assumptions C154_recorded.
Theorem C154_possible h b q i fee descr ps : (exists c, build h b q i fee descr ps = Ret c) <-> (exists c, curve_of h b q = Ret c) /\ (is_univ2 h -> i <> None /\ fee <> None /\ descr <> None).
Proof. exact (build_some h b q i fee descr ps). Qed.
Print Assumptions C154_possible.
(** parameters given are kept, unless the constructor sets the same key *)
Theorem C154_params h b q i fee descr ps c : build h b q i fee descr ps = Ret c ->
  (forall a, ~ In a (own_keys h) -> same_entry (o_params c) (match ps with Some d => d | None => [] end) a) /\ (own_keys h = [] -> o_params c = match ps with Some d => d | None => [] end).
Proof. exact (build_params h b q i fee descr ps c). Qed.
Print Assumptions C154_params.
Theorem C154_univ3 Pm L Pa Pb b q i fee descr ps c : build (Univ3 Pm L Pa Pb) b q i fee descr ps = Ret c -> entry_at (o_params c) "L" (PNum L).
Proof. exact (univ3_params Pm L Pa Pb b q i fee descr ps c). Qed.
Print Assumptions C154_univ3.
Theorem C154_carbon yint y0 pa pb A B tkn d b q i fee descr ps c : build (Carbon yint y0 pa pb A B tkn d) b q i fee descr ps = Ret c ->
  exists A0 B0, entry_at (o_params c) "y" (PNum y0) /\ entry_at (o_params c) "yint" (PNum yint) /\ entry_at (o_params c) "A" (PNum A0) /\ entry_at (o_params c) "B" (PNum B0) /\
  (forall a b0, A = Some a -> B = Some b0 -> A0 = a /\ B0 = b0) /\ (A = None -> exists v w, pa = Some v /\ pb = Some w /\
     let v1 := if d || String.eqb tkn q then v else / v in let w1 := if d || String.eqb tkn q then w else / w in 
     (v1 <> w1 -> (A0 + B0) ^ 2 = v1 /\ B0 ^ 2 = w1) /\ (v1 = w1 -> (A0 + B0) ^ 2 = v1 * WIDEN /\ B0 ^ 2 = w1 / WIDEN)) /\ k (o_body c) = (yint / A0) ^ 2.
Proof. exact (carbon_params yint y0 pa pb A B tkn d b q i fee descr ps c). Qed.
Print Assumptions C154_carbon.
(** looking parameters up: the value the path leads to; the default if a dict on the way lacks a
    key; an error if something else than a dict is on the way *)
Theorem C154_lookup c s fs dv : spells s fs -> (forall w, leads (PDict (o_params c)) fs w -> P c s dv = Ret w) /\ (lacks (PDict (o_params c)) fs -> P c s dv = Ret dv) /\ (stuck (PDict (o_params c)) fs -> P c s dv = Raise TypeError).
Proof. exact (P_spec c s fs dv). Qed.
Print Assumptions C154_lookup.
Theorem C154_paths fs v : (exists w, leads v fs w) \/ lacks v fs \/ stuck v fs.
Proof. exact (path_cases fs v). Qed.
Print Assumptions C154_paths.
(** one trade *)
Theorem C154_trade text c t c' : execute_obj text c (t_dx t) (t_dy t) (t_ib t) (t_verbose t) = Ret c' ->
  execute (o_body c) (t_dx t) (t_dy t) (t_ib t) = Ret (o_body c') /\ o_cid c' = Some (CStr (match o_cid c with None => "None" | Some (CInt n) => SimModel.nat_str n | Some (CStr s) => s end ++ "-x")) /\ o_fee c' = o_fee c /\ o_constr c' = "default"%string /\
  (forall a, a <> "traded"%string -> same_entry (o_params c') (o_params c) a) /\
  exists rx ry, recorded c c' t rx ry /\ entry_at (o_params c') "traded" (PDict [("dx", rx); ("dy", ry)]%string) /\
  o_descr c' = Some ((match o_descr c with Some d => d | None => "None" end) ++ " [dx=" ++ shown text rx ++ "]")%string.
Proof. exact (exec_one text c t c'). Qed.
Print Assumptions C154_trade.
(** any number of trades: the id counts them, the fee and the other parameters stay *)
Theorem C154_trades text l c c' : executes text c l = Ret c' -> o_fee c' = o_fee c /\ k (o_body c') = k (o_body c) /\ tknx (o_body c') = tknx (o_body c) /\ tkny (o_body c') = tkny (o_body c) /\
  (forall a, a <> "traded"%string -> same_entry (o_params c') (o_params c) a) /\ (l <> [] -> o_cid c' = Some (CStr (match o_cid c with None => "None" | Some (CInt n) => SimModel.nat_str n | Some (CStr s) => s end ++ times_x (List.length l))) /\ o_constr c' = "default"%string).
Proof. exact (after text l c c'). Qed.
Print Assumptions C154_trades.
Theorem C154_history text l c c' : executes text c l = Ret c' <-> exists h, history text c h /\ map fst h = l /\ final c h = c'.
Proof. exact (executes_history text l c c'). Qed.
Print Assumptions C154_history.
Definition exo : ocurve := mkO (mkCpc 100 10 10 10 "WETH" "USDC") (Some (CInt 1)) (Some (/ 100)) None "kx" [("exchange"%string, PStr "bancor"); ("pool"%string, PDict [("id"%string, PNum 7)])].
Lemma ex_dx c dx : - x_act c <= dx -> x c + dx <> 0 -> execute c (Some dx) None false = Ret (moved c (x c + dx) (k c / (x c + dx))).
Proof. intros A B. apply exec_dx. auto. Qed.
Lemma ex_dy c dy : - y_act c <= dy -> k c <> 0 -> CpcModel.y c + dy <> 0 -> execute c None (Some dy) false = Ret (moved c (k c / (CpcModel.y c + dy)) (CpcModel.y c + dy)).
Proof. intros A B D. apply exec_dy. auto. Qed.
Example C154_ex : build (Kx 100 10 None None) "WETH" "USDC" (Some (CInt 1)) (Some (/ 100)) None (Some (o_params exo)) = Ret exo /\ P exo " pool:id " PNone = Ret (PNum 7) /\ P exo "pool:name" (PNum 0) = Ret (PNum 0) /\ P exo "exchange:id" PNone = Raise TypeError /\
  exists c', executes (fun _ => "n"%string) exo [mkOrder (Some 10) None false false; mkOrder None (Some 15) false true] = Ret c' /\ o_cid c' = Some (CStr "1-x-x") /\ o_descr c' = Some "None [dx=n] [dx=n]"%string /\ P c' "traded:dy" PNone = Ret (PNum 15) /\ P c' "traded:dx" PNone = Ret (PNum (-15)).
Proof.
  split. { cbn [build]. unfold from_kx. rewrite make_ok by lra. cbn [rbind dflt]. unfold exo. repeat f_equal. lra. }
  split; [reflexivity|]. split; [reflexivity|]. split; [reflexivity|]. eexists. split.
  - cbn [executes t_dx t_dy t_ib t_verbose]. unfold execute_obj at 1. rewrite (ex_dx (o_body exo) 10) by (cbn; lra). cbn [rbind]. unfold execute_obj. cbn [o_body]. rewrite ex_dy by (unfold moved, CpcModel.y; cbn; lra). cbn [rbind]. reflexivity.
  - cbn [o_cid o_descr]. split; [reflexivity|]. split; [reflexivity|]. split; [reflexivity|]. replace (PNum (-15)) with (PNum (100 / (100 / (10 + 10) + 15) - (10 + 10))); [reflexivity|]. f_equal. replace (100 / (10 + 10) + 15) with 20 by lra. lra.
Qed.
(** "curves from Uniswap v3 are recorded as such" and "the name given to from_pkpp is recorded" are false *)
Theorem C154_name_refuted : (exists Pm L Pa Pb b q c, build (Univ3 Pm L Pa Pb) b q None None None None = Ret c /\ o_constr c <> "uv3"%string) /\ (exists p0 k0 b q c, build (Pkpp p0 k0 None None (Some "mine"%string)) b q None None None None = Ret c /\ o_constr c <> "mine"%string).
Proof.
  assert (S : forall v, 0 <= v -> exists s, rsqrt v = Ret s) by (intros v H; eexists; apply rsqrt_ok; exact H). split.
  - assert (E : exists c, build (Univ3 2 1 1 4) "A" "B" None None None None = Ret c).
    { apply build_some. split; [|intros []]. cbn [curve_of]. unfold from_univ3. rewrite !rlt_true by lra. cbn [andb negb]. unfold from_pkpp. cbn [dflt]. rewrite !rdiv_ok by lra. cbn [rbind]. rewrite !rsqrt_ok by lra. cbn [rbind]. rewrite make_ok; [eauto|]. apply Rgt_not_eq, sqrt_lt_R0. lra. }
    destruct E as [c E]. exists 2, 1, 1, 4, "A"%string, "B"%string, c. split; [exact E|]. destruct (build_records _ _ _ _ _ _ _ _ E) as (_ & _ & _ & _ & _ & X). rewrite X by (intros []). discriminate.
  - assert (E : exists c, build (Pkpp 1 1 None None (Some "mine"%string)) "A" "B" None None None None = Ret c).
    { apply build_some. split; [|intros []]. cbn [curve_of]. unfold from_pkpp. cbn [dflt]. rewrite !rdiv_ok by lra. cbn [rbind]. rewrite !rsqrt_ok by lra. cbn [rbind]. rewrite make_ok; [eauto|]. apply Rgt_not_eq, sqrt_lt_R0. lra. }
    destruct E as [c E]. exists 1, 1, "A"%string, "B"%string, c. split; [exact E|]. destruct (build_records _ _ _ _ _ _ _ _ E) as (_ & _ & _ & _ & _ & X). rewrite X by (intros []). discriminate.
Qed.
Print Assumptions C154_name_refuted.
(** "curves with different ids have different ids after a trade" is false *)
Theorem C154_id_refuted : exists c d c' d', o_cid c <> o_cid d /\ forall text, executes text c [mkOrder None None false false] = Ret (c' text) /\ executes text d [mkOrder None None false false] = Ret (d' text) /\ o_cid (c' text) = o_cid (d' text).
Proof.
  set (d := mkO (o_body exo) (Some (CStr "1")) None None "kx" []).
  assert (E : forall c, o_body c = o_body exo -> execute (o_body c) None None false = Ret (moved (o_body exo) (10 + 0) (100 / (10 + 0)))). { intros c Ec. rewrite Ec, exec_none. apply exec_dx. split; [right; cbn; lra|]. split; [cbn; lra|reflexivity]. }
  exists exo, d. eexists (fun text => _), (fun text => _). split; [discriminate|]. intros text. cbn [executes t_dx t_dy t_ib t_verbose]. unfold execute_obj. rewrite (E exo eq_refl), (E d eq_refl). cbn [rbind]. split; [reflexivity|]. split; reflexivity.
Qed.
Print Assumptions C154_id_refuted.
(** "the trade recorded tells both amounts" is false *)
Theorem C154_amounts_refuted : exists c t, t_dx t = None /\ forall text, exists c', execute_obj text c (t_dx t) (t_dy t) (t_ib t) (t_verbose t) = Ret c' /\ x (o_body c') <> x (o_body c) /\ P c' "traded:dx" (PNum 0) = Ret PNone.
Proof.
  exists exo, (mkOrder None (Some 10) false false). split; [reflexivity|]. intros text. cbn [t_dx t_dy t_ib t_verbose]. unfold execute_obj. rewrite ex_dy by (unfold CpcModel.y; cbn; lra). cbn [rbind]. eexists. split; [reflexivity|]. split; [|reflexivity]. cbn. unfold CpcModel.y. cbn. lra.
Qed.
Print Assumptions C154_amounts_refuted.

(** ** C155: dicts and data frames *)
(** curves that were constructed and traded can be written and read *)
Theorem C155_made text h b q i fee descr ps c l c' : build h b q i fee descr ps = Ret c -> PairSpec.slash_free b -> PairSpec.slash_free q -> executes text c l = Ret c' -> well_made c'.
Proof. intros B Fb Fq E. exact (executes_good text l c c' E (build_good h b q i fee descr ps c B Fb Fq)). Qed.
Print Assumptions C155_made.
Theorem C155_dict c : well_made c -> from_dict (asdict c) = Ret (as_read c (plain_fee c)).
Proof. exact (dict_back c). Qed.
Print Assumptions C155_dict.
(** curves without id get their position *)
Theorem C155_dicts l : Forall well_made l -> exists r, from_dicts (asdicts l) = Ret r /\ List.length r = List.length l /\ forall j c, nth_error l j = Some c -> nth_error r j = Some (placed j (as_read c (plain_fee c))).
Proof. exact (dicts_back l). Qed.
Print Assumptions C155_dicts.
(** through a data frame missing fees become nan if any curve has a fee *)
Theorem C155_frame l : l <> [] -> Forall well_made l -> exists t r, asdf l = Ret t /\ from_df t = Ret r /\ List.length r = List.length l /\ forall j c, nth_error l j = Some c -> nth_error r j = Some (placed j (as_read c (frame_fee (some_fee l) c))).
Proof. exact (df_back l). Qed.
Print Assumptions C155_frame.
Theorem C155_refused d : (forall a v, In (a, v) d -> ~ In a field_names -> from_dict d = Raise TypeError) /\ (~ In "k"%string (map fst d) \/ ~ In "x"%string (map fst d) -> from_dict d = Raise TypeError).
Proof. split; [intros a v; apply dict_unknown|apply dict_missing]. Qed.
Print Assumptions C155_refused.
Theorem C155_minimal kk xx : xx <> 0 -> from_dict [("k", FNum kk); ("x", FNum xx)]%string = Ret (mkN (mkCpc kk xx xx (kk / xx) "TKNB" "TKNQ") None NoFee None "default" []).
Proof. exact (dict_minimal kk xx). Qed.
Print Assumptions C155_minimal.
Definition exo2 : ocurve := mkO (mkCpc 400 10 10 40 "WETH" "USDC") None None (Some "second"%string) "xy" [].
Lemma exo_made : Forall well_made [exo; exo2].
Proof. repeat constructor; cbn [o_body exo exo2 x tknx tkny]; try (apply Rgt_not_eq; lra); apply no_slash_free; reflexivity. Qed.
Example C155_ex : exists r, from_dicts (asdicts [exo; exo2]) = Ret r /\ map n_cid r = [Some (CInt 1); Some (CInt 1)] /\ map n_fee r = [Fee (/ 100); NoFee].
Proof.
  destruct (dicts_back [exo; exo2] exo_made) as (r & E & L & N). exists r. split; [exact E|]. pose proof (N 0%nat exo eq_refl) as N0. pose proof (N 1%nat exo2 eq_refl) as N1. destruct r as [|a [|b [|? ?]]]; try discriminate. cbn in N0, N1. injection N0 as ->. injection N1 as ->. split; reflexivity.
Qed.
(** "a container read back from its data frame is the same" is false: a missing fee becomes nan, and an empty container has no data frame *)
Theorem C155_frame_refuted : (exists l t r c, Forall well_made l /\ asdf l = Ret t /\ from_df t = Ret r /\ nth_error l 1 = Some c /\ o_fee c = None /\ option_map n_fee (nth_error r 1) = Some NaNFee) /\ asdf [] = Raise KeyError.
Proof.
  split; [|reflexivity]. destruct (df_back [exo; exo2]) as (t & r & E & F & L & N); [discriminate|exact exo_made|]. exists [exo; exo2], t, r, exo2. split; [exact exo_made|]. split; [exact E|]. split; [exact F|]. split; [reflexivity|]. split; [reflexivity|]. rewrite (N 1%nat exo2 eq_refl). reflexivity.
Qed.
Print Assumptions C155_frame_refuted.
(** "ids stay unique" is false: a curve without id may get the id of another *)
Theorem C155_ids_refuted : exists l r, Forall well_made l /\ NoDup (map o_cid l) /\ from_dicts (asdicts l) = Ret r /\ ~ NoDup (map n_cid r).
Proof.
  destruct C155_ex as (r & E & I1 & _). exists [exo; exo2], r. split; [exact exo_made|]. split; [repeat constructor; cbn; intuition discriminate|]. split; [exact E|]. rewrite I1. intros N. inversion N as [|? ? X]. apply X. left. reflexivity.
Qed.
Print Assumptions C155_ids_refuted.
