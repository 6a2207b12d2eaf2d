From Coq Require Import ZArith QArith Qabs List Bool Ascii String DecimalString DecimalNat Lia.
From Verif Require Import TradeModel TradeProofs PairModel PairSpec PairProofs SimModel SimSpec SimProofs.
Import ListNotations.
Local Open Scope list_scope.

Definition fills_of (swap : bool) (ids : list nat) (routes : list route) : list fill :=
  map (fun ir => fill_of swap (fst ir) (snd ir)) (combine ids routes).

Lemma delta_evolves os os' k f : evolves os os' -> delta os' k f = delta os k f.
Proof.
  intros Hev. unfold delta. f_equal. destruct (oget (f_id f) os) as [o|] eqn:E.
  - destruct Hev as [_ H]. destruct (H _ _ E) as (o' & -> & (_ & Hl & _) & _). rewrite Hl. reflexivity.
  - destruct (oget (f_id f) os') as [o'|] eqn:E'; [|reflexivity].
    destruct (evolves_back _ _ _ _ Hev E') as (o & Eo & _). congruence.
Qed.
Lemma qsum_ext {A} (f g : A -> Q) l : (forall a, f a = g a) -> qsum f l = qsum g l.
Proof. intros H. induction l as [|a l IH]; cbn; [reflexivity|]. rewrite H, IH. reflexivity. Qed.

Lemma loop_no_exec c ct routes os ts : lc_exec c = false -> fst (fst (route_loop c ct routes os ts)) = os.
Proof.
  intros He. revert ct ts. induction routes as [|r routes IH]; intros ct ts; [reflexivity|]. cbn [route_loop].
  destruct (id_map _ _) as [i|]; [|reflexivity]. rewrite He. cbn [negb].
  destruct (rec_price c) as [p|]; [|reflexivity]. apply IH.
Qed.
Lemma loop_evolves c ct routes os ts : evolves os (fst (fst (route_loop c ct routes os ts))).
Proof.
  revert ct os ts. induction routes as [|r routes IH]; intros ct os ts; cbn [route_loop]; [apply evolves_refl|].
  destruct (id_map _ _) as [i|]; [|apply evolves_refl].
  destruct (if lc_exec c then _ else _) as [os1 ok] eqn:E.
  assert (V : evolves os os1).
  { destruct (lc_exec c); [|injection E as <- _; apply evolves_refl].
    rewrite <- (f_equal fst E : _ = os1). apply move_evolves. }
  destruct ok; cbn [negb]; [|assumption].
  destruct (rec_price c) as [p|]; [|assumption].
  apply (evolves_trans _ _ _ V). apply IH.
Qed.
Lemma loop_success c ct routes os ts os' ts' : route_loop c ct routes os ts = (os', ts', true) -> lc_exec c = true ->
  exists ids, map_ids (lc_apps c) routes = Some ids /\
    forall k o, oget k os = Some o -> exists o', oget k os' = Some o' /\
      (so_y o' == so_y o + qsum (delta os k) (fills_of (lc_swap c) ids routes))%Q.
Proof.
  intros H He. revert ct os ts H. induction routes as [|r routes IH]; intros ct os ts H; cbn [route_loop] in H.
  - injection H as <- <-. exists []. split; [reflexivity|]. intros k o Ho. exists o. split; [assumption|]. cbn. ring.
  - destruct (id_map _ _) as [i|] eqn:Ei; [|discriminate]. rewrite He in H.
    destruct (move _ _ _ _ _) as [os1 ok] eqn:Em. destruct ok; cbn [negb] in H; [|discriminate].
    destruct (rec_price c) as [p|]; [|discriminate].
    destruct (IH _ _ _ H) as (ids & Hids & Hd).
    exists (i :: ids). cbn [map_ids]. rewrite Ei, Hids. split; [reflexivity|].
    intros k o Ho. destruct (move_delta _ _ _ _ _ _ Em k o Ho) as (o1 & E1 & Y1).
    destruct (Hd k o1 E1) as (o' & E' & Y'). exists o'. split; [assumption|].
    assert (F : mkFill i (if lc_swap c then Qabs (rt_input r) else Qabs (rt_output r)) (if lc_swap c then Qabs (rt_output r) else Qabs (rt_input r)) = fill_of (lc_swap c) i r)
      by (unfold fill_of; destruct (lc_swap c); reflexivity).
    rewrite F in Y1. rewrite Y', Y1.
    change (fills_of (lc_swap c) (i :: ids) (r :: routes)) with (fill_of (lc_swap c) i r :: fills_of (lc_swap c) ids routes). cbn [qsum].
    assert (V : evolves os os1) by (rewrite <- (f_equal fst Em : _ = os1); apply move_evolves).
    rewrite (qsum_ext (delta os1 k) (delta os k)) by (intros f; apply delta_evolves; exact V).
    ring.
Qed.
Lemma loop_frame c ct routes os ts k :
  (forall r i, In r routes -> id_map (lc_apps c) (rt_index r) = Some i -> i <> k /\ forall o, oget i os = Some o -> so_lid o <> k) ->
  oget k (fst (fst (route_loop c ct routes os ts))) = oget k os.
Proof.
  revert ct os ts. induction routes as [|r routes IH]; intros ct os ts H; cbn [route_loop]; [reflexivity|].
  destruct (id_map _ _) as [i|] eqn:Ei; [|reflexivity].
  destruct (if lc_exec c then _ else _) as [os1 ok] eqn:E.
  assert (V : evolves os os1 /\ oget k os1 = oget k os).
  { destruct (lc_exec c); [|injection E as <- _; split; [apply evolves_refl|reflexivity]].
    rewrite <- (f_equal fst E : _ = os1). destruct (H r i (or_introl eq_refl) Ei).
    split; [apply move_evolves|]. apply move_frame; auto. }
  destruct V as [V K]. destruct ok; cbn [negb]; [|assumption].
  destruct (rec_price c) as [p|]; [|assumption].
  rewrite IH; [assumption|]. intros r' i' Hr Hi. destruct (H r' i' (or_intror Hr) Hi) as [G1 G2]. split; [assumption|].
  intros o Ho. destruct (evolves_back _ _ _ _ V Ho) as (o0 & E0 & (_ & Hl & _)). rewrite Hl. auto.
Qed.
Lemma well_linked_evolves os os' : NoDup (map fst os) -> evolves os os' -> well_linked os -> well_linked os'.
Proof.
  intros Hnd V H k o' Hin. assert (Hnd' : NoDup (map fst os')) by (destruct V as [-> _]; assumption).
  apply (In_oget _ _ _ Hnd') in Hin. destruct (evolves_back _ _ _ _ V Hin) as (o & Eo & (_ & Hl & _)).
  destruct (H k o (oget_In _ _ _ Eo)) as (l & Hlin). rewrite Hl. apply (In_oget _ _ _ Hnd) in Hlin.
  destruct V as [_ V]. destruct (V _ _ Hlin) as (l' & El & _). exists l'. apply oget_In. assumption.
Qed.
Lemma loop_succeeds c ct routes os ts : NoDup (map fst os) -> well_linked os -> rec_price c <> None ->
  (forall r, In r routes -> exists i o, id_map (lc_apps c) (rt_index r) = Some i /\ oget i os = Some o) ->
  snd (route_loop c ct routes os ts) = true.
Proof.
  intros Hnd Hwl Hp. revert ct os ts Hnd Hwl. induction routes as [|r routes IH]; intros ct os ts Hnd Hwl H; cbn [route_loop]; [reflexivity|].
  destruct (H r (or_introl eq_refl)) as (i & o & Ei & Eo). rewrite Ei.
  assert (M : snd (move (lc_swap c) i (Qabs (rt_output r)) (Qabs (rt_input r)) os) = true).
  { apply (move_succeeds _ _ _ _ _ o Eo). right. destruct (Hwl i o (oget_In _ _ _ Eo)) as (l & Hl).
    exists l. apply In_oget; assumption. }
  destruct (if lc_exec c then _ else _) as [os1 ok] eqn:E.
  assert (G : ok = true /\ evolves os os1).
  { destruct (lc_exec c); [|injection E as <- <-; split; [reflexivity|apply evolves_refl]].
    rewrite E in M. split; [exact M|]. rewrite <- (f_equal fst E : _ = os1). apply move_evolves. }
  destruct G as [-> V]. cbn [negb]. destruct (rec_price c) as [p|]; [|contradiction].
  apply IH.
  - destruct V as [-> _]. assumption.
  - apply (well_linked_evolves os); assumption.
  - intros r' Hr. destruct (H r' (or_intror Hr)) as (i' & o' & Ei' & Eo'). destruct V as [_ V].
    destruct (V _ _ Eo') as (o'' & E'' & _). eauto.
Qed.
Lemma loop_map_ids c ct routes os ts os' ts' : route_loop c ct routes os ts = (os', ts', true) ->
  exists ids, map_ids (lc_apps c) routes = Some ids /\ (routes <> [] -> exists p, rec_price c = Some p).
Proof.
  revert ct os ts. induction routes as [|r routes IH]; intros ct os ts H; cbn [route_loop] in H.
  - exists []. split; [reflexivity|]. congruence.
  - destruct (id_map _ _) as [i|] eqn:Ei; [|discriminate].
    destruct (if lc_exec c then _ else _) as [os1 ok]. destruct ok; cbn [negb] in H; [|discriminate].
    destruct (rec_price c) as [p|]; [|discriminate]. destruct (IH _ _ _ H) as (ids & Hi & _).
    exists (i :: ids). cbn [map_ids]. rewrite Ei, Hi. split; [reflexivity|]. eauto.
Qed.

(** ** [trade] seen from outside *)
Definition price_of (cp : pair) (tkn : string) (f : route) : option (option Q) :=
  do raw <- qdiv (- rt_total_output f) (rt_total_input f); convert_price cp (Some raw) tkn.
Definition limit_of (cp : pair) (tkn : string) (amt : Q) (by_ : match_by) (limit_price limit_amt : option Q) : option (option Q) :=
  match limit_amt with
  | None => Some limit_price
  | Some la =>
    match limit_price with
    | Some _ => None
    | None =>
      do q <- qdiv amt la;
      match (match by_ with ByTarget => Some tkn | BySource => other cp tkn end) with
      | Some t => convert_price cp (Some (Qabs q)) t
      | None => Some None
      end
    end
  end.
Definition swap_of (e : env) (by_ : match_by) : bool := match by_ with ByTarget => e_fast e | BySource => false end.

(** Either the trade fails before the loop, or it runs the loop and then finishes. *)
Lemma trade_cases e s tkn amt partial cp by_ execute lp la inpair use thr :
  trade e s tkn amt partial cp by_ execute lp la inpair use thr = (s, false) \/
  exists l r0 rs price limitfail,
    let routes := r0 :: rs in
    let apps := applicable cp tkn use (orders s) in
    let exec := match limitfail with Some true => false | _ => execute end in
    let c := mkCtx (swap_of e by_) apps exec limitfail (numtrades s) tkn (other cp tkn) (pair_iso cp) price in
    limit_of cp tkn amt by_ lp la = Some l /\ inpair = true /\
    e_router e apps (mkRequest by_ amt thr partial) = Some routes /\
    price_of cp tkn (last routes r0) = Some price /\
    match l with
    | None => limitfail = None
    | Some l => exists p, price = Some p /\ limitfail = Some (match limit_is_met cp tkn l BUY p with Some true => false | _ => true end)
    end /\
    exists os ts ok, route_loop c 0 routes (orders s) (trades s) = (os, ts, ok) /\
      ((ok = false /\ trade e s tkn amt partial cp by_ execute lp la inpair use thr = (mkState os ts (numtrades s) (next_id s), false)) \/
       (ok = true /\ exists ids rp, map_ids apps routes = Some ids /\ rec_price c = Some rp /\
        let f := last routes r0 in
        let a1 := Qabs (rt_total_output f) in let a2 := Qabs (rt_total_input f) in
        let t := mkTrec (uid_aggr (numtrades s)) (numtrades s) None exec (negb (Qeq_bool amt a2)) limitfail
                   (if swap_of e by_ then a2 else a1) tkn (if swap_of e by_ then a1 else a2) (other cp tkn) (pair_iso cp) ids rp in
        trade e s tkn amt partial cp by_ execute lp la inpair use thr =
          (mkState os (tset (uid_aggr (numtrades s)) t ts) (S (numtrades s)) (next_id s), true))).
Proof.
  unfold trade. fold (limit_of cp tkn amt by_ lp la). fold (swap_of e by_).
  destruct (limit_of cp tkn amt by_ lp la) as [l|] eqn:El; [|tauto].
  destruct inpair; cbn [negb]; [|tauto].
  destruct (e_router e _ _) as [[|r0 rs]|] eqn:Er; [tauto| |tauto].
  destruct (qdiv _ _) as [raw|] eqn:Eraw; [|tauto].
  destruct (convert_price cp (Some raw) tkn) as [price|] eqn:Ep; [|tauto].
  assert (Epo : price_of cp tkn (last (r0 :: rs) r0) = Some price) by (unfold price_of; rewrite Eraw; exact Ep).
  set (limitfail0 := match l with None => _ | Some _ => _ end).
  destruct limitfail0 as [limitfail|] eqn:Elf; [|tauto]. unfold limitfail0 in Elf. clear limitfail0.
  right. exists l, r0, rs, price, limitfail. cbv zeta.
  split; [reflexivity|]. split; [reflexivity|]. split; [first [exact Er|reflexivity]|]. split; [exact Epo|].
  split.
  { destruct l as [l|]; [|congruence]. destruct price as [p|]; [|discriminate]. exists p. split; [reflexivity|]. congruence. }
  set (c := mkCtx _ _ _ _ _ _ _ _ _).
  destruct (route_loop c 0 (r0 :: rs) (orders s) (trades s)) as [[os ts] ok] eqn:Eloop.
  exists os, ts, ok. split; [reflexivity|]. destruct ok; cbn [negb].
  - right. split; [reflexivity|]. destruct (loop_map_ids _ _ _ _ _ _ _ Eloop) as (ids & Hids & Hp).
    destruct Hp as (rp & Hp); [discriminate|].
    change (lc_apps c) with (applicable cp tkn use (orders s)) in Hids.
    exists ids, rp. split; [assumption|]. split; [assumption|]. rewrite Hids, Hp. reflexivity.
  - left. split; reflexivity.
Qed.

(** evolution of a whole trade *)
Lemma trade_evolves e s tkn amt partial cp by_ execute lp la inpair use thr s' ok :
  trade e s tkn amt partial cp by_ execute lp la inpair use thr = (s', ok) ->
  evolves (orders s) (orders s') /\ next_id s' = next_id s.
Proof.
  intros H. destruct (trade_cases e s tkn amt partial cp by_ execute lp la inpair use thr) as [E|E].
  - rewrite E in H. injection H as <- _. split; [apply evolves_refl|reflexivity].
  - destruct E as (l & r0 & rs & price & lf & _ & _ & _ & _ & _ & os & ts & okl & El & D). cbv zeta in D.
    match type of El with route_loop ?c ?n ?r ?o ?t = _ => pose proof (loop_evolves c n r o t) as V end.
    rewrite El in V. cbn [fst] in V.
    destruct D as [[_ D]|(_ & ids & rp & _ & _ & D)]; rewrite D in H; injection H as <- _; cbn; auto.
Qed.
