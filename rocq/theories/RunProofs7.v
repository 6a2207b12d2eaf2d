(** Simulations of several strategies, and simulations that fail. *)
From Coq Require Import Reals Lra Lia Bool String List Arith.
From Verif Require Import CurveModel CurveSpec CurveProofs CurveProofs2 CurveProofs3 OrderModel OrderProofs StrategyModel RunModel RunSpec RunProofs RunProofs2 RunProofs3 RunProofs4 RunProofs5 RunProofs6.
Import ListNotations.
Local Open Scope R_scope.

Lemma columns_eq n : forall a b : list (list (option R)), (0 < n)%nat -> Forall (fun r => List.length r = n) a -> Forall (fun r => List.length r = n) b ->
  (forall i, (i < n)%nat -> map (fun r => nth i r None) a = map (fun r => nth i r None) b) -> a = b.
Proof.
  intros a b Hn Fa. revert b. induction Fa as [|x a Lx Fa IH]; intros b Fb H.
  - specialize (H 0%nat Hn). destruct b; [reflexivity|discriminate].
  - destruct b as [|y b]; [specialize (H 0%nat Hn); discriminate|]. inversion Fb as [|? ? Ly Fb']; subst. f_equal.
    + apply (nth_ext _ _ None None); [congruence|]. intros i Hi. specialize (H i Hi). cbn [map] in H. injection H as H _. exact H.
    + apply IH; [exact Fb'|]. intros i Hi. specialize (H i Hi). cbn [map] in H. injection H as _ H. exact H.
Qed.
Lemma simulable_part l1 l2 path shift : simulable (l1 ++ l2) path shift -> l1 <> [] -> l2 <> [] -> simulable l1 path shift /\ simulable l2 path shift.
Proof.
  intros (_ & P & N & F & S & T) N1 N2. apply Forall_app in T. destruct T as [T1 T2]. split; (split; [assumption|split; [intros s s' A B; apply P; apply in_or_app; tauto|repeat split; assumption]]).
Qed.
Lemma total_app l m : total (l ++ m) = total l + total m. Proof. unfold total. induction l as [|a l IH]; cbn [app fold_right]; [ring|]. rewrite IH. ring. Qed.
Lemma run_strat strats path shift r : simulable strats path shift -> run_sim strats path shift = Ret r -> mapm (fun s => rescale_strat s (hd 0 path * (1 + amount shift)) 100 false) strats = Ret (r_strat r).
Proof.
  intros SM E. destruct (simulable_shape _ _ _ SM) as (l & bs & pt & pts & E' & F & _). rewrite E in E'. assert (X : forall a b : simresults, Ret a = Ret b -> a = b) by congruence. apply X in E'. subst r. cbn [r_strat].
  clear -F. induction F as [|s s' a b (H & _) _ IH]; [reflexivity|]. cbn [mapm]. rewrite H. cbn [rbind]. rewrite IH. reflexivity.
Qed.
Lemma run_parts l1 l2 path shift r : simulable (l1 ++ l2) path shift -> l1 <> [] -> l2 <> [] -> run_sim (l1 ++ l2) path shift = Ret r ->
  exists r1 r2, run_sim l1 path shift = Ret r1 /\ run_sim l2 path shift = Ret r2 /\ r_strat r = (r_strat r1 ++ r_strat r2)%list /\ margpbuy_r r = (margpbuy_r r1 ++ margpbuy_r r2)%list /\ margpsell_r r = (margpsell_r r1 ++ margpsell_r r2)%list /\
  forall i, (i < List.length path)%nat -> nth i (rskamt_r r) 0 = nth i (rskamt_r r1) 0 + nth i (rskamt_r r2) 0 /\ nth i (cshamt_r r) 0 = nth i (cshamt_r r1) 0 + nth i (cshamt_r r2) 0 /\
    nth i (value_r r) 0 = nth i (value_r r1) 0 + nth i (value_r r2) 0 /\ nth i (hodl_r r) 0 = nth i (hodl_r r1) 0 + nth i (hodl_r r2) 0.
Proof.
  intros SM N1 N2 E. destruct (simulable_part _ _ _ _ SM N1 N2) as [SM1 SM2].
  destruct (run_result _ _ _ SM) as (r' & E' & _ & _ & (_ & _ & _ & _ & LB & LS) & _ & _ & A0 & C0 & V). rewrite E in E'. assert (X : forall a b : simresults, Ret a = Ret b -> a = b) by congruence. apply X in E'. subst r'.
  destruct (run_result _ _ _ SM1) as (r1 & E1 & _ & _ & (_ & _ & _ & _ & LB1 & LS1) & _ & _ & A1 & C1 & V1). destruct (run_result _ _ _ SM2) as (r2 & E2 & _ & _ & (_ & _ & _ & _ & LB2 & LS2) & _ & _ & A2 & C2 & V2).
  exists r1, r2. split; [exact E1|]. split; [exact E2|].
  assert (Str : r_strat r = (r_strat r1 ++ r_strat r2)%list). { pose proof (run_strat _ _ _ _ SM E) as Q. rewrite mapm_app, (run_strat _ _ _ _ SM1 E1), (run_strat _ _ _ _ SM2 E2) in Q. cbn [rbind] in Q. congruence. }
  split; [exact Str|]. cbv zeta in *.
  assert (B : forall i, (i < List.length path)%nat -> nth i (rskamt_r r) 0 = nth i (rskamt_r r1) 0 + nth i (rskamt_r r2) 0 /\ nth i (cshamt_r r) 0 = nth i (cshamt_r r1) 0 + nth i (cshamt_r r2) 0 /\
    map (fun row => nth i row None) (margpbuy_r r) = map (fun row => nth i row None) (margpbuy_r r1 ++ margpbuy_r r2) /\ map (fun row => nth i row None) (margpsell_r r) = map (fun row => nth i row None) (margpsell_r r1 ++ margpsell_r r2)).
  { intros i Hi. destruct (run_books _ _ _ _ SM E i Hi) as (b & W & X1 & X2 & X3 & X4). destruct (run_books _ _ _ _ SM1 E1 i Hi) as (b1 & W1 & Y1 & Y2 & Y3 & Y4). destruct (run_books _ _ _ _ SM2 E2 i Hi) as (b2 & W2 & Z1 & Z2 & Z3 & Z4).
    rewrite Str, mapm_app, W1, W2 in W. cbn [rbind] in W. assert (Xb : forall a b : list book, Ret a = Ret b -> a = b) by congruence. apply Xb in W. subst b. rewrite map_app, mapm_app in X3, X4. rewrite X1, X2, Y1, Y2, Z1, Z2, !map_app, !total_app.
    split; [reflexivity|]. split; [reflexivity|]. rewrite Y3, Z3 in X3. rewrite Y4, Z4 in X4. cbn [rbind] in X3, X4. split; congruence. }
  assert (Hn : (0 < List.length path)%nat) by (destruct SM as (_ & _ & N & _); destruct path; [congruence|cbn; lia]).
  split. { apply (columns_eq (List.length path)); [exact Hn|exact LB|apply Forall_app; auto|]. intros i Hi. apply B. exact Hi. }
  split. { apply (columns_eq (List.length path)); [exact Hn|exact LS|apply Forall_app; auto|]. intros i Hi. apply B. exact Hi. }
  intros i Hi. destruct (B i Hi) as (B1 & B2 & _). destruct (V i Hi) as (_ & _ & W1 & W2). destruct (V1 i Hi) as (_ & _ & W3 & W4). destruct (V2 i Hi) as (_ & _ & W5 & W6).
  split; [exact B1|]. split; [exact B2|]. rewrite W1, W2, W3, W4, W5, W6, B1, B2, <- A0, <- C0, <- A1, <- C1, <- A2, <- C2. destruct (B 0%nat Hn) as (B3 & B4 & _). rewrite B3, B4. split; ring.
Qed.

(** ** failures *)
Lemma pair_neq s s' l : In s l -> slashpair s <> slashpair s' -> forallb (fun s => String.eqb (slashpair s) (slashpair s')) l = false.
Proof. intros I N. apply not_true_is_false. intros H. rewrite forallb_forall in H. specialize (H s I). apply String.eqb_eq in H. contradiction. Qed.
Lemma run_pairs strats path shift s s' : In s strats -> In s' strats -> slashpair s <> slashpair s' -> run_sim strats path shift = Raise ValueError.
Proof.
  intros I I' N. destruct strats as [|s0 strats]; [contradiction|]. unfold run_sim.
  destruct (string_dec (slashpair s) (slashpair s0)) as [E|E].
  - rewrite (pair_neq s' s0 (s0 :: strats) I'); [reflexivity|congruence].
  - rewrite (pair_neq s s0 (s0 :: strats) I E). reflexivity.
Qed.
Lemma filter_none path : Forall (fun p => p <= 0) path -> filter (fun x => rlt 0 x) path = [].
Proof. induction 1 as [|p path H _ IH]; [reflexivity|]. cbn [filter]. rewrite rlt_false by exact H. exact IH. Qed.
Lemma run_no_price strats path shift : strats <> [] -> Forall (fun p => p <= 0) path -> run_sim strats path shift = Raise ValueError.
Proof.
  intros N F. destruct strats as [|s0 strats]; [congruence|]. unfold run_sim. destruct (negb _); [reflexivity|]. assert (U : usable path = Raise ValueError). { destruct path as [|p path]; [reflexivity|]. unfold usable. rewrite filter_none by exact F. reflexivity. }
  rewrite U. reflexivity.
Qed.
Lemma filter_idem path : filter (fun x => rlt 0 x) (filter (fun x => rlt 0 x) path) = filter (fun x => rlt 0 x) path.
Proof. induction path as [|p path IH]; [reflexivity|]. cbn [filter]. destruct (rlt 0 p) eqn:E; [|exact IH]. cbn [filter]. rewrite E, IH. reflexivity. Qed.
Lemma filter_first path q l : filter (fun x => rlt 0 x) path = q :: l -> rlt 0 q = true.
Proof. intros E. assert (I : In q (filter (fun x => rlt 0 x) path)) by (rewrite E; left; reflexivity). apply filter_In in I. apply I. Qed.
Lemma run_late strats path shift : hd 0 path <= 0 -> run_sim strats path shift = run_sim strats (filter (fun x => rlt 0 x) path) shift.
Proof.
  intros H. unfold run_sim. destruct strats as [|s0 strats]; [reflexivity|]. destruct (negb _); [reflexivity|].
  assert (U : usable path = usable (filter (fun x => rlt 0 x) path)); [|rewrite U; reflexivity]. destruct path as [|p path]; [reflexivity|]. cbn [hd] in H. unfold usable at 1. destruct (filter _ (p :: path)) as [|q l] eqn:E; [reflexivity|]. rewrite (rlt_false 0 p) by exact H.
  unfold usable. rewrite <- E, filter_idem, E. rewrite (filter_first _ _ _ E). reflexivity.
Qed.
Lemma trade_zero s b : fits s b -> trade_book 0 b = Raise ZeroDivision.
Proof.
  intros ((Sa & Sb & HSa & HSb & Ba & Bb) & _). unfold trade_book, trade_curve. pose proof (capped_valid _ Sa) as (VB & _ & VZ & _). destruct (capped_same (b_rsk b)) as (Ca1 & Ca2 & Ca3 & Ca4).
  unfold tradeto. cbn [l_me l_other]. set (s0 := if req _ 0 then _ else _). assert (E0 : l_me s0 = capped (b_rsk b)). { unfold s0, capped. destruct (req (c_yint (b_rsk b)) 0); reflexivity. }
  rewrite E0. assert (D : dyfromp_f (capped (b_rsk b)) 0 true true = Raise ZeroDivision).
  { unfold dyfromp_f. rewrite req_false by lra. cbn [andb]. unfold yfromp_f, quoted. rewrite Ca1, Ba. unfold rdiv. rewrite req_true by reflexivity. reflexivity. }
  rewrite D. reflexivity.
Qed.
Lemma mapm_raise {A B} (f : A -> res B) e l : l <> [] -> Forall (fun a => f a = Raise e) l -> mapm f l = Raise e.
Proof. intros N F. destruct F as [|a l H _]; [congruence|]. cbn [mapm]. rewrite H. reflexivity. Qed.
Lemma follow_raise l p e : forall pre bs post, l <> [] -> Forall (fun p => 0 < p) pre -> Forall2 fits l bs -> (forall bs, Forall2 fits l bs -> mapm (trade_book p) bs = Raise e) -> follow bs (pre ++ p :: post) = Raise e.
Proof.
  induction pre as [|q pre IH]; intros bs post N P F H.
  - cbn [app follow]. rewrite (H bs F). reflexivity.
  - inversion P as [|? ? Hq Hqs]; subst. destruct (step_all l q bs Hq F) as (bs' & E & F' & _). destruct (observe_ok bs' (fits_good _ _ F')) as (mb & ms & O & _). cbn [app follow]. rewrite E. cbn [rbind]. rewrite O. cbn [rbind]. rewrite (IH bs' post N Hqs F' H). reflexivity.
Qed.
Lemma all_zero l bs : l <> [] -> Forall2 fits l bs -> mapm (trade_book 0) bs = Raise ZeroDivision.
Proof. intros N F. apply mapm_raise; [destruct F; congruence|]. clear N. induction F as [|s b l bs H _ IH]; constructor; [apply (trade_zero s); exact H|exact IH]. Qed.
Lemma run_zero_price strats p pre post shift : simulable strats (p :: pre) shift -> run_sim strats (p :: pre ++ 0 :: post) shift = Raise ZeroDivision.
Proof.
  intros SM. destruct (simulable_shape _ _ _ SM) as (l & bs & pt & pts & E & F & EN & FB & O & _). destruct SM as (N & P & _ & PP & SH & T). inversion PP as [|? ? Hp Hps]; subst.
  assert (NL : l <> []) by (destruct F; congruence). destruct strats as [|s0 strats]; [congruence|]. clear E. unfold run_sim.
  rewrite same_pair_ok. 2:{ apply Forall_forall. intros s Hs. destruct (P s s0 Hs (or_introl eq_refl)) as [A B]. unfold slashpair. rewrite A, B. reflexivity. } cbn [negb].
  assert (U : usable (p :: pre ++ 0 :: post) = Ret (p :: pre ++ 0 :: post)). { unfold usable. cbn [filter]. rewrite (rlt_true 0 p Hp). reflexivity. }
  rewrite U. cbn [rbind hd tl]. fold (amount shift).
  assert (M : mapm (fun s => rescale_strat s (p * (1 + amount shift)) 100 false) (s0 :: strats) = Ret l). { clear -F. induction F as [|s s' a b (H & _) _ IH]; [reflexivity|]. cbn [mapm hd] in *. rewrite H. cbn [rbind]. rewrite IH. reflexivity. }
  rewrite M. cbn [rbind]. rewrite EN. cbn [rbind]. rewrite O. cbn [rbind].
  rewrite (follow_raise l 0 ZeroDivision pre bs post NL Hps FB (fun bs => all_zero l bs NL)). reflexivity.
Qed.
(** a sell range of a single price *)
Lemma run_flat s q p0 p1 rest shift : rescale s = false -> p_sell_a s = q -> p_sell_b s = q -> 0 < q -> 0 < buy_lo s -> buy_lo s < buy_hi s -> 0 < amount (amt_rsk s) -> 0 <= amount (amt_csh s) ->
  psell_marginal s = None -> y_int_sell s = None -> pbuy_marginal s = None -> y_int_buy s = None -> 0 < p0 -> q <= p1 -> run_sim [s] (p0 :: p1 :: rest) shift = Raise ZeroDivision.
Proof.
  intros NR Ea Eb Hq B1 B2 A1 A2 S1 S2 S3 S4 H0 H1. unfold run_sim. cbn [forallb]. rewrite String.eqb_refl. cbn [andb negb].
  assert (U : usable (p0 :: p1 :: rest) = Ret (p0 :: p1 :: rest)). { unfold usable. cbn [filter]. rewrite (rlt_true 0 p0 H0). reflexivity. }
  rewrite U. cbn [rbind mapm]. unfold rescale_strat at 1. rewrite NR. cbn [negb andb rbind mapm].
  destruct (min_pos _ _ B1) as [Qa Qb]. apply minmax_lt in B2.
  destruct (sell_order_ok false (amt_csh s) (p_buy_b s) (p_buy_a s) None None) as (cb & Cb & Sb & HSb & _); [assumption|assumption|congruence|assumption|exact I|].
  pose proof (Rinv_0_lt_compat _ Hq) as Iq. pose proof (sqrt_lt_R0 _ Iq) as Sq.
  set (ca := mkCurve true (sqrt (/ q)) 0 (amount (amt_rsk s)) (amount (amt_rsk s))).
  assert (Ca : sell_order true (amt_rsk s) (1 / q) (1 / q) None None = Ret ca).
  { unfold sell_order. fold (amount (amt_rsk s)). rewrite rle_true by lra. cbn [rbind]. unfold make_order, convert_prices. cbn [i_B i_S i_plow i_phigh]. rewrite rlt_false by lra. replace (1 / q) with (/ q) by (unfold Rdiv; ring). rewrite !rsqrt_ok by lra. cbn [rbind].
    unfold convert_yint. cbn [i_yint rbind i_y i_adj i_D]. unfold opt_eqb. rewrite !req_true by reflexivity. cbn [rbind]. replace (sqrt (/ q) - sqrt (/ q)) with 0 by ring.
    rewrite (from_order_ok true _ (sqrt (/ q)) 0) by (try reflexivity; lra). cbn [rbind o_yint o_y]. fold ca.
    destruct (p_marg_sound ca) as [m M]. { repeat split; cbn; lra. } rewrite M. reflexivity. }
  assert (En : enter s = Ret (mkBook ca cb)). { unfold enter, add_strategy. rewrite S1, S2, S3, S4, Ea, Eb. cbn [oto_curve rbind]. unfold to_curve. rewrite rdiv_ok by lra. cbn [rbind]. rewrite Ca. cbn [rbind]. rewrite Cb. reflexivity. }
  rewrite En. cbn [rbind]. assert (SA : sound ca) by (repeat split; cbn; lra).
  assert (O : exists pt, observe [mkBook ca cb] = Ret pt). { unfold observe. cbn [map mapm b_rsk b_csh]. destruct (p_marg_sound ca SA) as [m1 M1]. destruct (p_marg_sound cb Sb) as [m2 M2]. rewrite M1, M2. cbn [rbind]. eexists. reflexivity. }
  destruct O as [pt O]. rewrite O. cbn [rbind tl follow mapm]. assert (T : trade_book p1 (mkBook ca cb) = Raise ZeroDivision); [|rewrite T; reflexivity].
  unfold trade_book, trade_curve. cbn [b_rsk b_csh]. rewrite tradeto_flat; [reflexivity|repeat split; cbn; lra|reflexivity|lra|].
  cbn [l_me]. assert (RP : raw_price ca (c_y ca) = / q). { unfold raw_price. cbn [ca c_B c_S c_y c_yint]. rewrite Rmult_0_l, Rplus_0_r. apply sqrt2. lra. }
  rewrite RP. unfold in_quote. cbn [ca c_base]. apply Rinv_le_contravar; lra.
Qed.
(** strategies that are rejected *)
Lemma enter_none s e : add_strategy s = Raise e -> enter s = Raise AssertionError. Proof. unfold enter. intros ->. reflexivity. Qed.
Lemma sell_order_refused base amt lo hi pm yint : (pm <> None /\ yint <> None) \/ (exists z, yint = Some z /\ z < amount amt) -> sell_order base amt lo hi pm yint = Raise ValueError.
Proof.
  intros [[A B]|(z & -> & H)]; unfold sell_order; fold (amount amt).
  - destruct yint; [|congruence]. destruct pm; [reflexivity|congruence].
  - destruct pm; [reflexivity|]. destruct (if rle lo hi then (lo, hi) else (hi, lo)) as [l h]. rewrite rlt_true by exact H. reflexivity.
Qed.
Lemma enter_refused s : refused s -> enter s = Raise AssertionError.
Proof.
  intros H. assert (E : exists e, add_strategy s = Raise e); [|destruct E as [e E]; apply (enter_none s e E)]. unfold add_strategy.
  destruct (oto_curve true (psell_marginal s)) as [m|e] eqn:Em; [|eexists; reflexivity]. cbn [rbind]. destruct (to_curve true (p_sell_a s)); [|eexists; reflexivity]. cbn [rbind]. destruct (to_curve true (p_sell_b s)); [|eexists; reflexivity]. cbn [rbind].
  assert (Mn : psell_marginal s <> None -> m <> None). { intros N. destruct (psell_marginal s) as [q|]; [|congruence]. cbn [oto_curve] in Em. destruct (to_curve true q); [|discriminate]. cbn [rbind] in Em. congruence. }
  destruct H as [[H1 H2]|[H|[H|H]]].
  - rewrite sell_order_refused; [eexists; reflexivity|left; auto].
  - destruct (sell_order true _ _ _ _ _); [|eexists; reflexivity]. cbn [rbind]. rewrite sell_order_refused; [eexists; reflexivity|left; exact H].
  - rewrite sell_order_refused; [eexists; reflexivity|right; exact H].
  - destruct (sell_order true _ _ _ _ _); [|eexists; reflexivity]. cbn [rbind]. rewrite sell_order_refused; [eexists; reflexivity|right; exact H].
Qed.
Lemma mapm_enter l s : In s l -> enter s = Raise AssertionError -> mapm enter l = Raise AssertionError.
Proof.
  intros I E. induction l as [|a l IH]; [contradiction|]. cbn [mapm]. destruct I as [->|I]; [rewrite E; reflexivity|]. destruct (enter a) as [b|e] eqn:Ea; [cbn [rbind]; rewrite (IH I); reflexivity|].
  unfold enter in Ea. destruct (add_strategy a); [discriminate|]. cbn [rbind]. congruence.
Qed.
Lemma mapm_in {A B} (f : A -> res B) l m a : mapm f l = Ret m -> In a l -> exists b, f a = Ret b /\ In b m.
Proof.
  revert m. induction l as [|x l IH]; intros m E I; [contradiction|]. cbn [mapm] in E. destruct (f x) as [y|] eqn:Ex; [|discriminate]. cbn [rbind] in E. destruct (mapm f l) as [m'|]; [|discriminate]. cbn [rbind] in E. assert (X : forall a b : list B, Ret a = Ret b -> a = b) by congruence. apply X in E. subst m.
  destruct I as [->|I]; [exists y; split; [exact Ex|left; reflexivity]|]. destruct (IH m' eq_refl I) as (b & Eb & Ib). exists b. split; [exact Eb|right; exact Ib].
Qed.
Lemma rescale_total s q : exists s', rescale_strat s q 100 false = Ret s'. Proof. unfold rescale_strat. destruct (negb (rescale s) && negb false); [eexists; reflexivity|]. rewrite rdiv_ok by lra. cbn [rbind]. eexists. reflexivity. Qed.
Lemma run_refused strats path shift s s' : (forall a b, In a strats -> In b strats -> slashpair a = slashpair b) -> path <> [] -> Forall (fun p => 0 < p) path -> In s strats ->
  rescale_strat s (hd 0 path * (1 + amount shift)) 100 false = Ret s' -> refused s' -> run_sim strats path shift = Raise AssertionError.
Proof.
  intros P N F I E H. destruct strats as [|s0 strats]; [contradiction|]. unfold run_sim. rewrite same_pair_ok. 2:{ apply Forall_forall. intros a Ha. apply P; [exact Ha|left; reflexivity]. } cbn [negb]. rewrite usable_pos by assumption. cbn [rbind]. fold (amount shift).
  destruct (mapm_ok (fun s => rescale_strat s (hd 0 path * (1 + amount shift)) 100 false) (fun _ _ => True) (s0 :: strats)) as (l & L & _). { apply Forall_forall. intros a _. destruct (rescale_total a (hd 0 path * (1 + amount shift))) as [b B]. exists b. auto. }
  rewrite L. cbn [rbind]. destruct (mapm_in _ _ _ _ L I) as (b & Eb & Ib). rewrite E in Eb. assert (X : forall a b : strategy, Ret a = Ret b -> a = b) by congruence. apply X in Eb. subst b. rewrite (mapm_enter l s' Ib (enter_refused s' H)). reflexivity.
Qed.
Lemma run_capacity strats path shift s z : (forall a b, In a strats -> In b strats -> slashpair a = slashpair b) -> path <> [] -> Forall (fun p => 0 < p) path -> In s strats ->
  rescale s = true -> y_int_buy s = Some z -> 0 < amount (amt_csh s) -> z * (hd 0 path * (1 + amount shift) / 100) < amount (amt_csh s) -> run_sim strats path shift = Raise AssertionError.
Proof.
  intros P N F I R Y A H. eapply run_refused; [exact P|exact N|exact F|exact I| |].
  - unfold rescale_strat. rewrite R. cbn [negb andb]. rewrite rdiv_ok by lra. cbn [rbind]. reflexivity.
  - unfold refused, construct. right. right. right. cbn [y_int_buy amt_csh]. rewrite Y. cbn [omul]. eexists. split; [reflexivity|]. destruct (amt_csh s) as [c|]; [|cbn in A; lra]. cbn [amount] in *. unfold is_zero. rewrite req_false by lra. exact H.
Qed.
