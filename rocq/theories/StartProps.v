(** Start conditions of a simulation (C165): carbon/helpers/simulation.py. *)
From Coq Require Import Reals Lra Lia Bool String List Arith.
From Verif Require Import CurveModel CurveProofs StrategyModel RunModel RunSpec RunProofs8 RunProps StartModel.
Import ListNotations.
Local Open Scope R_scope.

(** the dictionary has the entry [l] under [k] *)
Fixpoint holds (d : list (string * list R)) (k : string) (l : list R) : Prop :=
  match d with [] => False | (k', l') :: d => (k' = k /\ l' = l) \/ (k' <> k /\ holds d k l) end.
Lemma reqt a b : req a b = true -> a = b. Proof. unfold req. destruct (Req_EM_T a b); congruence. Qed.
Lemma reqf a b : req a b = false -> a <> b. Proof. unfold req. destruct (Req_EM_T a b); congruence. Qed.
Lemma get_holds d k l : holds d k l -> get d k = Ret l.
Proof. induction d as [|[k' l'] d IH]; intros H; [destruct H|]. cbn in *. destruct (String.eqb_spec k' k) as [E|E]; destruct H as [[A B]|[A B]]; congruence || auto. Qed.
Lemma get_lacks d k : ~ In k (map fst d) -> get d k = Raise KeyError.
Proof. induction d as [|[k' l'] d IH]; intros H; [reflexivity|]. cbn in *. destruct (String.eqb_spec k' k) as [E|E]; [exfalso; auto|]. apply IH. auto. Qed.

(** the five sequences that are read *)
Record stored (d : list (string * list R)) (ranges marginals weights valuation chart : list R) : Prop := mkStored {
  st_ranges : holds d "carbon order boundaries" ranges; st_marginals : holds d "carbon starting prices" marginals; st_weights : holds d "carbon order weights" weights;
  st_valuation : holds d "starting portfolio valuation" valuation; st_chart : holds d "filtered price chart" chart }.

(** ** C165 *)
(** the strategy holds the valuation at the first price, divided in proportion to the weights *)
Theorem C165_strategy d sb sa ba bb sm bm w0 w1 V vs p0 ps : stored d [sb; sa; ba; bb] [sm; bm] [w0; w1] (V :: vs) (p0 :: ps) -> w0 + w1 <> 0 -> p0 <> 0 ->
  exists s a c, strategy_carbon (Some d) = Ret s /\ p_sell_a s = sa /\ p_sell_b s = sb /\ p_buy_a s = ba /\ p_buy_b s = bb /\ psell_marginal s = Some sm /\ pbuy_marginal s = Some bm /\
    y_int_sell s = None /\ y_int_buy s = None /\ rsk s = "RSK"%string /\ csh s = "CSH"%string /\ rescale s = true /\
    amt_rsk s = Some a /\ amt_csh s = Some c /\ a * p0 * (w0 + w1) = V * w0 /\ (V * w1 <> 0 -> c * (w0 + w1) = V * w1 /\ a * p0 + c = V) /\ (V * w1 = 0 -> c = / 10 ^ 10 /\ a * p0 = V).
Proof.
  intros [A B C D E] W P. unfold strategy_carbon, carbon_ranges_raw, carbon_prices, carbon_order_weights, starting_portfolio_valuation, path_raw, entry.
  rewrite (get_holds _ _ _ A), (get_holds _ _ _ B), (get_holds _ _ _ C), (get_holds _ _ _ D), (get_holds _ _ _ E). cbn [rbind]. rewrite (rdiv_ok V _ W). cbn [rbind]. rewrite rdiv_ok by exact P. cbn [rbind].
  eexists. exists (V / (w0 + w1) * w0 / p0), (if req (V / (w0 + w1) * w1) 0 then MIN_SEED_AMT else V / (w0 + w1) * w1). split; [reflexivity|]. unfold construct. cbn [p_sell_a p_sell_b p_buy_a p_buy_b psell_marginal pbuy_marginal y_int_sell y_int_buy rsk csh rescale amt_rsk amt_csh].
  repeat (split; [reflexivity|]). unfold is_zero. split; [destruct (req (V / (w0 + w1) * w1) 0); reflexivity|]. split; [field; auto|].
  assert (Z : V / (w0 + w1) * w1 = 0 <-> V * w1 = 0).
  { replace (V / (w0 + w1) * w1) with (V * w1 / (w0 + w1)) by (field; exact W). split; intros H; [|rewrite H; unfold Rdiv; ring].
    unfold Rdiv in H. apply Rmult_integral in H as [H|H]; [exact H|]. exfalso. exact (Rinv_neq_0_compat _ W H). }
  split; intros H.
  - destruct (req (V / (w0 + w1) * w1) 0) eqn:Q; [apply reqt in Q; tauto|]. split; field; auto.
  - apply Z in H as H'. destruct (req (V / (w0 + w1) * w1) 0) eqn:Q; [|apply reqf in Q; tauto]. split; [reflexivity|].
    replace (V / (w0 + w1) * w0 / p0 * p0) with (V - V * w1 / (w0 + w1)) by (field; auto). rewrite H. unfold Rdiv. ring.
Qed.
Print Assumptions C165_strategy.
(** the prices of the chart are spread evenly over the 366 days of 2020, both ends included *)
Theorem C165_path d chart : holds d "filtered price chart" chart ->
  (length chart = 1%nat -> path (Some d) = Raise ZeroDivision) /\ (chart = [] -> path (Some d) = Ret []) /\
  ((2 <= length chart)%nat -> exists l, path (Some d) = Ret l /\ map snd l = chart /\ fst (hd (1, 1) l) = 0 /\ fst (last l (1, 1)) = 366 /\
     forall i, (S i < length chart)%nat -> fst (nth (S i) l (0, 0)) - fst (nth i l (0, 0)) = 366 / (INR (length chart) - 1) /\ fst (nth i l (0, 0)) < fst (nth (S i) l (0, 0))).
Proof.
  intros H. unfold path, datetime, time_step, num_points, path_raw, entry. rewrite (get_holds _ _ _ H). cbn [rbind]. split; [|split].
  - intros L. rewrite L. unfold rdiv. replace (INR 1 - 1) with 0 by (cbn; ring). destruct (req 0 0) eqn:E; [reflexivity|]. apply reqf in E. congruence.
  - intros ->. cbn [length]. rewrite rdiv_ok by (cbn; lra). reflexivity.
  - intros L. assert (N : 1 < INR (length chart)) by (apply (lt_INR 1); lia). rewrite rdiv_ok by lra. cbn [rbind]. eexists. split; [reflexivity|].
    set (dt := time_period / (INR (length chart) - 1)). assert (DT : dt = 366 / (INR (length chart) - 1)) by (unfold dt, time_period, end_dt, start_dt; f_equal; ring).
    assert (DP : 0 < dt) by (rewrite DT; apply Rdiv_lt_0_compat; lra). clearbody dt.
    assert (G : forall k l, combine (map (fun i => start_dt + INR i * dt) (seq k (length l + 1))) l = map (fun i => (INR i * dt, nth (i - k) l 0)) (seq k (length l))).
    { intros k l. revert k. induction l as [|b l IH]; intros k; [reflexivity|]. cbn [length Nat.add seq map combine]. rewrite IH. rewrite Nat.sub_diag. cbn [nth]. f_equal; [f_equal; unfold start_dt; ring|].
      apply map_ext_in. intros i I. apply in_seq in I. replace (i - k)%nat with (S (i - S k)) by lia. reflexivity. }
    rewrite G. assert (F : forall i, (i < length chart)%nat -> forall z, nth i (map (fun i => (INR i * dt, nth (i - 0) chart 0)) (seq 0 (length chart))) z = (INR i * dt, nth (i - 0) chart 0)).
    { intros i I z. rewrite (nth_indep _ _ ((fun i => (INR i * dt, nth (i - 0) chart 0)) O)) by (rewrite map_length, seq_length; exact I).
      rewrite (map_nth (fun i => (INR i * dt, nth (i - 0) chart 0))). rewrite seq_nth by exact I. reflexivity. }
    split; [|split; [|split]].
    + rewrite map_map. cbn [snd]. apply nth_ext with (d := 0) (d' := 0); [rewrite map_length, seq_length; reflexivity|]. intros i I. rewrite map_length, seq_length in I.
      rewrite (nth_indep _ _ ((fun i => nth (i - 0) chart 0) O)) by (rewrite map_length, seq_length; exact I). rewrite (map_nth (fun i => nth (i - 0) chart 0)). rewrite seq_nth by exact I. f_equal. lia.
    + destruct chart as [|b chart]; [cbn in L; lia|]. cbn. ring.
    + replace (last (map (fun i => (INR i * dt, nth (i - 0) chart 0)) (seq 0 (length chart))) (1, 1)) with (INR (length chart - 1) * dt, nth (length chart - 1 - 0) chart 0).
      * cbn [fst]. rewrite minus_INR by lia. rewrite DT. cbn [INR]. field. lra.
      * destruct (length chart) as [|n]; [lia|]. replace (S n - 1)%nat with n by lia. rewrite seq_S, map_app. cbn [map Nat.add]. rewrite last_last. reflexivity.
    + intros i I. rewrite !F by lia. cbn [fst]. rewrite S_INR. split; [rewrite <- DT; ring|lra].
Qed.
Print Assumptions C165_path.
(** run as it is, the strategy starts with the valuation, but at prices multiplied by one
    hundredth of the first price *)
Theorem C165_run d sb sa ba bb sm bm w0 w1 V vs p0 ps : stored d [sb; sa; ba; bb] [sm; bm] [w0; w1] (V :: vs) (p0 :: ps) -> Forall (fun p => 0 < p) (p0 :: ps) ->
  0 <= w0 -> 0 < w1 -> 0 < V -> 0 < bb -> bb < ba -> bb < bm <= ba -> 0 < sa -> sa <= sm < sb ->
  exists s r, strategy_carbon (Some d) = Ret s /\ run_sim [s] (p0 :: ps) None = Ret r /\ nth 0 (value_r r) 0 = V /\
    exists s', r_strat r = [s'] /\ p_sell_a s' = sa * (p0 / 100) /\ p_sell_b s' = sb * (p0 / 100) /\ p_buy_a s' = ba * (p0 / 100) /\ p_buy_b s' = bb * (p0 / 100).
Proof.
  intros St Hp W0 W1 HV B1 B2 B3 S1 S2. inversion_clear Hp as [|? ? P0 Ps].
  destruct (C165_strategy d sb sa ba bb sm bm w0 w1 V vs p0 ps St) as (s & a & c & E & e1 & e2 & e3 & e4 & e5 & e6 & e7 & e8 & e9 & e10 & e11 & ea & ec & Ha & Hc & _); [lra|lra|].
  assert (VW : 0 < V * w1) by (apply Rmult_lt_0_compat; assumption). destruct Hc as [Hc Hv]; [lra|].
  assert (A0 : 0 <= a). { apply Rmult_le_reg_r with (p0 * (w0 + w1)); [apply Rmult_lt_0_compat; lra|]. rewrite Rmult_0_l. replace (a * (p0 * (w0 + w1))) with (V * w0) by (rewrite <- Ha; ring). apply Rmult_le_pos; lra. }
  assert (C0 : 0 < c). { apply Rmult_lt_reg_r with (w0 + w1); [lra|]. rewrite Rmult_0_l, Hc. exact VW. }
  assert (Mn : forall x y : R, x < y -> Rmin x y = x /\ Rmax x y = y /\ Rmin y x = x /\ Rmax y x = y).
  { intros x y L. unfold Rmin, Rmax. destruct (Rle_dec x y), (Rle_dec y x); repeat split; lra. }
  destruct (Mn sa sb ltac:(lra)) as (m1 & m2 & _ & _). destruct (Mn bb ba B2) as (_ & _ & m3 & m4).
  assert (Rd : ready s). { unfold ready, sell_side, buy_side, sell_lo, sell_hi, buy_lo, buy_hi. rewrite e1, e2, e3, e4, e5, e6, e7, e8, ea, ec, m1, m2, m3, m4. cbn [amount]. repeat split; lra. }
  assert (Sm : simulable [s] (p0 :: ps) None).
  { unfold simulable. split; [discriminate|]. split; [intros x y [<-|[]] [<-|[]]; auto|]. split; [discriminate|]. split; [constructor; assumption|]. split; [cbn; lra|]. constructor; [split; [exact Rd|intros _; exact e8]|constructor]. }
  destruct (C101_result [s] (p0 :: ps) None Sm) as (r & Er & _ & F & _ & _ & _ & Ra & Rc & G). exists s, r. split; [exact E|]. split; [exact Er|].
  assert (H : exists s', r_strat r = [s'] /\ moved (if rescale s then hd 0 (p0 :: ps) * (1 + amount None) / 100 else 1) s s').
  { clear - F. inversion F as [|? s' ? l [_ Mv] Fl Eq1 Eq2]. inversion Fl. exists s'. split; [reflexivity|exact Mv]. }
  destruct H as (s' & Eq2 & Mv). destruct Mv as (v1 & v2 & v3 & v4 & v5 & v6). rewrite e11 in v1, v2, v3, v4. cbn [hd amount] in v1, v2, v3, v4.
  assert (Fc : p0 * (1 + 0) / 100 = p0 / 100) by field. rewrite Fc in v1, v2, v3, v4. split.
  - destruct (G 0%nat ltac:(cbn; lia)) as (_ & _ & Gv & _). rewrite Gv, Ra, Rc, Eq2. cbn [all_rsk all_csh fold_right nth]. rewrite v5, v6, ea, ec. destruct (Req_EM_T c 0) as [X|X]; [lra|]. cbn [amount]. lra.
  - exists s'. rewrite <- e1, <- e2, <- e3, <- e4. auto.
Qed.
Print Assumptions C165_run.
(** what is refused *)
Theorem C165_refused d : strategy_carbon None = Raise TypeError /\ path None = Raise TypeError /\
  (~ In "carbon order boundaries"%string (map fst d) -> strategy_carbon (Some d) = Raise KeyError) /\ (~ In "filtered price chart"%string (map fst d) -> path (Some d) = Raise KeyError) /\
  (forall l, holds d "carbon order boundaries" l -> length l <> 4%nat -> strategy_carbon (Some d) = Raise ValueError) /\
  (forall r sm bm w0 w1 vs ch, stored d r [sm; bm] [w0; w1] vs ch -> length r = 4%nat -> (vs = [] -> strategy_carbon (Some d) = Raise IndexError) /\
     (vs <> [] -> w0 + w1 = 0 -> strategy_carbon (Some d) = Raise ZeroDivision) /\ (vs <> [] -> w0 + w1 <> 0 -> ch = [] -> strategy_carbon (Some d) = Raise IndexError) /\
     (vs <> [] -> w0 + w1 <> 0 -> forall ps, ch = 0 :: ps -> strategy_carbon (Some d) = Raise ZeroDivision)).
Proof.
  split; [reflexivity|]. split; [reflexivity|]. unfold strategy_carbon, carbon_ranges_raw, carbon_prices, carbon_order_weights, starting_portfolio_valuation, path, datetime, time_step, num_points, path_raw, entry.
  split; [intros N; rewrite get_lacks by exact N; reflexivity|]. split; [intros N; rewrite get_lacks by exact N; reflexivity|].
  split; [intros l H N; rewrite (get_holds _ _ _ H); cbn [rbind]; destruct l as [|? [|? [|? [|? [|? ?]]]]]; try reflexivity; cbn in N; lia|].
  assert (Z : forall a, rdiv a 0 = Raise ZeroDivision) by (intros a; unfold rdiv; destruct (req 0 0) eqn:Q; [reflexivity|apply reqf in Q; congruence]).
  intros r sm bm w0 w1 vs ch [A B C D E] L. rewrite (get_holds _ _ _ A), (get_holds _ _ _ B), (get_holds _ _ _ C), (get_holds _ _ _ D), (get_holds _ _ _ E). cbn [rbind].
  destruct r as [|? [|? [|? [|? [|? ?]]]]]; try discriminate L. split; [intros ->; reflexivity|]. destruct vs as [|v vs]; [split; [|split]; intros H; congruence|]. cbn [rbind].
  split; [intros _ W; rewrite W, Z; reflexivity|]. split; [intros _ W ->; rewrite rdiv_ok by exact W; reflexivity|]. intros _ W ps ->. rewrite rdiv_ok by exact W. cbn [rbind]. rewrite Z. reflexivity.
Qed.
Print Assumptions C165_refused.
(** the file of a strategy of 1000 that sells from 2200 to 2600 and buys from 1800 to 1400, at 2000 *)
Definition ex_start : list (string * list R) := [("carbon order boundaries"%string, [2600; 2200; 1800; 1400]); ("carbon starting prices"%string, [2300; 1700]); ("carbon order weights"%string, [1; 3]);
  ("starting portfolio valuation"%string, [1000]); ("filtered price chart"%string, [2000; 2100; 1900])].
Example C165_ex : stored ex_start [2600; 2200; 1800; 1400] [2300; 1700] [1; 3] [1000] [2000; 2100; 1900] /\ Forall (fun p => 0 < p) [2000; 2100; 1900].
Proof. split; [|repeat constructor; lra]. constructor; cbn; repeat (first [left; split; reflexivity | right; split; [discriminate|]]). Qed.
(** "the simulation runs the strategy in the stored ranges" is false: here it buys between 28000
    and 36000 and sells between 44000 and 52000 while the price stays near 2000 *)
Theorem C165_ranges_refuted : exists d s r s', strategy_carbon (Some d) = Ret s /\ (exists l, path (Some d) = Ret l /\ run_sim [s] (map snd l) None = Ret r) /\ r_strat r = [s'] /\
  p_buy_b s = 1400 /\ p_sell_b s = 2600 /\ p_buy_b s' = 28000 /\ p_sell_b s' = 52000.
Proof.
  destruct C165_ex as [St Ps]. destruct (C165_run ex_start 2600 2200 1800 1400 2300 1700 1 3 1000 [] 2000 [2100; 1900] St Ps) as (s & r & E & Er & _ & s' & Es & _ & v2 & _ & v4); try lra.
  destruct (C165_strategy ex_start 2600 2200 1800 1400 2300 1700 1 3 1000 [] 2000 [2100; 1900] St) as (t & a & c & E' & _ & t2 & _ & t4 & _); try lra. rewrite E in E'. injection E' as <-.
  exists ex_start, s, r, s'. split; [exact E|]. split.
  - destruct (C165_path ex_start [2000; 2100; 1900]) as (_ & _ & H); [apply St|]. destruct (H ltac:(cbn; lia)) as (l & El & Ml & _). exists l. split; [exact El|]. rewrite Ml. exact Er.
  - split; [exact Es|]. split; [exact t4|]. split; [exact t2|]. split; lra.
Qed.
Print Assumptions C165_ranges_refuted.
