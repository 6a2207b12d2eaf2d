(** Simulations of strategies along a price path (C101-C107). *)
From Coq Require Import Reals Lra Lia Bool String List Arith.
From Verif Require Import CurveModel CurveSpec StrategyModel RunModel RunSpec.
From Verif Require Import CurveProofs RunProofs RunProofs2 RunProofs3 RunProofs4 RunProofs5 RunProofs6 RunProofs7 RunProofs8.
Import ListNotations.
Local Open Scope R_scope.

(** a strategy that sells between 4 and 9 and buys between 1 and 1/4; the path leaves both ranges *)
Definition ex_strat : strategy := mkStrategy 4 9 1 (/ 4) (Some 1) (Some 1) None None None None "RSK" "CSH" false None None.
Definition ex_path : list R := [2; 3; 10; 10; / 5; 2].
Ltac minmax := unfold sell_lo, sell_hi, buy_lo, buy_hi; cbn [ex_strat p_sell_a p_sell_b p_buy_a p_buy_b]; unfold Rmin, Rmax; repeat (destruct (Rle_dec _ _)); lra.
Lemma ex_ready : ready ex_strat. Proof. unfold ready, sell_side, buy_side. cbn [ex_strat psell_marginal pbuy_marginal y_int_sell y_int_buy amt_rsk amt_csh amount]. repeat split; try lra; minmax. Qed.
Lemma ex_sep : separated ex_strat. Proof. unfold separated. minmax. Qed.
Lemma ex_pos : Forall (fun p => 0 < p) ex_path. Proof. unfold ex_path. repeat constructor; lra. Qed.
Lemma ex_simulable : simulable [ex_strat; ex_strat] ex_path None.
Proof.
  unfold simulable. split; [discriminate|]. split; [intros s s' [<-|[<-|[]]] [<-|[<-|[]]]; auto|]. split; [discriminate|]. split; [exact ex_pos|]. split; [cbn; lra|].
  assert (T : tradable ex_strat) by (split; [exact ex_ready|discriminate]). constructor; [exact T|constructor; [exact T|constructor]].
Qed.

(** ** C101: a simulation returns a complete result *)
Theorem C101_result strats path shift : simulable strats path shift -> exists r, run_sim strats path shift = Ret r /\ spot_r r = path /\
  Forall2 (fun s s' => ready s' /\ moved (if rescale s then hd 0 path * (1 + amount shift) / 100 else 1) s s') strats (r_strat r) /\
  (let n := List.length path in List.length (rskamt_r r) = n /\ List.length (cshamt_r r) = n /\ List.length (value_r r) = n /\ List.length (hodl_r r) = n /\
    Forall (fun row => List.length row = n) (margpbuy_r r) /\ Forall (fun row => List.length row = n) (margpsell_r r)) /\
  List.length (margpbuy_r r) = List.length strats /\ List.length (margpsell_r r) = List.length strats /\
  nth 0 (rskamt_r r) 0 = all_rsk (r_strat r) /\ nth 0 (cshamt_r r) 0 = all_csh (r_strat r) /\
  forall i, (i < List.length path)%nat -> let p := nth i path 0 in let a := nth i (rskamt_r r) 0 in let c := nth i (cshamt_r r) 0 in
    0 <= a /\ 0 <= c /\ nth i (value_r r) 0 = a * p + c /\ nth i (hodl_r r) 0 = all_rsk (r_strat r) * p + all_csh (r_strat r).
Proof. exact (run_result strats path shift). Qed.
Example C101_ex : simulable [ex_strat; ex_strat] ex_path None. Proof. exact ex_simulable. Qed.

(** ** C102: trading never gains at the spot: the value grows at most by what the holdings gain *)
Theorem C102_step strats path shift r : simulable strats path shift -> run_sim strats path shift = Ret r -> forall i, (S i < List.length path)%nat ->
  nth (S i) (value_r r) 0 <= nth i (value_r r) 0 + nth i (rskamt_r r) 0 * (nth (S i) path 0 - nth i path 0).
Proof. exact (run_loss strats path shift r). Qed.
Theorem C102_path strats path shift r : simulable strats path shift -> run_sim strats path shift = Ret r -> forall i, (i < List.length path)%nat ->
  nth i (value_r r) 0 <= nth 0 (value_r r) 0 + gains (rskamt_r r) (firstn (S i) path).
Proof. exact (run_value strats path shift r). Qed.
Example C102_ex : gains [1; 3; 2] [2; 5; 4; 8] = 1 * (5 - 2) + 3 * (4 - 5) + 2 * (8 - 4) /\ simulable [ex_strat; ex_strat] ex_path None. Proof. split; [cbn; ring|exact ex_simulable]. Qed.

(** ** C103: at prices between the ranges a strategy is worth at least what holding is worth *)
Theorem C103_gap strats path shift r m : simulable strats path shift -> run_sim strats path shift = Ret r -> Forall (fun s => buy_hi s <= m <= sell_lo s) (r_strat r) ->
  forall i, (i < List.length path)%nat -> m * nth 0 (rskamt_r r) 0 + nth 0 (cshamt_r r) 0 <= m * nth i (rskamt_r r) 0 + nth i (cshamt_r r) 0.
Proof. exact (run_gap strats path shift r m). Qed.
Theorem C103_hodl strats path shift r : simulable strats path shift -> run_sim strats path shift = Ret r -> forall i, (i < List.length path)%nat ->
  Forall (fun s => buy_hi s <= nth i path 0 <= sell_lo s) (r_strat r) -> nth i (hodl_r r) 0 <= nth i (value_r r) 0.
Proof. exact (run_hodl strats path shift r). Qed.
Theorem C103_idle strats path shift r : simulable strats path shift -> run_sim strats path shift = Ret r -> forall i, (i < List.length path)%nat ->
  (forall j, (0 < j <= i)%nat -> Forall (fun s => buy_hi s <= nth j path 0 <= sell_lo s) (r_strat r)) ->
  nth i (rskamt_r r) 0 = nth 0 (rskamt_r r) 0 /\ nth i (cshamt_r r) 0 = nth 0 (cshamt_r r) 0 /\ nth i (value_r r) 0 = nth i (hodl_r r) 0.
Proof. exact (run_idle strats path shift r). Qed.
Theorem C103_direction strats path shift r i : simulable strats path shift -> run_sim strats path shift = Ret r -> (S i < List.length path)%nat ->
  let p := nth (S i) path 0 in let a := nth i (rskamt_r r) 0 in let c := nth i (cshamt_r r) 0 in let a' := nth (S i) (rskamt_r r) 0 in let c' := nth (S i) (cshamt_r r) 0 in
  (Forall (fun s => p <= sell_lo s) (r_strat r) -> a <= a' /\ c' <= c) /\ (Forall (fun s => buy_hi s <= p) (r_strat r) -> a' <= a /\ c <= c').
Proof. intros SM E Hi. cbv zeta. destruct (run_steps strats path shift r i SM E Hi) as (_ & _ & A & B). split; assumption. Qed.
Example C103_ex : exists r, run_sim [ex_strat; ex_strat] ex_path None = Ret r /\ Forall (fun s => buy_hi s <= 2 <= sell_lo s) (r_strat r).
Proof.
  destruct (run_result _ _ _ ex_simulable) as (r & E & _). exists r. split; [exact E|]. pose proof (run_strat _ _ _ _ ex_simulable E) as Q. cbn [mapm rescale_strat ex_strat rescale negb andb rbind] in Q.
  assert (X : forall a b : list strategy, Ret a = Ret b -> a = b) by congruence. apply X in Q. rewrite <- Q. fold ex_strat. repeat constructor; minmax.
Qed.

(** ** C104: every strategy is traded on its own, and a portfolio is the sum of its strategies *)
Theorem C104_books strats path shift r : simulable strats path shift -> run_sim strats path shift = Ret r -> forall i, (i < List.length path)%nat ->
  exists bs, mapm (fun s => let* b := enter s in after b (firstn i (tl path))) (r_strat r) = Ret bs /\ nth i (rskamt_r r) 0 = total (map (fun b => c_y (b_rsk b)) bs) /\ nth i (cshamt_r r) 0 = total (map (fun b => c_y (b_csh b)) bs) /\
    mapm p_marg (map b_rsk bs) = Ret (map (fun row => nth i row None) (margpbuy_r r)) /\ mapm p_marg (map b_csh bs) = Ret (map (fun row => nth i row None) (margpsell_r r)).
Proof. exact (run_books strats path shift r). Qed.
Theorem C104_portfolio l1 l2 path shift r : simulable (l1 ++ l2) path shift -> l1 <> [] -> l2 <> [] -> run_sim (l1 ++ l2) path shift = Ret r ->
  exists r1 r2, run_sim l1 path shift = Ret r1 /\ run_sim l2 path shift = Ret r2 /\ r_strat r = (r_strat r1 ++ r_strat r2)%list /\ margpbuy_r r = (margpbuy_r r1 ++ margpbuy_r r2)%list /\ margpsell_r r = (margpsell_r r1 ++ margpsell_r r2)%list /\
  forall i, (i < List.length path)%nat -> nth i (rskamt_r r) 0 = nth i (rskamt_r r1) 0 + nth i (rskamt_r r2) 0 /\ nth i (cshamt_r r) 0 = nth i (cshamt_r r1) 0 + nth i (cshamt_r r2) 0 /\
    nth i (value_r r) 0 = nth i (value_r r1) 0 + nth i (value_r r2) 0 /\ nth i (hodl_r r) 0 = nth i (hodl_r r1) 0 + nth i (hodl_r r2) 0.
Proof. exact (run_parts l1 l2 path shift r). Qed.
Example C104_ex : simulable ([ex_strat] ++ [ex_strat]) ex_path None /\ exists r, run_sim ([ex_strat] ++ [ex_strat]) ex_path None = Ret r.
Proof. split; [exact ex_simulable|]. destruct (run_result _ _ _ ex_simulable) as (r & E & _). exists r. exact E. Qed.

(** ** C105: after a spot nothing is left on offer there but dust, and repeating it does nothing *)
Theorem C105_enter s : ready s -> exists b, enter s = Ret b /\ c_y (b_rsk b) = amount (amt_rsk s) /\ c_y (b_csh b) = amount (amt_csh s) /\
  match psell_marginal s, y_int_sell s with Some m, _ => 0 < amount (amt_rsk s) -> price_at (b_rsk b) (c_y (b_rsk b)) = m | None, Some z => c_yint (b_rsk b) = z | None, None => c_yint (b_rsk b) = amount (amt_rsk s) end /\
  match pbuy_marginal s, y_int_buy s with Some m, _ => 0 < amount (amt_csh s) -> price_at (b_csh b) (c_y (b_csh b)) = m | None, Some z => c_yint (b_csh b) = z | None, None => c_yint (b_csh b) = amount (amt_csh s) end.
Proof. intros R. destruct (enter_ok s R) as (b & E & _ & A & B & C & D). exists b. auto. Qed.
Theorem C105_cleared s b path p : ready s -> separated s -> enter s = Ret b -> Forall (fun p => 0 < p) path -> 0 < p -> exists b', after b (path ++ [p]) = Ret b' /\ cleared p b' /\ after b' [p] = Ret b'.
Proof.
  intros R S E P Hp. destruct (enter_ok s R) as (b0 & E0 & F & _). assert (X : forall a b : book, Ret a = Ret b -> a = b) by congruence. rewrite E in E0. apply X in E0. subst b0.
  destruct (after_fits s (path ++ [p]) b F) as (b' & E' & _). { apply Forall_app. auto. } exists b'. split; [exact E'|]. exact (after_cleared s path p b b' F S P Hp E').
Qed.
Theorem C105_sold_out s b path p b' : ready s -> separated s -> enter s = Ret b -> Forall (fun p => 0 < p) path -> 0 < p -> after b (path ++ [p]) = Ret b' ->
  (sell_hi s <= p -> c_y (b_rsk b') < / 10 ^ 10) /\ (p <= buy_lo s -> c_y (b_csh b') < / 10 ^ 10).
Proof.
  intros R S E P Hp. destruct (enter_ok s R) as (b0 & E0 & F & _). assert (X : forall a b : book, Ret a = Ret b -> a = b) by congruence. rewrite E in E0. apply X in E0. subst b0. intros A. exact (sold_out s path p b b' F S P Hp A).
Qed.
Theorem C105_repeat strats path shift r i : simulable strats path shift -> run_sim strats path shift = Ret r -> Forall separated strats -> (S (S i) < List.length path)%nat -> nth (S (S i)) path 0 = nth (S i) path 0 ->
  nth (S (S i)) (rskamt_r r) 0 = nth (S i) (rskamt_r r) 0 /\ nth (S (S i)) (cshamt_r r) 0 = nth (S i) (cshamt_r r) 0 /\
  map (fun row => nth (S (S i)) row None) (margpbuy_r r) = map (fun row => nth (S i) row None) (margpbuy_r r) /\ map (fun row => nth (S (S i)) row None) (margpsell_r r) = map (fun row => nth (S i) row None) (margpsell_r r).
Proof. exact (run_repeat strats path shift r i). Qed.
Example C105_ex : ready ex_strat /\ separated ex_strat /\ sell_hi ex_strat <= 10 /\ / 5 <= buy_lo ex_strat /\ simulable [ex_strat; ex_strat] ex_path None /\ nth 3 ex_path 0 = nth 2 ex_path 0.
Proof. split; [exact ex_ready|]. split; [exact ex_sep|]. split; [minmax|]. split; [minmax|]. split; [exact ex_simulable|]. reflexivity. Qed.

(** ** C106: while nothing is bought only the highest spot matters, while nothing is sold only the lowest *)
Theorem C106_rising s b p path : ready s -> enter s = Ret b -> Forall (fun q => 0 < q /\ buy_hi s <= q) (p :: path) -> exists b1 b2, after b (p :: path) = Ret b1 /\ after b [peak p path] = Ret b2 /\
  Rabs (c_y (b_rsk b1) - c_y (b_rsk b2)) < / 10 ^ 10 /\ Rabs (c_y (b_csh b1) - c_y (b_csh b2)) <= peak p path * / 10 ^ 10 /\
  (0 < c_yint (b_rsk b) -> 0 <= c_y (b_rsk b1) <= c_y (b_rsk b) /\ dxfromdy_f (b_rsk b) (c_y (b_rsk b) - c_y (b_rsk b1)) true true = Ret (Some (c_y (b_csh b1) - c_y (b_csh b)))).
Proof.
  intros R E. destruct (enter_ok s R) as (b0 & E0 & F & _). assert (X : forall a b : book, Ret a = Ret b -> a = b) by congruence. rewrite E in E0. apply X in E0. subst b0. exact (rising s b p path F).
Qed.
Theorem C106_falling s b p path : ready s -> enter s = Ret b -> Forall (fun q => 0 < q /\ q <= sell_lo s) (p :: path) -> exists b1 b2, after b (p :: path) = Ret b1 /\ after b [trough p path] = Ret b2 /\
  Rabs (c_y (b_csh b1) - c_y (b_csh b2)) < / 10 ^ 10 /\ trough p path * Rabs (c_y (b_rsk b1) - c_y (b_rsk b2)) <= / 10 ^ 10 /\
  (0 < c_yint (b_csh b) -> 0 <= c_y (b_csh b1) <= c_y (b_csh b) /\ dxfromdy_f (b_csh b) (c_y (b_csh b) - c_y (b_csh b1)) true true = Ret (Some (c_y (b_rsk b1) - c_y (b_rsk b)))).
Proof.
  intros R E. destruct (enter_ok s R) as (b0 & E0 & F & _). assert (X : forall a b : book, Ret a = Ret b -> a = b) by congruence. rewrite E in E0. apply X in E0. subst b0. exact (falling s b p path F).
Qed.
Example C106_ex : ready ex_strat /\ Forall (fun q => 0 < q /\ buy_hi ex_strat <= q) [2; 5; 3; 6; 2] /\ peak 2 [5; 3; 6; 2] = 6 /\ Forall (fun q => 0 < q /\ q <= sell_lo ex_strat) [2; / 2; 3] /\ trough 2 [/ 2; 3] = / 2.
Proof.
  split; [exact ex_ready|]. split; [repeat constructor; try lra; minmax|]. split; [unfold peak; cbn [fold_left]; unfold Rmax; repeat (destruct (Rle_dec _ _)); lra|]. split; [repeat constructor; try lra; minmax|].
  unfold trough; cbn [fold_left]; unfold Rmin; repeat (destruct (Rle_dec _ _)); lra.
Qed.

(** ** C107: what makes a simulation fail *)
Theorem C107_pairs strats path shift s s' : In s strats -> In s' strats -> slashpair s <> slashpair s' -> run_sim strats path shift = Raise ValueError.
Proof. exact (run_pairs strats path shift s s'). Qed.
Theorem C107_no_price strats path shift : strats <> [] -> Forall (fun p => p <= 0) path -> run_sim strats path shift = Raise ValueError.
Proof. exact (run_no_price strats path shift). Qed.
(** prices that are not positive are dropped everywhere if the path starts with one *)
Theorem C107_late strats path shift : hd 0 path <= 0 -> run_sim strats path shift = run_sim strats (filter (fun x => rlt 0 x) path) shift.
Proof. exact (run_late strats path shift). Qed.
(** and nowhere if it does not: a zero then ends the simulation *)
Theorem C107_zero strats p pre post shift : simulable strats (p :: pre) shift -> run_sim strats (p :: pre ++ 0 :: post) shift = Raise ZeroDivision.
Proof. exact (run_zero_price strats p pre post shift). Qed.
(** a range of one price is accepted and fails as soon as it is reached *)
Theorem C107_flat s q p0 p1 rest shift : rescale s = false -> p_sell_a s = q -> p_sell_b s = q -> 0 < q -> 0 < buy_lo s -> buy_lo s < buy_hi s -> 0 < amount (amt_rsk s) -> 0 <= amount (amt_csh s) ->
  psell_marginal s = None -> y_int_sell s = None -> pbuy_marginal s = None -> y_int_buy s = None -> 0 < p0 -> q <= p1 -> run_sim [s] (p0 :: p1 :: rest) shift = Raise ZeroDivision.
Proof. exact (run_flat s q p0 p1 rest shift). Qed.
(** no strategy at all *)
Theorem C107_none path shift : run_sim [] path shift = Raise IndexError.
Proof. reflexivity. Qed.
Theorem C107_refused strats path shift s s' : (forall a b, In a strats -> In b strats -> slashpair a = slashpair b) -> path <> [] -> Forall (fun p => 0 < p) path -> In s strats ->
  rescale_strat s (hd 0 path * (1 + amount shift)) 100 false = Ret s' -> refused s' -> run_sim strats path shift = Raise AssertionError.
Proof. exact (run_refused strats path shift s s'). Qed.
(** rescaling multiplies the cash capacity but not the cash: a strategy that fits may not any more *)
Theorem C107_capacity strats path shift s z : (forall a b, In a strats -> In b strats -> slashpair a = slashpair b) -> path <> [] -> Forall (fun p => 0 < p) path -> In s strats ->
  rescale s = true -> y_int_buy s = Some z -> 0 < amount (amt_csh s) -> z * (hd 0 path * (1 + amount shift) / 100) < amount (amt_csh s) -> run_sim strats path shift = Raise AssertionError.
Proof. exact (run_capacity strats path shift s z). Qed.
(** so it is not true that strategies that can be entered as they are can be simulated *)
Theorem C107_ready_refuted : exists s path, ready s /\ path <> [] /\ Forall (fun p => 0 < p) path /\ run_sim [s] path None = Raise AssertionError.
Proof.
  set (s := mkStrategy 110 120 90 80 (Some 1) (Some 1) None None None (Some 1) "RSK" "CSH" true None None). exists s, [50; 60]. assert (F : Forall (fun p => 0 < p) [50; 60]) by (repeat constructor; lra).
  split. { unfold ready, sell_side, buy_side. cbn [s psell_marginal pbuy_marginal y_int_sell y_int_buy amt_rsk amt_csh amount]. unfold sell_lo, sell_hi, buy_lo, buy_hi. cbn [s p_sell_a p_sell_b p_buy_a p_buy_b]. unfold Rmin, Rmax. repeat (destruct (Rle_dec _ _)); repeat split; try lra. }
  split; [discriminate|]. split; [exact F|]. apply (run_capacity [s] [50; 60] None s 1); [intros a b [<-|[]] [<-|[]]; reflexivity|discriminate|exact F|left; reflexivity|reflexivity|reflexivity|cbn; lra|cbn; lra].
Qed.
(** nor that a positive first price is enough *)
Theorem C107_zero_refuted : exists strats path, simulable strats [hd 0 path] None /\ Forall (fun p => 0 <= p) path /\ run_sim strats path None = Raise ZeroDivision.
Proof.
  exists [ex_strat], [2; 0; 3]. assert (SM : simulable [ex_strat] [2] None). { destruct (simulable_part [ex_strat] [ex_strat] ex_path None ex_simulable) as [(A & B & _ & _ & C & D) _]; [discriminate|discriminate|]. repeat split; try assumption; try discriminate; try apply (B s s'); try assumption. repeat constructor; lra. }
  split; [exact SM|]. split; [repeat constructor; lra|]. exact (run_zero_price [ex_strat] 2 [] [3] None SM).
Qed.
Example C107_ex : slashpair ex_strat <> slashpair (mkStrategy 4 9 1 (/ 4) (Some 1) (Some 1) None None None None "ETH" "CSH" false None None) /\ Forall (fun p => p <= 0) [0; -1; 0] /\ hd 0 [0; 2; 0; 3] <= 0 /\
  filter (fun x => rlt 0 x) [0; 2; 0; 3] = [2; 3] /\ simulable [ex_strat; ex_strat] (2 :: [3; 10; 10; / 5; 2]) None /\
  refused (mkStrategy 4 9 1 (/ 4) (Some 1) (Some 1) (Some 5) None (Some 3) None "RSK" "CSH" false None None).
Proof.
  split; [discriminate|]. split; [repeat constructor; lra|]. split; [cbn; lra|]. split. { cbn [filter]. rewrite !(rlt_false 0 0), (rlt_true 0 2), (rlt_true 0 3) by lra. reflexivity. }
  split; [exact ex_simulable|]. left. split; discriminate.
Qed.

Print Assumptions C101_result.
Print Assumptions C102_step.
Print Assumptions C102_path.
Print Assumptions C103_gap.
Print Assumptions C103_hodl.
Print Assumptions C103_idle.
Print Assumptions C103_direction.
Print Assumptions C104_books.
Print Assumptions C104_portfolio.
Print Assumptions C105_enter.
Print Assumptions C105_cleared.
Print Assumptions C105_sold_out.
Print Assumptions C105_repeat.
Print Assumptions C106_rising.
Print Assumptions C106_falling.
Print Assumptions C107_pairs.
Print Assumptions C107_no_price.
Print Assumptions C107_late.
Print Assumptions C107_zero.
Print Assumptions C107_flat.
Print Assumptions C107_none.
Print Assumptions C107_refused.
Print Assumptions C107_capacity.
Print Assumptions C107_ready_refuted.
Print Assumptions C107_zero_refuted.
