(** Requests by target and by source, and larger and smaller requests, with the exact router (C162):
    carbon/routers/exact_base_router.py and exact_router_x0y0n.py. *)
From Coq Require Import Reals Lra Lia Bool List Arith.
From Verif Require Import CurveModel CurveProofs OrderModel ExactModel ExactSpec ExactProofs ExactProofs4 ExactProofs6 ExactProps SplitSpec SplitProofs SplitProofs2 SplitProofs3 SplitProps InvProofs.
Import ListNotations.
Local Open Scope R_scope.

(** ** C162 *)
(** asking for what a trade costs, or for what it yields, gives the same trade *)
Theorem C162_inverse fuel infuel os level by_target check sp A :
  (forall i, usable os level i -> sane (nth i os (mkX 0 0 0 0))) -> (forall i, In i level -> (i < length os)%nat) -> (length os < fuel)%nat -> (length os + 1 < infuel)%nat ->
  0 < A -> servable os level by_target A ->
  exists acts acts' C, exact_match fuel infuel os (request_of by_target A) by_target check level sp = Some (Ret acts) /\
    C = (if by_target then fold_right Rplus 0 (map ac_input acts) else - fold_right Rplus 0 (map ac_output acts)) /\ 0 < C /\
    exact_match fuel infuel os (request_of (negb by_target) C) (negb by_target) check level sp = Some (Ret acts') /\
    forall i, taken acts' i = taken acts i /\ paid acts' i = paid acts i.
Proof. intros Hs Hin Hf Hi HA Hv. exact (inverse by_target fuel infuel os level A check sp Hs Hin Hf Hi HA (servable_full _ _ _ _ Hs Hv)). Qed.
Print Assumptions C162_inverse.
(** a larger request takes at least as much of, and pays at least as much into, every order *)
Theorem C162_monotone fuel infuel os level by_target check sp A A' :
  (forall i, usable os level i -> sane (nth i os (mkX 0 0 0 0))) -> (by_target = true -> forall i, In i level -> (i < length os)%nat) -> (length os < fuel)%nat -> (length os + 1 < infuel)%nat ->
  0 < A <= A' -> servable os level by_target A' ->
  exists acts acts', exact_match fuel infuel os (request_of by_target A) by_target check level sp = Some (Ret acts) /\
    exact_match fuel infuel os (request_of by_target A') by_target check level sp = Some (Ret acts') /\
    forall i, 0 <= taken acts i <= taken acts' i /\ 0 <= paid acts i <= paid acts' i.
Proof. intros Hs Hin Hf Hi HA Hv. exact (monotone by_target fuel infuel os level A A' check sp Hs Hin Hf Hi HA (servable_full _ _ _ _ Hs Hv)). Qed.
Print Assumptions C162_monotone.
(** and its average price, what is paid in per unit taken out, is at least as high *)
Theorem C162_average fuel infuel os level by_target check sp A A' acts acts' :
  (forall i, usable os level i -> sane (nth i os (mkX 0 0 0 0))) -> (by_target = true -> forall i, In i level -> (i < length os)%nat) -> (length os < fuel)%nat -> (length os + 1 < infuel)%nat ->
  0 < A <= A' -> servable os level by_target A' ->
  exact_match fuel infuel os (request_of by_target A) by_target check level sp = Some (Ret acts) -> exact_match fuel infuel os (request_of by_target A') by_target check level sp = Some (Ret acts') ->
  let input l := fold_right Rplus 0 (map ac_input l) in let output l := - fold_right Rplus 0 (map ac_output l) in
  0 < output acts /\ 0 < output acts' /\ input acts / output acts <= input acts' / output acts'.
Proof.
  intros Hs Hin Hf Hi [HA HA'] Hv E E' input output. pose proof (servable_full _ _ _ _ Hs Hv) as Fl.
  assert (Pos : forall B l, 0 < B -> B <= A' -> exact_match fuel infuel os (request_of by_target B) by_target check level sp = Some (Ret l) -> 0 < output l).
  { intros B l P L X. destruct (matched by_target fuel infuel os level B check sp Hs Hin Hf Hi P ltac:(lra)) as (a & lam & v & Ea & Lm & V & Z & T & F). change (amount by_target B) with (request_of by_target B) in Ea. rewrite X in Ea. injection Ea as <-.
    destruct (sums _ _ _ _ _ _ _ _ _ _ X Z F) as [_ S2]. unfold output. rewrite S2. destruct by_target; [rewrite T; exact P|].
    apply (other_positive false os level v Hs); [|rewrite T; exact P]. intros i U. rewrite (V i U). apply clamp_bounds. apply Hs. exact U. }
  pose proof (Pos A acts HA HA' E) as O. pose proof (Pos A' acts' ltac:(lra) ltac:(lra) E') as O'. split; [exact O|]. split; [exact O'|].
  pose proof (average by_target fuel infuel os level A A' check sp acts acts' Hs Hin Hf Hi (conj HA HA') Fl E E') as K. fold (input acts) (input acts') (output acts) (output acts') in K.
  apply (Rmult_le_reg_r (output acts * output acts')); [apply Rmult_lt_0_compat; assumption|].
  replace (input acts / output acts * (output acts * output acts')) with (input acts * output acts') by (field; lra).
  replace (input acts' / output acts' * (output acts * output acts')) with (input acts' * output acts) by (field; lra). exact K.
Qed.
Print Assumptions C162_average.
(** the book of the example of C29 serves 1/2 and 1 *)
Example C162_ex : servable ExactProps.ex_book [] true 1 /\ servable ExactProps.ex_book [] true (1 / 2) /\ (forall i, usable ExactProps.ex_book [] i -> sane (nth i ExactProps.ex_book (mkX 0 0 0 0))) /\
  exists acts acts', exact_match 10 10 ExactProps.ex_book (request_of true (1 / 2)) true true [] false = Some (Ret acts) /\ exact_match 10 10 ExactProps.ex_book (request_of true 1) true true [] false = Some (Ret acts').
Proof.
  assert (S : servable ExactProps.ex_book [] true 1).
  { exists [0; 1]%nat, (fun _ => 1 / 2). split; [repeat constructor; cbn; intuition congruence|]. split; [|unfold total; cbn; lra].
    intros i [<-|[<-|[]]]; (split; [repeat split; [cbn; lia|left; reflexivity|cbn; lra]|cbn; lra]). }
  split; [exact S|]. split; [|split; [exact ex_all_sane|]].
  - destruct S as (l & t & N & U & T). exists l, t. split; [exact N|]. split; [exact U|]. lra.
  - destruct (C162_monotone 10 10 ExactProps.ex_book [] true true false (1 / 2) 1 ex_all_sane) as (a & a' & E & E' & _); [intros _ i []|cbn; lia|cbn; lia|lra|exact S|]. eauto.
Qed.
