(** Trades carried out in parts (C161): carbon/routers/exact_base_router.py and
    exact_router_x0y0n.py, against carbon/routers/fast_router.py. *)
From Coq Require Import Reals Lra Lia Bool List Arith QArith.
From Verif Require Import CurveModel CurveProofs OrderModel ExactModel ExactSpec ExactProofs ExactProofs6 ExactProps SplitSpec SplitProofs SplitProofs2 SplitProofs3.
From Verif Require SimModel FastModel FastSpec FastProofs4.
Import ListNotations.
Local Open Scope R_scope.

(** ** C161 *)
(** however a trade that can be served is cut into parts, the book is left as by the whole
    trade, and each order has received the same *)
Theorem C161_parts fuel infuel os level by_target check sp As :
  (forall i, usable os level i -> sane (nth i os (mkX 0 0 0 0))) -> (by_target = true -> forall i, In i level -> (i < length os)%nat) -> (length os < fuel)%nat -> (length os + 1 < infuel)%nat ->
  As <> [] -> (forall A, In A As -> 0 < A) -> servable os level by_target (fold_right Rplus 0 As) ->
  exists acts, exact_match fuel infuel os (request_of by_target (fold_right Rplus 0 As)) by_target check level sp = Some (Ret acts) /\
    (exists cost, in_parts fuel infuel by_target check level sp os As (settled os acts) cost) /\
    forall os' cost, in_parts fuel infuel by_target check level sp os As os' cost -> os' = settled os acts /\ forall i, cost i = paid acts i.
Proof.
  intros Hs Hin Hf Hi Ne Hp Hv. apply (parts_of by_target check sp fuel infuel level As os); try assumption; [apply Forall_forall; exact Hp|].
  apply servable_full; assumption.
Qed.
Print Assumptions C161_parts.
(** two parts, order by order *)
Theorem C161_two fuel infuel os level by_target check sp A1 A2 :
  (forall i, usable os level i -> sane (nth i os (mkX 0 0 0 0))) -> (by_target = true -> forall i, In i level -> (i < length os)%nat) -> (length os < fuel)%nat -> (length os + 1 < infuel)%nat ->
  0 < A1 -> 0 < A2 -> servable os level by_target (A1 + A2) ->
  exists a1 a2 a, exact_match fuel infuel os (request_of by_target A1) by_target check level sp = Some (Ret a1) /\
    exact_match fuel infuel (settled os a1) (request_of by_target A2) by_target check level sp = Some (Ret a2) /\
    exact_match fuel infuel os (request_of by_target (A1 + A2)) by_target check level sp = Some (Ret a) /\
    forall i, taken a1 i + taken a2 i = taken a i /\ paid a1 i + paid a2 i = paid a i.
Proof.
  intros Hs Hin Hf Hi H1 H2 Hv. destruct (two_parts by_target check sp fuel infuel level os A1 A2 Hs Hin Hf Hi H1 H2 (servable_full _ _ _ _ Hs Hv)) as (a1 & a2 & a & E1 & E2 & E3 & _ & _ & F).
  exists a1, a2, a. auto.
Qed.
Print Assumptions C161_two.
(** after another part, a part costs at least as much and yields at most as much as before it *)
Theorem C161_later fuel infuel os level by_target check sp A1 A2 :
  (forall i, usable os level i -> sane (nth i os (mkX 0 0 0 0))) -> (by_target = true -> forall i, In i level -> (i < length os)%nat) -> (length os < fuel)%nat -> (length os + 1 < infuel)%nat ->
  0 < A1 -> 0 < A2 -> servable os level by_target (A1 + A2) ->
  exists a1 a2 a0, exact_match fuel infuel os (request_of by_target A1) by_target check level sp = Some (Ret a1) /\
    exact_match fuel infuel (settled os a1) (request_of by_target A2) by_target check level sp = Some (Ret a2) /\
    exact_match fuel infuel os (request_of by_target A2) by_target check level sp = Some (Ret a0) /\
    fold_right Rplus 0 (map ac_input a0) <= fold_right Rplus 0 (map ac_input a2) /\ - fold_right Rplus 0 (map ac_output a2) <= - fold_right Rplus 0 (map ac_output a0).
Proof. intros Hs Hin Hf Hi H1 H2 Hv. exact (later_parts by_target fuel infuel os level A1 A2 check sp Hs Hin Hf Hi H1 H2 (servable_full _ _ _ _ Hs Hv)). Qed.
Print Assumptions C161_later.
(** the curve the router reads from an order does not depend on its balance *)
Theorem C161_balance o u v : view o = Ret v -> view (mkOrder (o_B o) (o_S o) (o_yint o) (o_phigh o) (o_plow o) u (o_adj o)) = Ret (with_balance v u).
Proof.
  unfold view. change (o_n (mkOrder (o_B o) (o_S o) (o_yint o) (o_phigh o) (o_plow o) u (o_adj o))) with (o_n o).
  change (o_x0 (mkOrder (o_B o) (o_S o) (o_yint o) (o_phigh o) (o_plow o) u (o_adj o))) with (o_x0 o). change (o_y0 (mkOrder (o_B o) (o_S o) (o_yint o) (o_phigh o) (o_plow o) u (o_adj o))) with (o_y0 o).
  destruct (o_n o); [|discriminate]. cbn [rbind]. destruct (o_x0 o); [|discriminate]. cbn [rbind]. destruct (o_y0 o); [|discriminate]. cbn [rbind]. intros [= <-]. reflexivity.
Qed.
Print Assumptions C161_balance.
(** the book of the example of C29 can serve 1/2 and then another 1/2 *)
Example C161_ex : servable ExactProps.ex_book [] true (fold_right Rplus 0 [1 / 2; 1 / 2]) /\ (forall i, usable ExactProps.ex_book [] i -> sane (nth i ExactProps.ex_book (mkX 0 0 0 0))) /\
  exists os' cost, in_parts 10 10 true true [] false ExactProps.ex_book [1 / 2; 1 / 2] os' cost.
Proof.
  assert (S : servable ExactProps.ex_book [] true (fold_right Rplus 0 [1 / 2; 1 / 2])).
  { exists [0; 1]%nat, (fun _ => 1 / 2). split; [repeat constructor; cbn; intuition congruence|]. split; [|unfold total; cbn; lra].
    intros i [<-|[<-|[]]]; (split; [repeat split; [cbn; lia|left; reflexivity|cbn; lra]|cbn; lra]). }
  split; [exact S|]. split; [exact ex_all_sane|].
  destruct (C161_parts 10 10 ExactProps.ex_book [] true true false [1 / 2; 1 / 2] ex_all_sane) as (a & _ & (c & K) & _); [intros _ i []|cbn; lia|cbn; lia|discriminate|intros A [<-|[<-|[]]]; lra|exact S|]. eauto.
Qed.

(** ** The fast router serves parts differently *)
Import FastModel FastSpec FastProofs4.
Local Open Scope Q_scope.
(** taking 10 of two equal orders at once costs 5, in two halves 10/3: the first order is
    emptied although the second has become cheaper *)
Theorem C161_fast_refuted : exists sort o o', perm_sort sort /\ good_order o /\ good_order o' /\ fo_y o' == fo_y o - 5 /\ fo_z o' = fo_z o /\ fo_A o' = fo_A o /\ fo_B o' = fo_B o /\
  (exists r, match_by_target sort false [o; o] 10 = Some r /\ map (fun x => (SimModel.rt_index x, Qred (SimModel.rt_input x), Qred (SimModel.rt_output x))) r = [(0%nat, 10, 5)]) /\
  (exists r, match_by_target sort false [o; o] 5 = Some r /\ map (fun x => (SimModel.rt_index x, Qred (SimModel.rt_input x), Qred (SimModel.rt_output x))) r = [(0%nat, 5, 5 # 3)]) /\
  (exists r, match_by_target sort false [o'; o] 5 = Some r /\ map (fun x => (SimModel.rt_index x, Qred (SimModel.rt_input x), Qred (SimModel.rt_output x))) r = [(1%nat, 5, 5 # 3)]).
Proof.
  exists isort, (mkForder 10 10 1 1), (mkForder 5 10 1 1). split; [exact isort_perm|]. split; [repeat split; discriminate|]. split; [repeat split; discriminate|].
  repeat (split; [reflexivity|]). split; [|split]; (eexists; split; [vm_compute; reflexivity|vm_compute; reflexivity]).
Qed.
Print Assumptions C161_fast_refuted.
