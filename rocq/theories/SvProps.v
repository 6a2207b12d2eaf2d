(** C168: comparisons, rounding, conversions and copies of shared variables
    (carbon/helpers/sharedvar.py). *)
From Coq Require Import ZArith QArith Qround Qabs PeanoNat List Bool Lqa.
From Verif Require Import SvModel SvProofs.
Import ListNotations.
Local Open Scope Q_scope.

(** shared variables compare with numbers and with each other as the numbers they stand for do *)
Theorem C168_compare : forall v w, let a := val (number v) in let b := val (number w) in
  (sv_rel Lt v w = true <-> a < b) /\ (sv_rel Le v w = true <-> a <= b) /\ (sv_rel Gt v w = true <-> b < a) /\ (sv_rel Ge v w = true <-> b <= a) /\
  (sv_rel Eq v w = true <-> a == b) /\ (sv_ne v w = true <-> ~ a == b).
Proof.
  intros v w a b. rewrite !sv_rel_number, sv_ne_number. cbn [num_rel]. split; [apply negb_le|]. split; [apply Qle_bool_iff|]. split; [apply negb_le|]. split; [apply Qle_bool_iff|]. split; [apply Qeq_bool_iff|].
  fold a b. rewrite <- Qeq_bool_iff. destruct (Qeq_bool a b); cbn; split; congruence.
Qed.
(** rounding operations give shared variables nested like the operand, with the integer, or the
    decimal number with [d] digits, that the operation means; ties of round go to the even digit *)
Fixpoint depth (v : sv) : nat := match v with Num _ => 0 | Box v => S (depth v) end.
Theorem C168_unary : forall u v, depth (unary_op u v) = depth v /\ let a := val (number v) in let r := number (unary_op u v) in
  match u with
  | UAbs => val r == Qabs a
  | UFloor => exists z, r = I z /\ inject_Z z <= a < inject_Z z + 1
  | UCeil => exists z, r = I z /\ inject_Z z - 1 < a <= inject_Z z
  | UTrunc => exists z, r = I z /\ (0 <= a -> inject_Z z <= a < inject_Z z + 1) /\ (a <= 0 -> inject_Z z - 1 < a <= inject_Z z)
  | URound d => exists k, val r == inject_Z k * (10 ^ (- d)) /\ Qabs (a - val r) <= (1 # 2) * (10 ^ (- d)) /\ (Qabs (a - val r) == (1 # 2) * (10 ^ (- d)) -> Z.even k = true)
  end.
Proof.
  intros u v. split.
  - unfold unary_op. induction v as [n|v IH]; [reflexivity|]. cbn [sv_map depth]. f_equal. exact IH.
  - cbv zeta. unfold unary_op. rewrite number_map. generalize (number v) as n. clear v. intros n. destruct u as [| | | |d]; cbn [on_num].
    + destruct n as [z|q]; cbn [num_abs val]; [reflexivity|]. destruct (Qle_bool 0 q) eqn:E.
      * apply Qle_bool_iff in E. rewrite Qabs_pos by exact E. reflexivity.
      * rewrite Qabs_neg; [reflexivity|]. apply Qlt_le_weak, Qnot_le_lt. intros H. apply Qle_bool_iff in H. congruence.
    + destruct n as [z|q]; cbn [num_floor val]; eexists; (split; [reflexivity|]); [lra|]. pose proof (Qfloor_le q). pose proof (Qlt_floor q) as B. rewrite inject_Z_plus in B. change (inject_Z 1) with 1 in B. lra.
    + destruct n as [z|q]; cbn [num_ceil val]; eexists; (split; [reflexivity|]); [lra|]. pose proof (Qle_ceiling q). pose proof (Qceiling_lt q) as B. unfold Z.sub in B. rewrite inject_Z_plus in B. change (inject_Z (- (1))) with (-1) in B. lra.
    + eexists. split; [reflexivity|]. apply truncate_spec.
    + apply round_spec.
Qed.
(** as an index a shared variable is cut off towards zero, whatever it holds *)
Theorem C168_index : forall v, let a := val (number v) in
  (0 <= a -> inject_Z (index v) <= a < inject_Z (index v) + 1) /\ (a <= 0 -> inject_Z (index v) - 1 < a <= inject_Z (index v)).
Proof. intros v. apply truncate_spec. Qed.
(** so, unlike for floats, an index need not be the value itself *)
Theorem C168_index_exact_refuted : exists v, ~ val (number v) == inject_Z (index v).
Proof. exists (Box (Num (F (27 # 10)))). intros H. discriminate. Qed.
(** the copy [+x] of a variable that holds a number stays independent: later additions to
    the copy do not show in [x], nor those to [x] in the copy *)
Theorem C168_copy_plain : forall h x a, nth_error h x = Some (CNum a) ->
  exists h1 z, pos h x = Some (h1, z) /\ (forall y b, holds h y b -> y <> z /\ holds h1 y b) /\ holds h1 z a /\
  forall fuel n, (forall h2, add_num fuel h1 z n = Some h2 -> holds h2 z (num_add a n) /\ forall y b, holds h y b -> holds h2 y b) /\
                 (forall h2, add_num fuel h1 x n = Some h2 -> holds h2 x (num_add a n) /\ holds h2 z a).
Proof.
  intros h x a H. unfold pos. rewrite H. exists (h ++ [CNum a]), (List.length h). split; [reflexivity|].
  assert (Z : ends (h ++ [CNum a]) (List.length h) (List.length h)) by (econstructor; apply nth_last).
  assert (HZ : holds (h ++ [CNum a]) (List.length h) a) by (constructor; apply nth_last).
  assert (X : ends h x x) by (econstructor; exact H). assert (LX : (x < List.length h)%nat) by (apply (ends_lt h x x X)).
  split; [|split; [exact HZ|]].
  - intros y b Y. split; [|apply holds_app, Y]. apply ends_holds in Y. destruct Y as (e & E & _). apply ends_lt in E. destruct E. intros ->. apply (Nat.lt_irrefl _ H0).
  - intros fuel n. split.
    + intros h2 A. split; [apply (proj1 (add_num_reads _ _ _ _ _ _ _ A HZ) (List.length h)); exact Z|].
      intros y b Y. pose proof (holds_app h [CNum a] y b Y) as Y'. apply ends_holds in Y. destruct Y as (e & E & V). apply (proj2 (add_num_reads _ _ _ _ _ _ _ A Y') (List.length h) e); [exact Z|apply ends_app, E|].
      intros E0. subst e. apply ends_lt in E. destruct E as [_ E]. apply (Nat.lt_irrefl _ E).
    + intros h2 A. pose proof (holds_app h [CNum a] x a (holds_num _ _ _ H)) as HX. pose proof (ends_app h [CNum a] x x X) as EX. split.
      * apply (proj1 (add_num_reads _ _ _ _ _ _ _ A HX) x); exact EX.
      * apply (proj2 (add_num_reads _ _ _ _ _ _ _ A HZ) x (List.length h)); [exact EX|exact Z|]. intros E. subst x. apply (Nat.lt_irrefl _ LX).
Qed.
(** the copy of a variable that holds an inner variable does not: what is added to the copy
    in place is added to [x] as well, and the other way round *)
Theorem C168_copy_nested : forall h x i a, nth_error h x = Some (CRef i) -> holds h x a ->
  exists h1 z, pos h x = Some (h1, z) /\ z <> x /\ holds h1 z a /\
  forall fuel n w h2, (w = z \/ w = x) -> add_num fuel h1 w n = Some h2 -> holds h2 z (num_add a n) /\ holds h2 x (num_add a n).
Proof.
  intros h x i a H Hx. unfold pos. rewrite H. exists (h ++ [CRef i]), (List.length h). split; [reflexivity|].
  pose proof (holds_app h [CRef i] x a Hx) as X1. apply ends_holds in Hx. destruct Hx as (e & E & V). pose proof (ends_app h [CRef i] x e E) as E1.
  inversion E as [? b E'|? j ? E' Ei]; subst; rewrite H in E'; [discriminate|]. injection E' as <-. pose proof (ends_app h [CRef i] i e Ei) as Ei1.
  assert (EZ : ends (h ++ [CRef i]) (List.length h) e) by (econstructor 2; [apply nth_last|exact Ei1]).
  assert (HZ : holds (h ++ [CRef i]) (List.length h) a).
  { apply ends_holds. exists e. split; [exact EZ|]. rewrite nth_error_app1; [exact V|]. apply (ends_lt h x e E). }
  split; [intros C; apply ends_lt in E; destruct E as [L _]; subst x; apply (Nat.lt_irrefl _ L)|]. split; [exact HZ|].
  intros fuel n w h2 [->| ->] A; (split; [apply (proj1 (add_num_reads _ _ _ _ _ _ _ A HZ) e)|apply (proj1 (add_num_reads _ _ _ _ _ _ _ A X1) e)]); assumption.
Qed.
(** inner variables come from adding one shared variable to another in place; the value is the sum *)
Theorem C168_inner : forall fuel h x y m v h', nth_error h x = Some (CNum m) -> holds h y v -> add_var fuel h x y = Some h' ->
  exists i s, nth_error h' x = Some (CRef i) /\ (List.length h <= i)%nat /\ holds h' x s /\ val s == val m + val v.
Proof.
  intros fuel h x y m v h' X Y A. destruct (add_var_plain _ _ _ _ _ _ _ X Y A) as (i & B & C & D). exists i, (num_add v m). split; [exact B|]. split; [exact C|]. split; [exact D|].
  rewrite val_add. ring.
Qed.
(** a program: x = SharedVar(5); y = SharedVar(3); x += y; z = +x; z += 1 gives x == z == 9 *)
Example C168_ex : exists h1 h2 h3 z, add_var 1000 (fst (new (fst (new [] (I 5))) (I 3))) 0 1 = Some h1 /\ pos h1 0 = Some (h2, z) /\ z <> 0%nat /\ add_num 1000 h2 z (I 1) = Some h3 /\
  holds h3 z (I 9) /\ holds h3 0 (I 9) /\ holds h3 1 (I 3).
Proof.
  eexists _, _, _, _. split; [reflexivity|]. split; [reflexivity|]. split; [discriminate|]. split; [reflexivity|].
  split; [eapply holds_ref; [reflexivity|]; constructor; reflexivity|]. split; [eapply holds_ref; [reflexivity|]; constructor; reflexivity|constructor; reflexivity].
Qed.
Example C168_compare_ex : sv_rel Lt (Box (Box (Num (I 2)))) (Box (Num (F (5 # 2)))) = true /\ sv_ne (Num (I 2)) (Box (Num (F 2))) = false /\
  unary_op (URound 1) (Box (Num (F (25 # 100)))) = Box (Num (F (inject_Z 2 * (10 ^ (-1))))) /\ index (Box (Num (F (-27 # 10)))) = (-2)%Z.
Proof. repeat split. Qed.

Print Assumptions C168_compare.
Print Assumptions C168_unary.
Print Assumptions C168_index.
Print Assumptions C168_index_exact_refuted.
Print Assumptions C168_copy_plain.
Print Assumptions C168_copy_nested.
Print Assumptions C168_inner.
