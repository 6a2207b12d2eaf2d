(** C58: shared variables (carbon/helpers/sharedvar.py). *)
From Coq Require Import ZArith Lia List Bool String.
From Verif Require Import SharedModel SharedSpec SharedProofs.
Import ListNotations.
Local Open Scope Z_scope.

(** For every program, of any length and with any number of names, every name stands for
    the number it has in the reference semantics of shared mutable integers, and two names
    share an object exactly if they share a cell there. *)
Theorem C58_reference : forall cs x y,
  read (run start cs) x = rvalue (rrun cs) x /\
  (linked (run start cs) x y <-> exists n, names (rrun cs) x = RCell n /\ names (rrun cs) y = RCell n).
Proof.
  intros cs x y. assert (H := run_ok cs). split; [apply read_ok; exact H|].
  destruct H as (H1 & _). assert (Hx := H1 x). assert (Hy := H1 y). unfold linked. split.
  - intros (l & Ex & Ey). rewrite Ex in Hx. rewrite Ey in Hy. cbn in Hx, Hy. exists l. tauto.
  - intros (n & Ex & Ey). rewrite Ex in Hx. rewrite Ey in Hy.
    destruct (lookup x (env (run start cs))) as [[z|l]|]; cbn in Hx; try discriminate Hx.
    destruct (lookup y (env (run start cs))) as [[z|m]|]; cbn in Hy; try discriminate Hy.
    destruct Hx as [Hx _]. destruct Hy as [Hy _]. exists n. split; congruence.
Qed.

(** Setting the value through one name is seen through every name linked to it and through
    no other. *)
Theorem C58_setval : forall cs x z, let s := run start cs in let s' := run start (cs ++ [SetVal x z]) in
  (forall y, linked s x y -> read s' y = Some z /\ linked s' x y) /\
  (forall y, ~ linked s x y -> read s' y = read s y).
Proof.
  intros cs x z s s'. assert (Hs : s' = step s (SetVal x z)) by (unfold s', run; rewrite fold_left_app; reflexivity).
  assert (Hw : wf s) by apply run_wf. rewrite Hs. unfold step. cbn [exec]. split.
  - intros y (l & Ex & Ey). rewrite Ex. rewrite read_update, Ey, Nat.eqb_refl by exact Hw.
    split; [reflexivity|]. exists l. tauto.
  - intros y Hl. destruct (lookup x (env s)) as [[|l]|] eqn:Ex; try reflexivity. rewrite read_update by exact Hw.
    destruct (lookup y (env s)) as [[|m]|] eqn:Ey; try reflexivity. destruct (Nat.eqb_spec l m) as [->|]; [|reflexivity].
    exfalso. apply Hl. exists m. tauto.
Qed.

(** The same for an in-place operation on a shared variable: all linked names see the
    result, all stay linked, no other name changes. *)
Theorem C58_inplace : forall cs o x e a b r, let s := run start cs in let s' := run start (cs ++ [Inplace o x e]) in
  is_object s (Var x) -> read s x = Some a ->
  (match e with Const z => Some z | Var y => read s y end) = Some b -> meaning o a b = Some r ->
  (forall y, linked s x y -> read s' y = Some r /\ linked s' x y) /\
  (forall y, ~ linked s x y -> read s' y = read s y).
Proof.
  intros cs o x e a b r s s' [l Ex] Ha Hb Hr.
  assert (Hs : s' = step s (Inplace o x e)) by (unfold s', run; rewrite fold_left_app; reflexivity).
  assert (Hw : wf s) by apply run_wf. rewrite Hs. unfold step. cbn [exec]. rewrite Ex.
  destruct (nth_some _ _ (Hw x l Ex)) as [c Hc]. rewrite Hc.
  assert (Na : number c = a). { unfold read in Ha. rewrite Ex in Ha. cbn in Ha. rewrite Hc in Ha. cbn in Ha. congruence. }
  assert (Hw' : exists w, operand_tree s e = Some w /\ number w = b).
  { destruct e as [z|y]; cbn in *; [exists (Num z); split; [reflexivity|cbn; congruence]|].
    unfold read in Hb. destruct (lookup y (env s)) as [bb|]; [|discriminate]. destruct (tree s bb) as [t|]; [|discriminate].
    cbn in Hb. exists t. split; congruence. }
  destruct Hw' as (w & -> & Nb). assert (G := bin_ok o c w). rewrite Na, Nb, meaning_op, Hr in G.
  destruct G as (t & -> & Nt & _). split.
  - intros y (m & Ex' & Ey). assert (m = l) by congruence. subst m. rewrite read_update, Ey, Nat.eqb_refl by exact Hw.
    split; [congruence|]. exists l. tauto.
  - intros y Hl. rewrite read_update by exact Hw.
    destruct (lookup y (env s)) as [[|m]|] eqn:Ey; try reflexivity. destruct (Nat.eqb_spec l m) as [->|]; [|reflexivity].
    exfalso. apply Hl. exists m. tauto.
Qed.

(** Linked names stay linked, and read the same, as long as neither of them is rebound. *)
Theorem C58_linked_forever : forall cs cs' x y, linked (run start cs) x y ->
  (forall c1 c c2, cs' = c1 ++ c :: c2 -> ~ rebinds (run start (cs ++ c1)) x c /\ ~ rebinds (run start (cs ++ c1)) y c) ->
  linked (run start (cs ++ cs')) x y /\ read (run start (cs ++ cs')) x = read (run start (cs ++ cs')) y.
Proof.
  intros cs cs' x y H Hr. assert (G : linked (run start (cs ++ cs')) x y); [|split; [exact G|apply read_linked; exact G]].
  induction cs' as [|c cs' IH] using rev_ind; [rewrite app_nil_r; exact H|].
  rewrite app_assoc. unfold run. rewrite fold_left_app. cbn. change (fold_left step (cs ++ cs') start) with (run start (cs ++ cs')).
  destruct (Hr cs' c [] eq_refl) as [Hx Hy].
  destruct IH as (l & Ex & Ey). { intros c1 c0 c2 ->. apply (Hr c1 c0 (c2 ++ [c])). rewrite <- app_assoc. reflexivity. }
  exists l. rewrite !step_binding by assumption. tauto.
Qed.

(** Assigning a number to a name breaks its link and changes no other name. *)
Theorem C58_assign_breaks : forall cs x z, let s := run start cs in let s' := run start (cs ++ [Assign x z]) in
  read s' x = Some z /\ (forall y, ~ linked s' x y) /\ (forall y, y <> x -> read s' y = read s y).
Proof.
  intros cs x z s s'. assert (Hs : s' = step s (Assign x z)) by (unfold s', run; rewrite fold_left_app; reflexivity).
  rewrite Hs. unfold step, read. cbn. rewrite String.eqb_refl. split; [reflexivity|]. split.
  - intros y (l & Hl & _). cbn in Hl. rewrite String.eqb_refl in Hl. discriminate.
  - intros y Hy. destruct (String.eqb_spec x y); [congruence|reflexivity].
Qed.

(** As long as no two shared variables are combined by an operation, the attribute .value
    of every shared variable is a plain number. *)
Theorem C58_value_plain : forall cs x v,
  (forall c1 c c2, cs = c1 ++ c :: c2 -> ~ combines (run start c1) c) ->
  value (run start cs) x = Some v -> exists z, v = Num z.
Proof.
  intros cs x v Hc Hv.
  assert (G : all_plain (run start cs)).
  { induction cs as [|c cs IH] using rev_ind; [intros l w Hw; destruct l; discriminate|].
    unfold run. rewrite fold_left_app. cbn. change (fold_left step cs start) with (run start cs).
    assert (G : all_plain (run start cs)).
    { clear Hv. assert (Hc' : forall c1 c0 c2, cs = c1 ++ c0 :: c2 -> ~ combines (run start c1) c0).
      { intros c1 c0 c2 ->. apply (Hc c1 c0 (c2 ++ [c])). rewrite <- app_assoc. reflexivity. }
      clear IH Hc. induction cs as [|c' cs IH] using rev_ind; [intros l w Hw; destruct l; discriminate|].
      unfold run. rewrite fold_left_app. cbn. change (fold_left step cs start) with (run start cs).
      apply step_plain; [|apply (Hc' cs c' []); reflexivity].
      apply IH. intros c1 c0 c2 ->. apply (Hc' c1 c0 (c2 ++ [c'])). rewrite <- app_assoc. reflexivity. }
    apply step_plain; [exact G|]. apply (Hc cs c []). reflexivity. }
  unfold value in Hv. destruct (lookup x (env (run start cs))) as [[|l]|]; try discriminate.
  apply G in Hv. destruct v as [z|]; [eauto|discriminate].
Qed.

(** Combining two shared variables in place puts a shared variable inside the other. *)
Theorem C58_value_nested : forall cs o x y s', let s := run start cs in
  is_object s (Var x) -> is_object s (Var y) -> exec s (Inplace o x (Var y)) = Some s' ->
  exists v, value s' x = Some (Box v).
Proof.
  intros cs o x y s' s [l Ex] [m Ey] H. assert (Hw : wf s) by apply run_wf.
  cbn [exec operand_tree] in H. rewrite Ex, Ey in H. cbn [tree] in H.
  destruct (nth_some _ _ (Hw y m Ey)) as [w Hwm]. rewrite Hwm in H. cbn [option_map] in H.
  destruct (nth_some _ _ (Hw x l Ex)) as [c Hc]. rewrite Hc in H.
  assert (G := bin_ok o c (Box w)). destruct (op_int o (number c) (number (Box w))).
  - destruct G as (t & Et & _ & Hb). rewrite Et in H. injection H as <-. unfold value. cbn. rewrite Ex, replace_nth, Nat.eqb_refl, Hc.
    cbn [isbox] in Hb. rewrite orb_true_r in Hb. destruct t as [|t]; [discriminate|]. eauto.
  - rewrite G in H. discriminate.
Qed.
Theorem C58_value_plain_refuted : exists cs x v, value (run start cs) x = Some (Box v).
Proof.
  exists [New "x" 5; New "y" 3; Inplace OAdd "x" (Var "y")], "x"%string, (Num 8). reflexivity.
Qed.

(** the example in the documentation of the class *)
Example C58_ex : let cs1 := [New "y" 5; Alias "x" "y"; Inplace OAdd "y" (Const 1)] in
  let cs2 := cs1 ++ [SetVal "x" (-1)] in let cs3 := cs2 ++ [Assign "y" 2] in
  read (run start cs1) "x" = Some 6 /\ read (run start cs1) "y" = Some 6 /\ linked (run start cs1) "x" "y" /\
  read (run start cs2) "x" = Some (-1) /\ read (run start cs2) "y" = Some (-1) /\
  read (run start cs3) "x" = Some (-1) /\ read (run start cs3) "y" = Some 2.
Proof. repeat split; try reflexivity. exists 0%nat. split; reflexivity. Qed.
(* x += y, twice, and z = x - y: numbers as expected, contents nested *)
Example C58_ex_nested : let s := run start [New "x" 5; New "y" 3; Inplace OAdd "x" (Var "y"); Inplace OAdd "x" (Var "y");
    Compute OSub "z" (Var "x") (Var "y")] in
  read s "x" = Some 11 /\ read s "z" = Some 8 /\ value s "x" = Some (Box (Box (Num 11))).
Proof. repeat split. Qed.

Print Assumptions C58_reference. Print Assumptions C58_setval. Print Assumptions C58_inplace. Print Assumptions C58_linked_forever.
Print Assumptions C58_assign_breaks. Print Assumptions C58_value_plain. Print Assumptions C58_value_nested. Print Assumptions C58_value_plain_refuted.
