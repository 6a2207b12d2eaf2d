From Coq Require Import ZArith Lia List Bool String.
From Verif Require Import SharedModel SharedSpec.
Import ListNotations.
Local Open Scope Z_scope.

Definition isbox (v : sv) : bool := match v with Num _ => false | Box _ => true end.

Lemma meaning_op o a b : op_int o a b = meaning o a b.
Proof. destruct o; reflexivity. Qed.
Lemma reflected_comm o a b : reflected_same o = true -> op_int o a b = op_int o b a.
Proof.
  destruct o; cbn; intros H; try discriminate; f_equal;
  [apply Z.add_comm|apply Z.mul_comm|apply Z.land_comm|apply Z.lor_comm|apply Z.lxor_comm].
Qed.

Lemma lop_ok o v a : match op_int o (number v) a with
  | Some r => exists t, lop o v a = Some t /\ number t = r /\ isbox t = isbox v
  | None => lop o v a = None end.
Proof.
  induction v as [b|v IH]; cbn [lop number].
  - destruct (op_int o b a) as [r|]; cbn; [exists (Num r); tauto|reflexivity].
  - destruct (op_int o (number v) a) as [r|]; cbn.
    + destruct IH as (t & -> & H & _). exists (Box t). cbn. tauto.
    + rewrite IH. reflexivity.
Qed.
Lemma rop_ok o a v : match op_int o a (number v) with
  | Some r => exists t, rop o a v = Some t /\ number t = r /\ isbox t = isbox v
  | None => rop o a v = None end.
Proof.
  induction v as [b|v IH]; cbn [rop number].
  - destruct (op_int o a b) as [r|]; cbn; [exists (Num r); tauto|reflexivity].
  - destruct (reflected_same o) eqn:E.
    + assert (G := lop_ok o v a). rewrite (reflected_comm o a (number v) E).
      destruct (op_int o (number v) a) as [r|].
      * destruct G as (t & -> & H & _). exists (Box t). cbn. tauto.
      * rewrite G. reflexivity.
    + destruct (op_int o a (number v)) as [r|]; cbn.
      * destruct IH as (t & -> & H & _). exists (Box t). cbn. tauto.
      * rewrite IH. reflexivity.
Qed.
Lemma bin_ok o v w : match op_int o (number v) (number w) with
  | Some r => exists t, bin o v w = Some t /\ number t = r /\ isbox t = isbox v || isbox w
  | None => bin o v w = None end.
Proof.
  induction v as [a|v IH]; cbn [bin number].
  - exact (rop_ok o a w).
  - destruct (op_int o (number v) (number w)) as [r|]; cbn.
    + destruct IH as (t & -> & H & _). exists (Box t). cbn. tauto.
    + rewrite IH. reflexivity.
Qed.
Lemma neg_ok v : number (neg v) = - number v /\ isbox (neg v) = isbox v.
Proof. induction v as [a|v [IH _]]; cbn; tauto. Qed.

Lemma replace_length n v h : List.length (replace n v h) = List.length h.
Proof. revert n. induction h as [|w h IH]; intros n; [destruct n; reflexivity|]. destruct n; cbn; [reflexivity|]. rewrite IH. reflexivity. Qed.
Lemma replace_nth n m v h : nth_error (replace n v h) m =
  if Nat.eqb n m then (match nth_error h m with Some _ => Some v | None => None end) else nth_error h m.
Proof.
  revert n m. induction h as [|w h IH]; intros n m; cbn [replace].
  - destruct n; destruct m; cbn; try reflexivity; destruct (Nat.eqb _ _); reflexivity.
  - destruct n, m; cbn; try reflexivity. apply IH.
Qed.

(** the model refines the reference semantics *)
Definition Rb (s : state) (b : option binding) (r : ref) : Prop :=
  match b with
  | None => r = RNone
  | Some (Plain z) => r = RInt z
  | Some (Obj l) => r = RCell l /\ (l < List.length (heap s))%nat
  end.
Definition Rel (s : state) (r : rstate) : Prop :=
  (forall x, Rb s (lookup x (env s)) (names r x)) /\
  (forall l v, nth_error (heap s) l = Some v -> cells r l = number v) /\
  fresh r = List.length (heap s).

Lemma nth_some {A} (h : list A) l : (l < List.length h)%nat -> exists v, nth_error h l = Some v.
Proof. intros H. apply nth_error_Some in H. destruct (nth_error h l); [eauto|congruence]. Qed.

Lemma tree_ok s r x : Rel s r ->
  match lookup x (env s) with
  | None => rvalue r x = None
  | Some b => exists t, tree s b = Some t /\ rvalue r x = Some (number t) /\
                isbox t = match names r x with RCell _ => true | _ => false end
  end.
Proof.
  intros (H1 & H2 & _). specialize (H1 x). unfold rvalue. destruct (lookup x (env s)) as [[z|l]|]; cbn in H1.
  - rewrite H1. exists (Num z). cbn. tauto.
  - destruct H1 as [-> Hl]. destruct (nth_some _ _ Hl) as [v Hv]. exists (Box v). cbn. rewrite Hv, (H2 _ _ Hv). tauto.
  - rewrite H1. reflexivity.
Qed.
Lemma operand_ok s r e : Rel s r ->
  match operand_tree s e with
  | None => rop_value r e = None
  | Some t => rop_value r e = Some (number t) /\ isbox t = is_cell r e
  end.
Proof.
  intros H. destruct e as [z|y]; cbn; [tauto|]. assert (G := tree_ok s r y H). destruct (lookup y (env s)) as [b|].
  - destruct G as (t & -> & G1 & G2). tauto.
  - exact G.
Qed.
Lemma read_ok s r x : Rel s r -> read s x = rvalue r x.
Proof.
  intros H. assert (G := tree_ok s r x H). unfold read. destruct (lookup x (env s)) as [b|]; [|congruence].
  destruct G as (t & -> & -> & _). reflexivity.
Qed.

Lemma bind_name_ok s r x b z : Rel s r -> Rb s (Some b) z -> Rel (bind_name x b s) (mkR (upd_name x z (names r)) (cells r) (fresh r)).
Proof.
  intros (H1 & H2 & H3) Hb. split; [|split]; cbn; [|exact H2|exact H3].
  intros y. unfold upd_name. cbn. destruct (String.eqb x y); [exact Hb|apply H1].
Qed.
Lemma bind_value_ok s r x v : Rel s r -> Rel (bind_value x v s) (put x (isbox v) (number v) r).
Proof.
  intros (H1 & H2 & H3). destruct v as [z|v]; cbn [bind_value isbox put number].
  - apply bind_name_ok; [split; [|split]; assumption|reflexivity].
  - split; [|split]; cbn.
    + intros y. unfold upd_name. cbn. destruct (String.eqb x y).
      * cbn. rewrite H3, app_length. cbn. split; [reflexivity|lia].
      * specialize (H1 y). destruct (lookup y (env s)) as [[z|l]|]; cbn in *; try exact H1.
        rewrite app_length. cbn. split; [tauto|lia].
    + intros l w Hw. unfold upd_cell. rewrite H3. destruct (Nat.eqb_spec (List.length (heap s)) l) as [<-|Hl].
      * rewrite nth_error_app2 in Hw by lia. rewrite Nat.sub_diag in Hw. cbn in Hw. congruence.
      * apply H2. destruct (Nat.lt_ge_cases l (List.length (heap s))) as [Hlt|Hge].
        -- rewrite nth_error_app1 in Hw by lia. exact Hw.
        -- assert (G : nth_error (heap s ++ [v]) l = None) by (apply nth_error_None; rewrite app_length; cbn; lia). congruence.
    + rewrite app_length, H3. cbn. lia.
Qed.
Lemma update_ok s r l v : Rel s r -> (l < List.length (heap s))%nat ->
  Rel (mkState (env s) (replace l v (heap s))) (mkR (names r) (upd_cell l (number v) (cells r)) (fresh r)).
Proof.
  intros (H1 & H2 & H3) Hl. split; [|split]; cbn.
  - intros x. specialize (H1 x). destruct (lookup x (env s)) as [[z|m]|]; cbn in *; try exact H1. rewrite replace_length. exact H1.
  - intros m w. rewrite replace_nth. unfold upd_cell. destruct (Nat.eqb_spec l m) as [<-|]; [|apply H2].
    destruct (nth_error (heap s) l); [congruence|discriminate].
  - rewrite replace_length. exact H3.
Qed.

Lemma step_ok s r c : Rel s r -> Rel (step s c) (rstep r c).
Proof.
  intros H. assert (HN := H). destruct HN as (H1 & H2 & H3).
  destruct c as [x z|x y|x z|x z|o x e|o x e e'|x e]; unfold step; cbn [exec rstep].
  - exact (bind_value_ok s r x (Box (Num z)) H).
  - specialize (H1 y). destruct (lookup y (env s)) as [[z|l]|]; cbn in H1.
    + rewrite H1. apply bind_name_ok; [exact H|reflexivity].
    + destruct H1 as [-> Hl]. apply bind_name_ok; [exact H|split; [reflexivity|exact Hl]].
    + rewrite H1. exact H.
  - exact (bind_value_ok s r x (Num z) H).
  - specialize (H1 x). destruct (lookup x (env s)) as [[z'|l]|]; cbn in H1.
    + rewrite H1. exact H.
    + destruct H1 as [-> Hl]. exact (update_ok s r l (Num z) H Hl).
    + rewrite H1. exact H.
  - specialize (H1 x). assert (Ho := operand_ok s r e H). destruct (lookup x (env s)) as [[a|l]|]; cbn in H1; unfold rvalue.
    + rewrite H1. destruct (operand_tree s e) as [w|]; [|rewrite Ho; exact H]. destruct Ho as [-> Hc].
      rewrite <- meaning_op. assert (G := bin_ok o (Num a) w). cbn [number isbox orb] in G.
      destruct (op_int o a (number w)) as [n|].
      * destruct G as (t & -> & Gn & Gb). cbn [option_map]. rewrite <- Hc, <- Gb, <- Gn. apply bind_value_ok. exact H.
      * rewrite G. exact H.
    + destruct H1 as [-> Hl]. destruct (nth_some _ _ Hl) as [c Hc]. rewrite Hc, (H2 _ _ Hc).
      destruct (operand_tree s e) as [w|]; [|rewrite Ho; exact H]. destruct Ho as [-> _].
      rewrite <- meaning_op. assert (G := bin_ok o c w). destruct (op_int o (number c) (number w)) as [n|].
      * destruct G as (t & -> & <- & _). apply update_ok; assumption.
      * rewrite G. exact H.
    + rewrite H1. exact H.
  - assert (Ho := operand_ok s r e H). assert (Ho' := operand_ok s r e' H).
    destruct (operand_tree s e) as [v|]; [|rewrite Ho; exact H]. destruct Ho as [-> Hc].
    destruct (operand_tree s e') as [w|]; [|rewrite Ho'; exact H]. destruct Ho' as [-> Hc'].
    rewrite <- meaning_op. assert (G := bin_ok o v w). destruct (op_int o (number v) (number w)) as [n|].
    + destruct G as (t & -> & <- & Gb). cbn [option_map]. rewrite <- Hc, <- Hc', <- Gb. apply bind_value_ok. exact H.
    + rewrite G. exact H.
  - assert (Ho := operand_ok s r e H). destruct (operand_tree s e) as [v|]; [|rewrite Ho; exact H]. destruct Ho as [-> Hc].
    cbn [option_map]. destruct (neg_ok v) as [N1 N2]. rewrite <- Hc, <- N2, <- N1. apply bind_value_ok. exact H.
Qed.

Lemma run_ok cs : Rel (run start cs) (rrun cs).
Proof.
  unfold run, rrun. assert (G : Rel start (mkR (fun _ => RNone) (fun _ => 0) 0)).
  { split; [|split]; cbn; [intros x; reflexivity|intros l v Hv; destruct l; discriminate|reflexivity]. }
  revert G. generalize start, (mkR (fun _ => RNone) (fun _ => 0) 0). induction cs as [|c cs IH]; intros s r G; [exact G|].
  cbn. apply IH, step_ok, G.
Qed.

(** states in which every name refers to an existing object *)
Definition wf (s : state) : Prop := forall x l, lookup x (env s) = Some (Obj l) -> (l < List.length (heap s))%nat.
Lemma run_wf cs : wf (run start cs).
Proof. intros x l H. destruct (run_ok cs) as (H1 & _). specialize (H1 x). rewrite H in H1. apply H1. Qed.

(** a statement changes the binding of a name only if it rebinds it *)
Lemma bind_value_lookup x y v s : y <> x -> lookup y (env (bind_value x v s)) = lookup y (env s).
Proof. intros H. destruct v; cbn; (destruct (String.eqb_spec x y); [congruence|reflexivity]). Qed.
Lemma step_binding s c x : ~ rebinds s x c -> lookup x (env (step s c)) = lookup x (env s).
Proof.
  destruct c as [y z|y w|y z|y z|o y e|o y e e'|y e]; unfold step; cbn [exec rebinds]; intros H.
  - apply bind_value_lookup. exact H.
  - destruct (lookup w (env s)); [|reflexivity]. cbn. destruct (String.eqb_spec y x); [congruence|reflexivity].
  - cbn. destruct (String.eqb_spec y x); [congruence|reflexivity].
  - destruct (lookup y (env s)) as [[|]|]; reflexivity.
  - destruct (lookup y (env s)) as [[a|l]|] eqn:E; [| |reflexivity].
    + destruct (operand_tree s e) as [w|]; [|reflexivity]. destruct (bin o (Num a) w); [|reflexivity]. cbn [option_map].
      apply bind_value_lookup. intros ->. apply H. eauto.
    + destruct (operand_tree s e) as [w|]; [|reflexivity]. destruct (nth_error (heap s) l) as [c|]; [|reflexivity].
      destruct (bin o c w); reflexivity.
  - destruct (operand_tree s e), (operand_tree s e'); try reflexivity. destruct (bin o s0 s1); [|reflexivity]. cbn [option_map].
    apply bind_value_lookup. exact H.
  - destruct (operand_tree s e); [|reflexivity]. cbn [option_map]. apply bind_value_lookup. exact H.
Qed.

Lemma read_linked s x y : linked s x y -> read s x = read s y.
Proof. intros (l & Hx & Hy). unfold read. rewrite Hx, Hy. reflexivity. Qed.

(** effect of changing one object *)
Lemma read_update s l v x : wf s -> read (mkState (env s) (replace l v (heap s))) x =
  match lookup x (env s) with
  | Some (Obj m) => if Nat.eqb l m then Some (number v) else read s x
  | _ => read s x
  end.
Proof.
  intros Hw. unfold read. cbn. destruct (lookup x (env s)) as [[z|m]|] eqn:E; cbn; try reflexivity.
  rewrite replace_nth. destruct (Nat.eqb_spec l m) as [<-|]; [|reflexivity].
  destruct (nth_some _ _ (Hw x _ E)) as [w ->]. reflexivity.
Qed.

(** plain contents *)
Definition all_plain (s : state) : Prop := forall l v, nth_error (heap s) l = Some v -> isbox v = false.
Definition content_plain (t : sv) : Prop := match t with Num _ => True | Box v => isbox v = false end.
Lemma lop_plain o v a t : lop o v a = Some t -> isbox v = false -> isbox t = false.
Proof. destruct v; [|discriminate]. cbn. destruct (op_int o z a); cbn; [|discriminate]. intros E _. injection E as <-. reflexivity. Qed.
Lemma rop_plain o a v t : rop o a v = Some t -> isbox v = false -> isbox t = false.
Proof. destruct v; [|discriminate]. cbn. destruct (op_int o a z); cbn; [|discriminate]. intros E _. injection E as <-. reflexivity. Qed.
Lemma bin_plain o v w t : bin o v w = Some t -> content_plain v -> content_plain w -> isbox v && isbox w = false -> content_plain t.
Proof.
  intros E Hv Hw Hb. destruct v as [a|v]; cbn [bin] in E.
  - destruct w as [b|w]; cbn [rop] in E.
    + destruct (op_int o a b); cbn in E; [injection E as <-; exact I|discriminate].
    + cbn in Hw. destruct (reflected_same o).
      * destruct (lop o w a) as [t'|] eqn:El; cbn in E; [injection E as <-|discriminate]. cbn. eapply lop_plain; eassumption.
      * destruct (rop o a w) as [t'|] eqn:El; cbn in E; [injection E as <-|discriminate]. cbn. eapply rop_plain; eassumption.
  - destruct w as [b|w]; [|discriminate Hb]. destruct v as [a|v]; [|discriminate Hv]. cbn in E.
    destruct (op_int o a b); cbn in E; [injection E as <-; reflexivity|discriminate].
Qed.
Lemma tree_plain s b t : all_plain s -> tree s b = Some t -> content_plain t.
Proof.
  intros H. destruct b as [z|l]; cbn; [intros E; injection E as <-; exact I|].
  destruct (nth_error (heap s) l) as [v|] eqn:Hv; cbn; [|discriminate]. intros E. injection E as <-. cbn. eapply H, Hv.
Qed.
Lemma operand_plain s e t : all_plain s -> operand_tree s e = Some t -> content_plain t /\ (isbox t = true <-> is_object s e).
Proof.
  intros H. destruct e as [z|y]; cbn.
  - intros E. injection E as <-. cbn. split; [exact I|]. split; [discriminate|tauto].
  - destruct (lookup y (env s)) as [b|]; [|discriminate]. intros E. split; [eapply tree_plain; eassumption|].
    destruct b as [z|l]; cbn in E.
    + injection E as <-. cbn. split; [discriminate|]. intros [l Hl]. discriminate.
    + destruct (nth_error (heap s) l); [|discriminate]. injection E as <-. cbn. split; [eauto|reflexivity].
Qed.
Lemma bind_value_plain s x v : all_plain s -> content_plain v -> all_plain (bind_value x v s).
Proof.
  intros H Hv. destruct v as [z|v]; cbn; [exact H|]. intros l w. cbn. intros Hw.
  destruct (Nat.lt_ge_cases l (List.length (heap s))) as [Hlt|Hge].
  - rewrite nth_error_app1 in Hw by lia. eapply H, Hw.
  - rewrite nth_error_app2 in Hw by lia. destruct (l - List.length (heap s))%nat as [|n]; cbn in Hw; [injection Hw as <-; exact Hv|].
    destruct n; discriminate.
Qed.
Lemma update_plain s l v : all_plain s -> isbox v = false -> all_plain (mkState (env s) (replace l v (heap s))).
Proof.
  intros H Hv m w. cbn. rewrite replace_nth. destruct (Nat.eqb l m); [|apply H].
  destruct (nth_error (heap s) m); [|discriminate]. intros E. injection E as <-. exact Hv.
Qed.

Lemma isbox_andb (P Q : Prop) (a b : bool) : (a = true <-> P) -> (b = true <-> Q) -> ~ (P /\ Q) -> a && b = false.
Proof. destruct a, b; intuition congruence. Qed.
Lemma step_plain s c : all_plain s -> ~ combines s c -> all_plain (step s c).
Proof.
  intros H Hc. destruct c as [x z|x y|x z|x z|o x e|o x e e'|x e]; unfold step; cbn [exec combines] in *.
  - apply bind_value_plain; [exact H|reflexivity].
  - destruct (lookup y (env s)); exact H.
  - exact H.
  - destruct (lookup x (env s)) as [[|l]|]; try exact H. apply update_plain; [exact H|reflexivity].
  - destruct (lookup x (env s)) as [[a|l]|] eqn:Ex; [| |exact H].
    + destruct (operand_tree s e) as [w|] eqn:Ee; [|exact H]. destruct (bin o (Num a) w) as [t|] eqn:Et; [|exact H]. cbn [option_map].
      apply bind_value_plain; [exact H|]. destruct (operand_plain s e w H Ee) as [Hw _].
      eapply bin_plain; [exact Et|exact I|exact Hw|reflexivity].
    + destruct (operand_tree s e) as [w|] eqn:Ee; [|exact H]. destruct (nth_error (heap s) l) as [v|] eqn:Ev; [|exact H].
      destruct (bin o v w) as [t|] eqn:Et; [|exact H]. apply update_plain; [exact H|].
      destruct (operand_plain s e w H Ee) as [Hw Hb]. assert (Hv := H _ _ Ev). destruct v as [a|]; [|discriminate].
      destruct w as [b|w]; [|exfalso; apply Hc; split; [cbn; rewrite Ex; eauto|apply Hb; reflexivity]].
      cbn in Et. destruct (op_int o a b); [|discriminate]. cbn in Et. injection Et as <-. reflexivity.
  - destruct (operand_tree s e) as [v|] eqn:Ee; [|exact H]. destruct (operand_tree s e') as [w|] eqn:Ee'; [|exact H].
    destruct (bin o v w) as [t|] eqn:Et; [|exact H]. cbn [option_map].
    destruct (operand_plain s e v H Ee) as [Hv Hb]. destruct (operand_plain s e' w H Ee') as [Hw Hb'].
    apply bind_value_plain; [exact H|]. eapply bin_plain; [exact Et|exact Hv|exact Hw|].
    eapply isbox_andb; eassumption.
  - destruct (operand_tree s e) as [v|] eqn:Ee; [|exact H]. cbn [option_map].
    destruct (operand_plain s e v H Ee) as [Hv Hb]. apply bind_value_plain; [exact H|].
    destruct v as [a|v]; cbn in *; [exact I|]. destruct (neg_ok v) as [_ ->]. exact Hv.
Qed.
