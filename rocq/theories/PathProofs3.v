(** The window of a stored series *)
From Coq Require Import Reals ZArith List Bool String Lra Lia Sorting.Sorted.
From Verif Require Import PairModel PairProofs CurveModel CurveProofs PathModel PathSpec.
From Verif Require SdkModel SdkSpec SdkProofs3.
Import ListNotations.
Local Open Scope R_scope.

Definition le_t (a b : R * list R) : Prop := fst a <= fst b.
Lemma filter_sorted f (l : list (R * list R)) : StronglySorted le_t l -> StronglySorted le_t (filter f l).
Proof.
  induction 1 as [|a l S IH F]; [constructor|]. cbn. destruct (f a); [|exact IH]. constructor; [exact IH|]. apply Forall_forall. intros x X. apply filter_In in X as [X _]. rewrite Forall_forall in F. apply F, X.
Qed.
Lemma sorted_first l r0 : StronglySorted le_t l -> In r0 l -> (forall r, In r l -> fst r0 <= fst r) -> first_ts l = Ret (fst r0).
Proof.
  intros S I H. destruct l as [|a l]; [destruct I|]. cbn. f_equal. inversion S as [|? ? _ F]; subst. rewrite Forall_forall in F. apply Rle_antisym; [|apply H; left; reflexivity]. destruct I as [<-|I]; [lra|apply F, I].
Qed.
Lemma last_max l : StronglySorted le_t l -> forall r d, In r l -> fst r <= fst (last l d).
Proof.
  induction 1 as [|a l S IH F]; intros r d I; [destruct I|]. destruct l as [|b l]; [destruct I as [<-|[]]; cbn; lra|]. change (last (a :: b :: l) d) with (last (b :: l) d). destruct I as [<-|I]; [|apply IH, I].
  rewrite Forall_forall in F. apply F. rewrite (app_removelast_last d (l := b :: l)) at 2 by discriminate. apply in_or_app. right. left. reflexivity.
Qed.
Lemma last_In {A} (l : list A) d : l <> [] -> In (last l d) l.
Proof. intros N. rewrite (app_removelast_last d N) at 2. apply in_or_app. right. left. reflexivity. Qed.
Lemma sorted_last l r1 : StronglySorted le_t l -> In r1 l -> (forall r, In r l -> fst r <= fst r1) -> last_ts l = Ret (fst r1).
Proof.
  intros S I H. destruct l as [|a l]; [destruct I|]. unfold last_ts. f_equal. apply Rle_antisym; [apply H, last_In; discriminate|apply last_max; assumption].
Qed.
Lemma window_spec rows r0 r1 from_ts from_pc days pc : StronglySorted le_t rows -> In r0 rows -> In r1 rows -> (forall r, In r rows -> fst r0 <= fst r <= fst r1) -> (from_ts = None \/ from_pc = None) -> (days = None \/ pc = None) ->
  let lo := win_from (fst r0) (fst r1) from_ts from_pc in window rows from_ts from_pc days pc = Ret (lo, win_to (fst r0) (fst r1) lo days pc).
Proof.
  intros S I0 I1 H Nf Np. assert (A : first_ts rows = Ret (fst r0)) by (apply sorted_first; try assumption; intros r R; apply H, R). assert (B : last_ts rows = Ret (fst r1)) by (apply sorted_last; try assumption; intros r R; apply H, R).
  assert (M : forall t, (if rlt t (fst r0) then fst r0 else t) = Rmax (fst r0) t). { intros t. unfold rlt, Rmax. destruct (Rlt_dec t (fst r0)); destruct (Rle_dec (fst r0) t); lra. }
  unfold window. rewrite A, B. unfold win_from, win_to. destruct from_ts as [t|], from_pc as [u|]; try (destruct Nf; discriminate); destruct days as [d|], pc as [v|]; try (destruct Np; discriminate); cbn [rbind]; rewrite ?M; reflexivity.
Qed.
Lemma window_errors rows from_ts from_pc days pc : (days <> None -> pc <> None -> window rows from_ts from_pc days pc = Raise ValueError) /\
  (rows <> [] -> from_ts <> None -> from_pc <> None -> window rows from_ts from_pc days pc = Raise ValueError) /\ window [] from_ts from_pc days pc = Raise (match days, pc, from_ts, from_pc with Some _, Some _, _, _ => ValueError | _, None, Some _, Some _ => ValueError | _, _, _, _ => IndexError end).
Proof.
  unfold window. split; [|split].
  - intros A B. destruct days, pc; try contradiction. reflexivity.
  - intros N A B. destruct from_ts, from_pc; try contradiction. destruct rows as [|row rows]; [contradiction|]. cbn [first_ts last_ts rbind]. destruct days, pc; reflexivity.
  - destruct days, pc, from_ts, from_pc; reflexivity.
Qed.
Lemma two_filters (rows : list (R * list R)) lo hi m : filter (fun r => rle lo (fst r) && rle (fst r) hi) (match m with None => rows | Some m => filter (fun r => rle m (fst r)) rows end) = filter (fun r => between lo hi m (fst r)) rows.
Proof.
  destruct m as [m|]; [|apply filter_ext; intros r; unfold between, rle; destruct (Rle_dec lo (fst r)), (Rle_dec (fst r) hi); reflexivity]. induction rows as [|a rows IH]; [reflexivity|]. cbn [filter]. unfold between at 1, rle at 3.
  destruct (Rle_dec m (fst a)); cbn [filter]; [|cbn [andb]; exact IH]. rewrite IH. unfold rle. destruct (Rle_dec lo (fst a)), (Rle_dec (fst a) hi); reflexivity.
Qed.
Definition cut (rows : list (R * list R)) (m : option R) := match m with None => rows | Some m => filter (fun r => rle m (fst r)) rows end.
Lemma cut_in rows m r : In r (cut rows m) <-> In r rows /\ not_before m (fst r).
Proof. destruct m as [m|]; cbn; [|tauto]. rewrite filter_In. unfold rle. destruct (Rle_dec m (fst r)); intuition discriminate. Qed.
Lemma cut_sorted rows m : StronglySorted le_t rows -> StronglySorted le_t (cut rows m).
Proof. destruct m; [apply filter_sorted|trivial]. Qed.
Lemma col_pos_spec n cols i : nth_error cols i = Some n -> ~ In n (firstn i cols) -> col_pos n cols = Some i.
Proof.
  revert i. induction cols as [|c cols IH]; intros [|i] E F; try discriminate; cbn in *; [injection E as ->; rewrite String.eqb_refl; reflexivity|].
  destruct (String.eqb_spec c n) as [->|N]; [exfalso; apply F; left; reflexivity|]. rewrite (IH i E); [reflexivity|]. intros X. apply F. right. exact X.
Qed.
Lemma col_pos_none n cols : ~ In n cols -> col_pos n cols = None.
Proof. induction cols as [|c cols IH]; intros F; [reflexivity|]. cbn. destruct (String.eqb_spec c n) as [->|N]; [exfalso; apply F; left; reflexivity|]. rewrite IH; [reflexivity|]. intros X. apply F. right. exact X. Qed.
Lemma pdread_unfold f dc from_ts from_pc days pc m (invert tkns : bool) lo hi : window (cut (f_rows f) m) from_ts from_pc days pc = Ret (lo, hi) ->
  let rows := filter (fun r => between lo hi m (fst r)) (f_rows f) in
  let give i name : res pdresult := let s := reciprocal invert (column i rows) in if tkns then Ret (WithTokens s (fst (tknpair name invert)) (snd (tknpair name invert))) else Ret (OneCol s) in
  pdread f dc from_ts from_pc days pc m invert tkns =
  match dc with
  | AllCols => if invert then Raise ValueError else Ret (Whole (mkFrame (f_cols f) rows))
  | ByName n => match col_pos n (f_cols f) with None => Raise KeyError | Some i => give i n end
  | ByIndex i =>
    let k := Z.of_nat (List.length (f_cols f)) in
    let i := if (i <? 0)%Z then (i + k)%Z else i in
    if ((i <? 0) || (k <=? i))%Z then Raise IndexError else give (Z.to_nat i) "RSK/CSH"%string
  | BadCol => Raise ValueError
  end.
Proof.
  intros W rows give. unfold pdread. change (match m with None => f_rows f | Some m0 => filter (fun r => rle m0 (fst r)) (f_rows f) end) with (cut (f_rows f) m). rewrite W. cbn [rbind fst snd]. unfold cut. rewrite two_filters. reflexivity.
Qed.
Lemma reciprocal_column invert i rows : reciprocal invert (column i rows) = map (fun r => (fst r, if invert then 1 / nth i (snd r) 0 else nth i (snd r) 0)) rows.
Proof. unfold reciprocal, column. destruct invert; [rewrite map_map|]; reflexivity. Qed.
Lemma pdread_spec f r0 r1 from_ts from_pc days pc m : StronglySorted (fun a b => fst a <= fst b) (f_rows f) ->
  In r0 (f_rows f) -> not_before m (fst r0) -> In r1 (f_rows f) -> not_before m (fst r1) -> (forall r, In r (f_rows f) -> not_before m (fst r) -> fst r0 <= fst r <= fst r1) ->
  (from_ts = None \/ from_pc = None) -> (days = None \/ pc = None) ->
  let lo := win_from (fst r0) (fst r1) from_ts from_pc in let hi := win_to (fst r0) (fst r1) lo days pc in let rows := filter (fun r => between lo hi m (fst r)) (f_rows f) in
  let values i inv := map (fun r => (fst r, if (inv : bool) then 1 / nth i (snd r) 0 else nth i (snd r) 0)) rows in
  let read dc := pdread f dc from_ts from_pc days pc m in
  (forall t, read AllCols false t = Ret (Whole (mkFrame (f_cols f) rows))) /\ (forall t, read AllCols true t = Raise ValueError) /\
  (forall n i inv, nth_error (f_cols f) i = Some n -> ~ In n (firstn i (f_cols f)) -> read (ByName n) inv false = Ret (OneCol (values i inv)) /\ read (ByName n) inv true = Ret (WithTokens (values i inv) (fst (tknpair n inv)) (snd (tknpair n inv)))) /\
  (forall n inv t, ~ In n (f_cols f) -> read (ByName n) inv t = Raise KeyError) /\
  (forall i j inv, (0 <= i < Z.of_nat (List.length (f_cols f)))%Z -> (j = i \/ j = i - Z.of_nat (List.length (f_cols f)))%Z -> read (ByIndex j) inv false = Ret (OneCol (values (Z.to_nat i) inv)) /\
     read (ByIndex j) inv true = Ret (WithTokens (values (Z.to_nat i) inv) (if inv then "CSH" else "RSK")%string (if inv then "RSK" else "CSH")%string)) /\
  (forall i inv t, (i < - Z.of_nat (List.length (f_cols f)) \/ Z.of_nat (List.length (f_cols f)) <= i)%Z -> read (ByIndex i) inv t = Raise IndexError) /\
  (forall inv t, read BadCol inv t = Raise ValueError).
Proof.
  intros S I0 N0 I1 N1 H Nf Np lo hi rows values read.
  assert (W : window (cut (f_rows f) m) from_ts from_pc days pc = Ret (lo, hi)). { apply window_spec; try assumption; [apply cut_sorted; exact S|apply cut_in; auto|apply cut_in; auto|]. intros r R. apply cut_in in R as [R1 R2]. apply H; assumption. }
  assert (U : forall dc inv t, read dc inv t = match dc with
  | AllCols => if inv then Raise ValueError else Ret (Whole (mkFrame (f_cols f) rows))
  | ByName n => match col_pos n (f_cols f) with None => Raise KeyError | Some i => if t then Ret (WithTokens (values i inv) (fst (tknpair n inv)) (snd (tknpair n inv))) else Ret (OneCol (values i inv)) end
  | ByIndex i =>
    let k := Z.of_nat (List.length (f_cols f)) in
    let i := if (i <? 0)%Z then (i + k)%Z else i in
    if ((i <? 0) || (k <=? i))%Z then Raise IndexError else if t then Ret (WithTokens (values (Z.to_nat i) inv) (fst (tknpair "RSK/CSH" inv)) (snd (tknpair "RSK/CSH" inv))) else Ret (OneCol (values (Z.to_nat i) inv))
  | BadCol => Raise ValueError
  end). { intros dc inv t. unfold read. rewrite (pdread_unfold _ _ _ _ _ _ _ _ _ _ _ W). cbv zeta. fold rows. unfold values. destruct dc as [|n|i|]; try reflexivity; [destruct (col_pos n (f_cols f)); [|reflexivity]|]; rewrite reciprocal_column; reflexivity. }
  split; [intros t; apply U|]. split; [intros t; apply U|]. split; [intros n i inv E F; rewrite !U, (col_pos_spec n _ i E F); split; reflexivity|]. split; [intros n inv t F; rewrite U, col_pos_none by exact F; reflexivity|].
  split; [|split].
  - intros i j inv Hi Hj. rewrite !U. cbv zeta. set (k := Z.of_nat (List.length (f_cols f))) in *. replace (if (j <? 0)%Z then (j + k)%Z else j) with i by (destruct (Z.ltb_spec j 0); lia). destruct (Z.ltb_spec i 0); [lia|]. destruct (Z.leb_spec k i); [lia|]. cbn [orb]. destruct inv; split; reflexivity.
  - intros i inv t Hi. rewrite U. cbv zeta. set (k := Z.of_nat (List.length (f_cols f))) in *. assert (0 <= k)%Z by (unfold k; lia). destruct (Z.ltb_spec i 0); [destruct (Z.ltb_spec (i + k) 0); [reflexivity|lia]|]. destruct (Z.ltb_spec i 0); [lia|]. destruct (Z.leb_spec k i); [reflexivity|lia].
  - intros inv t. apply U.
Qed.
Lemma pdread_errors f dc from_ts from_pc days pc m inv t : (days <> None -> pc <> None -> pdread f dc from_ts from_pc days pc m inv t = Raise ValueError) /\
  ((exists r, In r (f_rows f) /\ not_before m (fst r)) -> from_ts <> None -> from_pc <> None -> pdread f dc from_ts from_pc days pc m inv t = Raise ValueError) /\
  ((forall r, In r (f_rows f) -> ~ not_before m (fst r)) -> pdread f dc from_ts from_pc days pc m inv t = Raise (match days, pc, from_ts, from_pc with Some _, Some _, _, _ => ValueError | _, None, Some _, Some _ => ValueError | _, _, _, _ => IndexError end)).
Proof.
  assert (U : forall e, window (cut (f_rows f) m) from_ts from_pc days pc = Raise e -> pdread f dc from_ts from_pc days pc m inv t = Raise e). { intros e E. unfold pdread. change (match m with None => f_rows f | Some m0 => filter (fun r => rle m0 (fst r)) (f_rows f) end) with (cut (f_rows f) m). rewrite E. reflexivity. }
  destruct (window_errors (cut (f_rows f) m) from_ts from_pc days pc) as (A & B & _). split; [intros X Y; apply U, A; assumption|]. split.
  - intros (r & R) X Y. apply U, B; try assumption. apply cut_in in R. intros E. rewrite E in R. destruct R.
  - intros N. assert (E : cut (f_rows f) m = []). { destruct (cut (f_rows f) m) as [|r l] eqn:E; [reflexivity|]. exfalso. assert (R : In r (cut (f_rows f) m)) by (rewrite E; left; reflexivity). apply cut_in in R as [R1 R2]. exact (N r R1 R2). }
    rewrite E in U. destruct (window_errors [] from_ts from_pc days pc) as (_ & _ & C). apply U. exact C.
Qed.
Lemma tknpair_spec a b : no_slash a = true -> no_slash b = true -> (forall inv, tknpair (a ++ "/" ++ b) inv = if inv then (SdkModel.strip b, SdkModel.strip a) else (SdkModel.strip a, SdkModel.strip b)) /\
  (forall c, tknpair c false = ("RSK", "CSH")%string \/ exists x y, c = (x ++ "/" ++ y)%string /\ no_slash x = true /\ no_slash y = true) /\ forall c, tknpair c true = (snd (tknpair c false), fst (tknpair c false)).
Proof.
  intros A B. split; [intros inv; unfold tknpair; rewrite split_app by assumption; destruct inv; reflexivity|]. split; [|intros c; reflexivity].
  intros c. unfold tknpair. destruct (split_slash c) as [|x [|y [|w l]]] eqn:E; auto. right. exists x, y. apply split_inv_2. exact E.
Qed.
