(** The selection of orders (C33). *)
From Coq Require Import Reals Lra Lia Bool List Arith Permutation Sorted.
From Verif Require Import CurveModel CurveProofs OrderModel ExactModel ExactSpec ExactProofs ExactProofs2 AlphaModel.
Import ListNotations.
Local Open Scope R_scope.

(** ** sums and sorting *)
Lemma rsum_app a b : rsum (a ++ b) = rsum a + rsum b. Proof. unfold rsum. induction a as [|x a IH]; cbn [app fold_right]; [ring|rewrite IH; ring]. Qed.
Lemma rsum_perm a b : Permutation a b -> rsum a = rsum b. Proof. induction 1; cbn in *; unfold rsum in *; lra. Qed.
Lemma rsum_nonneg l : Forall (fun a => 0 <= a) l -> 0 <= rsum l. Proof. induction 1; cbn; unfold rsum in *; lra. Qed.
Definition desc := Sorted (fun a b => b <= a).
Lemma insert_perm a l : Permutation (a :: l) (insert_desc a l).
Proof. induction l as [|b l IH]; cbn; [reflexivity|]. destruct (rle b a); [reflexivity|]. rewrite perm_swap. constructor. assumption. Qed.
Lemma sort_perm l : Permutation l (sort_desc l).
Proof. induction l as [|a l IH]; cbn; [constructor|]. rewrite <- insert_perm. constructor. assumption. Qed.
Lemma rle_spec a b : rle a b = true -> a <= b. Proof. unfold rle. destruct (Rle_dec a b); [tauto|discriminate]. Qed.
Lemma rle_nspec a b : rle a b = false -> b < a. Proof. unfold rle. destruct (Rle_dec a b); [discriminate|lra]. Qed.
Lemma rlt_spec a b : rlt a b = true -> a < b. Proof. unfold rlt. destruct (Rlt_dec a b); [tauto|discriminate]. Qed.
Lemma rlt_nspec a b : rlt a b = false -> b <= a. Proof. unfold rlt. destruct (Rlt_dec a b); [discriminate|lra]. Qed.
Lemma req_spec a b : req a b = true -> a = b. Proof. unfold req. destruct (Req_EM_T a b); [tauto|discriminate]. Qed.
Lemma req_nspec a b : req a b = false -> a <> b. Proof. unfold req. destruct (Req_EM_T a b); [discriminate|tauto]. Qed.
Lemma insert_desc_desc a l : desc l -> desc (insert_desc a l).
Proof.
  intros H. induction H as [|b l Hs IH Hh]; cbn; [repeat constructor|]. destruct (rle b a) eqn:E.
  - apply rle_spec in E. constructor; [constructor; assumption|constructor; assumption].
  - apply rle_nspec in E. constructor; [assumption|]. destruct l as [|c l]; cbn; [constructor; lra|]. inversion Hh; subst. destruct (rle c a); constructor; lra.
Qed.
Lemma sort_desc_desc l : desc (sort_desc l). Proof. induction l; cbn; [constructor|]. apply insert_desc_desc. assumption. Qed.
Lemma desc_head a l : desc (a :: l) -> forall b, In b l -> b <= a.
Proof. intros H. apply Sorted_extends in H; [|intros x y z; lra]. rewrite Forall_forall in H. assumption. Qed.

(** no sub-multiset of k elements has a larger sum than the k largest *)
Lemma top_largest s : desc s -> Forall (fun a => 0 <= a) s -> forall k a r, Permutation s (a ++ r) -> (length a <= k)%nat -> rsum a <= rsum (firstn k s).
Proof.
  induction s as [|x s IH]; intros D P k a r E L.
  - apply Permutation_nil in E. apply app_eq_nil in E. destruct E as [-> _]. rewrite firstn_nil. lra.
  - assert (Ds : desc s) by (inversion D; assumption). assert (Ps : Forall (fun a => 0 <= a) s) by (inversion P; assumption). assert (Hx : 0 <= x) by (inversion P; assumption).
    destruct a as [|y a]; [cbn [rsum fold_right]; apply rsum_nonneg; apply Forall_forall; intros z Hz; rewrite Forall_forall in P; apply P; rewrite <- (firstn_skipn k (x :: s)); apply in_or_app; left; assumption|].
    destruct k as [|k]; [cbn in L; lia|]. cbn [firstn]. cbn in L. change (rsum (x :: firstn k s)) with (x + rsum (firstn k s)).
    assert (Hin : In x ((y :: a) ++ r)) by (rewrite <- E; left; reflexivity). apply in_app_or in Hin. destruct Hin as [Hin|Hin].
    + destruct (in_split _ _ Hin) as (a1 & a2 & Ea). rewrite Ea in *. assert (Hp : Permutation (a1 ++ x :: a2) (x :: a1 ++ a2)) by (symmetry; apply Permutation_middle). rewrite (rsum_perm _ _ Hp). change (rsum (x :: a1 ++ a2)) with (x + rsum (a1 ++ a2)).
      assert (rsum (a1 ++ a2) <= rsum (firstn k s)); [|lra]. apply (IH Ds Ps k _ r).
      * apply (Permutation_cons_inv (a := x)). rewrite E, Hp. reflexivity.
      * apply (f_equal (@length R)) in Ea. rewrite app_length in *. cbn in Ea. lia.
    + destruct (in_split _ _ Hin) as (r1 & r2 & ->).
      assert (E2 : Permutation s (a ++ y :: r1 ++ r2)).
      { apply (Permutation_cons_inv (a := x)). rewrite E. cbn [app]. apply perm_trans with (y :: x :: a ++ r1 ++ r2); [constructor; rewrite !app_assoc; symmetry; apply Permutation_middle|]. rewrite perm_swap. constructor. apply Permutation_middle. }
      change (rsum (y :: a)) with (y + rsum a). assert (rsum a <= rsum (firstn k s)) by (apply (IH Ds Ps k a (y :: r1 ++ r2)); [assumption|lia]).
      assert (y <= x). { apply (desc_head x s D). rewrite E2. apply in_or_app. right. left. reflexivity. } lra.
Qed.
(** a dominating sub-multiset has the sum of the k largest *)
Lemma top_dominating s : desc s -> forall a r, Permutation s (a ++ r) -> (forall u v, In u a -> In v r -> v <= u) -> rsum a = rsum (firstn (length a) s).
Proof.
  induction s as [|x s IH]; intros D a r E H.
  - apply Permutation_nil in E. apply app_eq_nil in E. destruct E as [-> _]. reflexivity.
  - assert (Ds : desc s) by (inversion D; assumption). destruct a as [|y a]; [reflexivity|]. cbn [length firstn]. change (rsum (x :: firstn (length a) s)) with (x + rsum (firstn (length a) s)).
    assert (Hin : In x ((y :: a) ++ r)) by (rewrite <- E; left; reflexivity). apply in_app_or in Hin. 
    assert (Hx : In x (y :: a)).
    { destruct Hin as [Hin|Hin]; [assumption|]. assert (x <= y) by (apply H; [left; reflexivity|assumption]). left.
      assert (Hy : In y (x :: s)) by (rewrite E; left; reflexivity). destruct Hy as [->|Hy]; [reflexivity|]. pose proof (desc_head x s D y Hy). lra. }
    destruct (in_split _ _ Hx) as (a1 & a2 & Ea). rewrite Ea in *. assert (Hp : Permutation (a1 ++ x :: a2) (x :: a1 ++ a2)) by (symmetry; apply Permutation_middle). rewrite (rsum_perm _ _ Hp). change (rsum (x :: a1 ++ a2)) with (x + rsum (a1 ++ a2)).
    assert (El : length a = length (a1 ++ a2)) by (apply (f_equal (@length R)) in Ea; rewrite app_length in *; cbn in Ea; lia). rewrite El.
    f_equal. apply (IH Ds _ r).
    + apply (Permutation_cons_inv (a := x)). rewrite E, Hp. reflexivity.
    + intros u v Hu Hv. apply H; [|assumption]. apply in_app_or in Hu. apply in_or_app. destruct Hu; [left|right; right]; assumption.
Qed.

(** ** minimum and lookup *)
Lemma rmin_of_spec l : forall a, rmin_of a l <= a /\ (forall b, In b l -> rmin_of a l <= b) /\ (rmin_of a l = a \/ In (rmin_of a l) l).
Proof.
  induction l as [|b l IH]; intros a; cbn [rmin_of]; [repeat split; [lra|intros b []|left; reflexivity]|].
  destruct (rlt b a) eqn:E; [apply rlt_spec in E; destruct (IH b) as (H1 & H2 & H3)|apply rlt_nspec in E; destruct (IH a) as (H1 & H2 & H3)].
  - split; [lra|]. split; [intros c [<-|Hc]; [assumption|apply H2; assumption]|]. destruct H3 as [->|H3]; right; [left; reflexivity|right; assumption].
  - split; [lra|]. split; [intros c [<-|Hc]; [lra|apply H2; assumption]|]. destruct H3 as [->|H3]; [left; reflexivity|right; right; assumption].
Qed.
Lemma rmax_of_spec l : forall a, a <= rmax_of a l /\ (forall b, In b l -> b <= rmax_of a l) /\ (rmax_of a l = a \/ In (rmax_of a l) l).
Proof.
  induction l as [|b l IH]; intros a; cbn [rmax_of]; [repeat split; [lra|intros b []|left; reflexivity]|].
  destruct (rlt a b) eqn:E; [apply rlt_spec in E; destruct (IH b) as (H1 & H2 & H3)|apply rlt_nspec in E; destruct (IH a) as (H1 & H2 & H3)].
  - split; [lra|]. split; [intros c [<-|Hc]; [assumption|apply H2; assumption]|]. destruct H3 as [->|H3]; right; [left; reflexivity|right; assumption].
  - split; [lra|]. split; [intros c [<-|Hc]; [lra|apply H2; assumption]|]. destruct H3 as [->|H3]; [left; reflexivity|right; right; assumption].
Qed.
Lemma min_item_spec l : l <> [] -> exists p, min_item l = Ret p /\ In p l /\ forall q, In q l -> snd p <= snd q.
Proof.
  destruct l as [|[i a] r]; [congruence|]. intros _. unfold min_item. set (m := rmin_of a (map snd r)). destruct (rmin_of_spec (map snd r) a) as (H1 & H2 & H3). fold m in H1, H2, H3.
  destruct (filter (fun p => req (snd p) m) ((i, a) :: r)) as [|p f] eqn:E.
  - exfalso. assert (Hex : exists q, In q ((i, a) :: r) /\ snd q = m). { destruct H3 as [H3|H3]; [exists (i, a); split; [left; reflexivity|symmetry; assumption]|]. apply in_map_iff in H3. destruct H3 as (q & E1 & E2). exists q. split; [right; assumption|assumption]. }
    destruct Hex as (q & Hq & Eq). assert (Hin : In q []) by (rewrite <- E; apply filter_In; split; [assumption|unfold req; destruct (Req_EM_T (snd q) m); [reflexivity|congruence]]). destruct Hin.
  - exists p. split; [reflexivity|]. assert (Hp : In p (filter (fun p => req (snd p) m) ((i, a) :: r))) by (rewrite E; left; reflexivity). apply filter_In in Hp. destruct Hp as [Hp Em]. apply req_spec in Em. split; [assumption|].
    rewrite Em. intros q [<-|Hq]; [assumption|]. apply H2. apply in_map. assumption.
Qed.
Lemma max_item_spec l : l <> [] -> exists p, max_item l = Ret p /\ In p l /\ forall q, In q l -> snd q <= snd p.
Proof.
  destruct l as [|[i a] r]; [congruence|]. intros _. unfold max_item. set (m := rmax_of a (map snd r)). destruct (rmax_of_spec (map snd r) a) as (H1 & H2 & H3). fold m in H1, H2, H3.
  destruct (filter (fun p => req (snd p) m) ((i, a) :: r)) as [|p f] eqn:E.
  - exfalso. assert (Hex : exists q, In q ((i, a) :: r) /\ snd q = m). { destruct H3 as [H3|H3]; [exists (i, a); split; [left; reflexivity|symmetry; assumption]|]. apply in_map_iff in H3. destruct H3 as (q & E1 & E2). exists q. split; [right; assumption|assumption]. }
    destruct Hex as (q & Hq & Eq). assert (Hin : In q []) by (rewrite <- E; apply filter_In; split; [assumption|unfold req; destruct (Req_EM_T (snd q) m); [reflexivity|congruence]]). destruct Hin.
  - exists p. split; [reflexivity|]. assert (Hp : In p (filter (fun p => req (snd p) m) ((i, a) :: r))) by (rewrite E; left; reflexivity). apply filter_In in Hp. destruct Hp as [Hp Em]. apply req_spec in Em. split; [assumption|].
    rewrite Em. intros q [<-|Hq]; [assumption|]. apply H2. apply in_map. assumption.
Qed.
Lemma enum_nth l : forall i j a, nth_error (enumerate i l) j = Some a <-> exists v, nth_error l j = Some v /\ a = ((i + j)%nat, v).
Proof.
  induction l as [|b l IH]; intros i j a; [destruct j; cbn; split; [discriminate|intros (v & ? & _); discriminate|discriminate|intros (v & ? & _); discriminate]|].
  destruct j as [|j]; cbn [enumerate nth_error].
  - rewrite Nat.add_0_r. split; [intros [= <-]; exists b; auto|intros (v & [= ->] & ->); reflexivity].
  - rewrite IH. replace (i + S j)%nat with (S i + j)%nat by lia. reflexivity.
Qed.
Lemma enum_length l : forall i, length (enumerate i l) = length l. Proof. induction l; intros; cbn; [reflexivity|]. f_equal. apply IHl. Qed.
Lemma enum_snd l : forall i, map snd (enumerate i l) = l. Proof. induction l; intros; cbn; [reflexivity|]. f_equal. apply IHl. Qed.
Lemma enum_fst l : forall i, map fst (enumerate i l) = seq i (length l). Proof. induction l; intros; cbn; [reflexivity|]. f_equal. apply IHl. Qed.
Lemma enum_skip l : forall j i, skipn j (enumerate i l) = enumerate (i + j) (skipn j l).
Proof. induction l as [|a l IH]; intros [|j] i; cbn; rewrite ?Nat.add_0_r; try reflexivity. rewrite IH. f_equal. lia. Qed.
Lemma get_i_enum l i j v : nth_error l j = Some v -> get_i (enumerate i l) (i + j) = Ret ((i + j)%nat, v).
Proof.
  unfold get_i. revert i j. induction l as [|b l IH]; intros i [|j] H; cbn in H; try discriminate.
  - injection H as ->. cbn. rewrite Nat.add_0_r, Nat.eqb_refl. reflexivity.
  - cbn [enumerate filter fst]. rewrite (proj2 (Nat.eqb_neq i (i + S j))) by lia. replace (i + S j)%nat with (S i + j)%nat by lia. apply IH. assumption.
Qed.
Lemma remove_perm p l : In p l -> Permutation l (p :: remove_row p l).
Proof.
  induction l as [|q l IH]; [intros []|]. intros H. cbn [remove_row]. destruct (Nat.eqb (fst p) (fst q) && req (snd p) (snd q)) eqn:E.
  - apply andb_true_iff in E. destruct E as [E1 E2]. apply Nat.eqb_eq in E1. apply req_spec in E2. destruct p, q. cbn in *. subst. reflexivity.
  - destruct H as [->|H]; [rewrite Nat.eqb_refl in E; unfold req in E; destruct (Req_EM_T (snd p) (snd p)); [discriminate|congruence]|]. rewrite perm_swap. constructor. apply IH. assumption.
Qed.

Lemma swap_perm {A} (tl rm out : list A) mn nx : Permutation tl (mn :: rm) -> Permutation ((rm ++ [nx]) ++ mn :: out) ((tl ++ out) ++ [nx]).
Proof.
  intros H. rewrite H. cbn [app]. rewrite <- Permutation_middle. constructor. rewrite <- !app_assoc. apply Permutation_app_head. cbn [app]. apply Permutation_cons_append.
Qed.

(** ** the loop *)
(** [tl] holds the k best of the first j+k entries; [out] the others *)
Definition window (numbers : list R) (k j : nat) (tl out : rows) : Prop :=
  Permutation (tl ++ out) (firstn (j + k) (enumerate 0 numbers)) /\ length tl = Nat.min k (length numbers) /\ forall p q, In p tl -> In q out -> snd q <= snd p.
Definition maxfill numbers k := rsum (firstn k (sort_desc numbers)).
Lemma window_upper numbers k j tl out : Forall (fun a => 0 <= a) numbers -> window numbers k j tl out -> sum_me tl <= maxfill numbers k.
Proof.
  intros P (W1 & W2 & W3). unfold sum_me, maxfill. apply (top_largest _ (sort_desc_desc numbers)) with (r := map snd out ++ skipn (j + k) numbers).
  - rewrite Forall_forall in *. intros a Ha. apply P. rewrite (sort_perm numbers). assumption.
  - rewrite <- sort_perm. rewrite app_assoc, <- map_app. rewrite W1. rewrite <- firstn_map, enum_snd. rewrite firstn_skipn. reflexivity.
  - rewrite map_length. lia.
Qed.
Lemma window_end numbers k j tl out : window numbers k j tl out -> (length numbers <= j + k)%nat -> sum_me tl = maxfill numbers k.
Proof.
  intros (W1 & W2 & W3) L. unfold sum_me, maxfill. rewrite firstn_all2 in W1 by (rewrite enum_length; lia).
  assert (E : Permutation (sort_desc numbers) (map snd tl ++ map snd out)) by (rewrite <- sort_perm, <- map_app, W1, enum_snd; reflexivity).
  rewrite (top_dominating _ (sort_desc_desc numbers) _ _ E).
  - f_equal. rewrite map_length, W2. destruct (Nat.le_gt_cases k (length numbers)); [f_equal; lia|]. rewrite !firstn_all2; [reflexivity|rewrite <- (Permutation_length (sort_perm numbers)); lia|rewrite <- (Permutation_length (sort_perm numbers)); lia].
  - intros u v Hu Hv. apply in_map_iff in Hu, Hv. destruct Hu as (p & <- & Hp), Hv as (q & <- & Hq). apply W3; assumption.
Qed.
Lemma window_nodup numbers k j tl out : window numbers k j tl out -> NoDup (map fst tl) /\ (forall i, In i (map fst tl) -> (i < length numbers)%nat) /\ forall i v, In (i, v) tl -> nth i numbers 0 = v.
Proof.
  intros (W1 & W2 & W3).
  assert (Hin : forall p, In p tl -> In p (enumerate 0 numbers)). { intros p Hp. rewrite <- (firstn_skipn (j + k) (enumerate 0 numbers)). apply in_or_app. left. rewrite <- W1. apply in_or_app. left. assumption. }
  split.
  - assert (N : NoDup (map fst (tl ++ out))). { rewrite W1, <- firstn_map, enum_fst. assert (N : NoDup (seq 0 (length numbers))) by apply seq_NoDup. rewrite <- (firstn_skipn (j + k) (seq 0 (length numbers))) in N. revert N. generalize (firstn (j + k) (seq 0 (length numbers))). generalize (skipn (j + k) (seq 0 (length numbers))). intros b a. induction a as [|x a IH]; cbn; [constructor|]. intros N. inversion N as [|? ? N1 N2]; subst. constructor; [|apply IH; assumption]. intro. apply N1. apply in_or_app. left. assumption. }
    rewrite map_app in N. revert N. generalize (map fst tl) (map fst out). intros a b. induction a as [|x a IH]; cbn; [constructor|]. intros N. inversion N as [|? ? N1 N2]; subst. constructor; [|apply IH; assumption]. intro. apply N1. apply in_or_app. left. assumption.
  - split.
    + intros i Hi. apply in_map_iff in Hi. destruct Hi as (p & <- & Hp). apply Hin in Hp. apply (in_map fst) in Hp. rewrite enum_fst in Hp. apply in_seq in Hp. lia.
    + intros i v Hp. apply Hin in Hp. apply In_nth_error in Hp. destruct Hp as (m & Hm). apply enum_nth in Hm. destruct Hm as (w & Hw & E). injection E as -> ->. apply nth_error_nth. assumption.
Qed.
Lemma window_checks numbers k j tl out : window numbers k j tl out -> (if Nat.ltb (length tl) k then Ret tt else if Nat.eqb (distinct (map fst tl)) k then Ret tt else Raise AssertionError) = Ret tt :> res unit.
Proof.
  intros W. destruct (window_nodup _ _ _ _ _ W) as [N _]. destruct W as (_ & L & _). destruct (Nat.ltb (length tl) k) eqn:E; [reflexivity|]. apply Nat.ltb_ge in E.
  unfold distinct. rewrite nodup_fixed_point by assumption. rewrite map_length, (proj2 (Nat.eqb_eq (length tl) k)) by lia. reflexivity.
Qed.
Lemma rsum_const l a : (forall b, In b l -> b = a) -> rsum l = INR (length l) * a.
Proof. induction l as [|b l IH]; intros H; [cbn; ring|]. change (rsum (b :: l)) with (b + rsum l). rewrite IH by (intros; apply H; right; assumption). rewrite (H b) by (left; reflexivity). cbn [length]. rewrite S_INR. ring. Qed.
Lemma rsum_le_const l a : (forall b, In b l -> b <= a) -> rsum l <= INR (length l) * a.
Proof. induction l as [|b l IH]; intros H; [cbn; lra|]. change (rsum (b :: l)) with (b + rsum l). assert (rsum l <= INR (length l) * a) by (apply IH; intros; apply H; right; assumption). pose proof (H b (or_introl eq_refl)). cbn [length]. rewrite S_INR. lra. Qed.
Lemma rsum_ge_const l a : (forall b, In b l -> a <= b) -> INR (length l) * a <= rsum l.
Proof. induction l as [|b l IH]; intros H; [cbn; lra|]. change (rsum (b :: l)) with (b + rsum l). assert (INR (length l) * a <= rsum l) by (apply IH; intros; apply H; right; assumption). pose proof (H b (or_introl eq_refl)). cbn [length]. rewrite S_INR. lra. Qed.

Definition selected (numbers : list R) (threshold : R) (k : nat) (l : list nat) : Prop :=
  NoDup l /\ (forall i, In i l -> (i < length numbers)%nat) /\ length l = Nat.min k (length numbers) /\
  let sum := rsum (map (fun i => nth i numbers 0) l) in (threshold <= sum /\ threshold <= maxfill numbers k) \/ (sum = maxfill numbers k /\ maxfill numbers k < threshold).
Lemma window_sum numbers k j tl out : window numbers k j tl out -> sum_me tl = rsum (map (fun i => nth i numbers 0) (map fst tl)).
Proof.
  intros W. destruct (window_nodup _ _ _ _ _ W) as (_ & _ & H). unfold sum_me. rewrite map_map. f_equal. apply map_ext_in. intros [i v] Hp. cbn. symmetry. apply H. assumption.
Qed.
Lemma loop_result numbers threshold k max_val : (1 <= k)%nat -> Forall (fun a => 0 <= a) numbers -> (forall a, In a numbers -> a <= max_val) ->
  forall iv j tl out, iv = enumerate j (skipn j numbers) -> iv <> [] -> window numbers k j tl out ->
  exists l, select_loop (length numbers) k threshold (maxfill numbers k) max_val (rle threshold (maxfill numbers k)) iv tl = Ret (Some l) /\ selected numbers threshold k l /\
    (j = O -> threshold <= sum_me tl -> l = map fst tl).
Proof.
  intros Hk P Hmax. induction iv as [|[i0 v0] iv IH]; intros j tl out Eiv Hne W; [congruence|].
  assert (Hj : (j < length numbers)%nat). { destruct (Nat.lt_ge_cases j (length numbers)); [assumption|]. rewrite skipn_all2 in Eiv by lia. discriminate. }
  pose proof (window_upper _ _ _ _ _ P W) as Hup. pose proof (window_sum _ _ _ _ _ W) as Hs. destruct (window_nodup _ _ _ _ _ W) as (N & Hv & Hval). pose proof (window_checks _ _ _ _ _ W) as Hc.
  assert (Elen : length (map fst tl) = Nat.min k (length numbers)) by (rewrite map_length; apply W).
  assert (Ei0 : i0 = j). { destruct (skipn j numbers) as [|b r]; [discriminate|]. cbn in Eiv. injection Eiv as -> _ _. reflexivity. } subst i0.
  assert (Hsel : (threshold <= sum_me tl /\ threshold <= maxfill numbers k) \/ (sum_me tl = maxfill numbers k /\ maxfill numbers k < threshold) -> selected numbers threshold k (map fst tl)) by (intros Hd; split; [assumption|]; split; [assumption|]; split; [assumption|]; cbv zeta; rewrite <- Hs; assumption).
  cbn [select_loop]. set (full := rle threshold (maxfill numbers k)) in *.
  assert (Hfull : if full then threshold <= maxfill numbers k else maxfill numbers k < threshold) by (unfold full; destruct (rle threshold (maxfill numbers k)) eqn:Ef; [apply rle_spec|apply rle_nspec]; assumption).
  clearbody full. destruct (negb full && req (sum_me tl) (maxfill numbers k)) eqn:E1.
  - apply andb_true_iff in E1. destruct E1 as [Ef Em]. destruct full; [discriminate|]. unfold assertion_checks. rewrite Em, Hc. cbn [rbind]. exists (map fst tl). split; [reflexivity|]. apply req_spec in Em. split; [apply Hsel; right; split; assumption|reflexivity].
  - destruct (rle threshold (sum_me tl)) eqn:Et.
    + pose proof (rle_spec _ _ Et). destruct full; [|lra]. unfold assertion_checks. rewrite Et, Hc. cbn [rbind]. exists (map fst tl). split; [reflexivity|]. split; [apply Hsel; left; split; assumption|reflexivity].
    + apply rle_nspec in Et.
      assert (Hlt : sum_me tl < maxfill numbers k). { destruct full; [lra|]. cbn [negb andb] in E1. apply req_nspec in E1. lra. }
      assert (Hjk : (j + k < length numbers)%nat). { destruct (Nat.lt_ge_cases (j + k) (length numbers)); [assumption|]. pose proof (window_end _ _ _ _ _ W ltac:(lia)). lra. }
      rewrite (proj2 (Nat.ltb_lt _ _) Hjk). 
      assert (Htl : tl <> []). { intro E0. subst tl. cbn in Elen. lia. }
      destruct (min_item_spec tl Htl) as (mn & -> & Hmn & Hmin). cbn [rbind].
      destruct (nth_error (skipn j numbers) k) as [nv|] eqn:En.
      2:{ exfalso. apply nth_error_None in En. rewrite skipn_length in En. lia. }
      rewrite Eiv. rewrite (get_i_enum _ _ _ _ En). cbn [rbind fst snd].
      assert (Hns : nth_error numbers (j + k) = Some nv). { rewrite <- En. clear. revert j. induction numbers as [|a l IH]; intros [|j]; cbn; try reflexivity; [destruct k; reflexivity|apply IH]. }
      assert (E3 : rle max_val (snd mn) = false).
      { destruct (rle max_val (snd mn)) eqn:E3; [|reflexivity]. exfalso. apply rle_spec in E3.
        assert (H1 : INR (length (map snd tl)) * max_val <= sum_me tl) by (apply rsum_ge_const; intros b Hb; apply in_map_iff in Hb; destruct Hb as (p & <- & Hp); pose proof (Hmin p Hp); lra).
        assert (H2 : maxfill numbers k <= INR (length (firstn k (sort_desc numbers))) * max_val).
        { apply rsum_le_const. intros b Hb. apply Hmax. rewrite (sort_perm numbers). rewrite <- (firstn_skipn k (sort_desc numbers)). apply in_or_app. left. assumption. }
        rewrite firstn_length, <- (Permutation_length (sort_perm numbers)) in H2. rewrite map_length in H1, Elen. rewrite Elen in H1. lra. }
      rewrite E3.
      assert (Efirst : firstn (S j + k) (enumerate 0 numbers) = firstn (j + k) (enumerate 0 numbers) ++ [((j + k)%nat, nv)]).
      { assert (Hne' : nth_error (enumerate 0 numbers) (j + k) = Some ((j + k)%nat, nv)) by (apply enum_nth; exists nv; split; [assumption|reflexivity]). revert Hne'. generalize (enumerate 0 numbers) ((j + k)%nat, nv). replace (S j + k)%nat with (S (j + k)) by lia. generalize (j + k)%nat. clear. induction n as [|n IH]; intros [|a l] p H; cbn in *; try discriminate; [congruence|]. f_equal. apply IH. assumption. }
      assert (Eiv' : iv = enumerate (S j) (skipn (S j) numbers)).
      { clear - Eiv Hj. destruct (skipn j numbers) as [|b r] eqn:E; [discriminate|]. cbn in Eiv. injection Eiv as _ ->. f_equal. clear Hj. revert numbers E. induction j as [|j IH]; intros [|a l] E; cbn in *; try discriminate; [congruence|]. apply IH. assumption. }
      assert (Hne' : iv <> []). { rewrite Eiv'. intro E0. apply (f_equal (@length _)) in E0. rewrite enum_length, skipn_length in E0. cbn in E0. lia. }
      destruct W as (W1 & W2 & W3). destruct (rlt (snd mn) nv) eqn:E4.
      * apply rlt_spec in E4. pose proof (remove_perm mn tl Hmn) as Hr.
        destruct (IH (S j) (remove_row mn tl ++ [((j + k)%nat, nv)]) (mn :: out) Eiv' Hne') as (l & El & Hl & _).
        { split; [|split].
          - rewrite Efirst, <- W1. apply swap_perm. assumption.
          - rewrite app_length. cbn [length]. apply Permutation_length in Hr. cbn in Hr. lia.
          - intros p q Hp Hq. apply in_app_or in Hp. destruct Hp as [Hp|[<-|[]]].
            + assert (Hp' : In p tl) by (rewrite Hr; right; assumption). destruct Hq as [<-|Hq]; [apply Hmin; assumption|apply W3; assumption].
            + cbn [snd]. destruct Hq as [<-|Hq]; [lra|]. pose proof (W3 mn q Hmn Hq). lra. }
        exists l. split; [exact El|]. split; [exact Hl|]. lra.
      * apply rlt_nspec in E4. destruct (IH (S j) tl (out ++ [((j + k)%nat, nv)]) Eiv' Hne') as (l & El & Hl & _).
        { split; [|split; [assumption|]].
          - rewrite Efirst, <- W1, app_assoc. reflexivity.
          - intros p q Hp Hq. apply in_app_or in Hq. destruct Hq as [Hq|[<-|[]]]; [apply W3; assumption|]. cbn. pose proof (Hmin p Hp). lra. }
        exists l. split; [exact El|]. split; [exact Hl|]. lra.
Qed.

Lemma NoDup_app_intro {A} (l1 l2 : list A) : NoDup l1 -> NoDup l2 -> (forall x, In x l1 -> ~ In x l2) -> NoDup (l1 ++ l2).
Proof.
  intros H1 H2 H. induction H1 as [|a l Hn H1 IH]; cbn [app]; [assumption|]. constructor.
  - intro Hi. apply in_app_or in Hi. destruct Hi; [contradiction|]. apply (H a); [left; reflexivity|assumption].
  - apply IH. intros x Hx. apply H. right. assumption.
Qed.
(** C33 *)
Lemma positions_perm (numbers : list R) l : NoDup l -> (forall i, In i l -> (i < length numbers)%nat) -> exists r, Permutation numbers (map (fun i => nth i numbers 0) l ++ r).
Proof.
  intros N V. assert (E : Permutation (seq 0 (length numbers)) (l ++ filter (fun i => negb (if in_dec Nat.eq_dec i l then true else false)) (seq 0 (length numbers)))).
  { apply NoDup_Permutation; [apply seq_NoDup| |].
    - apply NoDup_app_intro; [assumption|apply NoDup_filter, seq_NoDup|]. intros x Hx Hf. apply filter_In in Hf. destruct Hf as [_ Hf]. destruct (in_dec Nat.eq_dec x l); [discriminate|contradiction].
    - intros x. rewrite in_app_iff, filter_In. split.
      + intros Hx. destruct (in_dec Nat.eq_dec x l); [left; assumption|right; split; [assumption|reflexivity]].
      + intros [Hx|[Hx _]]; [apply in_seq; specialize (V x Hx); lia|assumption]. }
  exists (map (fun i => nth i numbers 0) (filter (fun i => negb (if in_dec Nat.eq_dec i l then true else false)) (seq 0 (length numbers)))).
  rewrite <- map_app, <- E. assert (En : numbers = map (fun i => nth i numbers 0) (seq 0 (length numbers))).
  { clear. induction numbers as [|a l IH]; [reflexivity|]. cbn [length seq map]. f_equal. rewrite <- seq_shift, map_map. exact IH. }
  rewrite <- En. reflexivity.
Qed.
Lemma maxfill_upper numbers k l : Forall (fun a => 0 <= a) numbers -> NoDup l -> (forall i, In i l -> (i < length numbers)%nat) -> (length l <= k)%nat -> rsum (map (fun i => nth i numbers 0) l) <= maxfill numbers k.
Proof.
  intros P N V L. destruct (positions_perm numbers l N V) as (r & E). apply (top_largest _ (sort_desc_desc numbers)) with (r := r).
  - rewrite Forall_forall in *. intros a Ha. apply P. rewrite (sort_perm numbers). assumption.
  - rewrite <- sort_perm. assumption.
  - rewrite map_length. assumption.
Qed.
Lemma enum_firstn l : forall k i, map fst (firstn k (enumerate i l)) = seq i (Nat.min k (length l)).
Proof. induction l as [|a l IH]; intros [|k] i; cbn; try reflexivity. f_equal. apply IH. Qed.
Lemma window_start numbers k : window numbers k 0 (firstn k (enumerate 0 numbers)) [].
Proof. split; [rewrite app_nil_r; reflexivity|]. split; [rewrite firstn_length, enum_length; reflexivity|]. intros p q _ []. Qed.
Lemma select_selected numbers threshold k : numbers <> [] -> (1 <= k)%nat -> (forall a, In a numbers -> 0 <= a) -> exists l, select numbers threshold k = Ret (Some l) /\ selected numbers threshold k l /\
  (threshold <= rsum (firstn k numbers) -> l = seq 0 (Nat.min k (length numbers))).
Proof.
  intros Hne Hk P. assert (P' : Forall (fun a => 0 <= a) numbers) by (apply Forall_forall; assumption). unfold select.
  assert (Hiv : enumerate 0 numbers <> []) by (destruct numbers; [congruence|discriminate]).
  destruct (max_item_spec _ Hiv) as (mx & -> & _ & Hmx). cbn [rbind]. fold (maxfill numbers k).
  destruct (loop_result numbers threshold k (snd mx) Hk P') with (iv := enumerate 0 numbers) (j := O) (tl := firstn k (enumerate 0 numbers)) (out := @nil (nat * R)) as (l & El & Hl & H0); [|reflexivity|assumption|apply window_start|].
  - intros a Ha. rewrite <- (enum_snd numbers 0) in Ha. apply in_map_iff in Ha. destruct Ha as (p & <- & Hp). apply Hmx. assumption.
  - exists l. split; [exact El|]. split; [assumption|]. intros Ht. rewrite (H0 eq_refl); [apply enum_firstn|]. unfold sum_me. rewrite <- firstn_map, enum_snd. assumption.
Qed.
Lemma select_spec numbers threshold k : numbers <> [] -> (1 <= k)%nat -> (forall a, In a numbers -> 0 <= a) ->
  exists l, select numbers threshold k = Ret (Some l) /\ NoDup l /\ (forall i, In i l -> (i < length numbers)%nat) /\ length l = Nat.min k (length numbers) /\
    (threshold <= rsum (map (fun i => nth i numbers 0) l) \/
     forall l', NoDup l' -> (forall i, In i l' -> (i < length numbers)%nat) -> (length l' <= k)%nat -> rsum (map (fun i => nth i numbers 0) l') <= rsum (map (fun i => nth i numbers 0) l)) /\
    (threshold <= rsum (firstn k numbers) -> l = seq 0 (Nat.min k (length numbers))).
Proof.
  intros Hne Hk P. destruct (select_selected numbers threshold k Hne Hk P) as (l & El & (N & V & L & H) & H0). exists l. split; [assumption|]. split; [assumption|]. split; [assumption|]. split; [assumption|]. split; [|assumption].
  cbv zeta in H. destruct H as [[H _]|[H _]]; [left; assumption|right]. intros l' N' V' L'. rewrite H. apply maxfill_upper; try assumption. apply Forall_forall. assumption.
Qed.
(** with k = 0 nothing is selected *)
Lemma select_zero numbers threshold : numbers <> [] -> select numbers threshold 0 = Ret (Some []).
Proof.
  intros Hne. unfold select. assert (Hiv : enumerate 0 numbers <> []) by (destruct numbers; [congruence|discriminate]). destruct (max_item_spec _ Hiv) as (mx & -> & _). cbn [rbind firstn]. change (rsum []) with 0.
  destruct (enumerate 0 numbers) as [|[i v] iv] eqn:E; [congruence|]. cbn [select_loop]. unfold sum_me. cbn [map]. change (rsum []) with 0. unfold assertion_checks. cbn [length Nat.ltb Nat.leb map]. change (distinct []) with O. cbn [Nat.eqb].
  destruct (rle threshold 0) eqn:Et; cbn [negb andb]; [reflexivity|]. unfold req. destruct (Req_EM_T 0 0); [reflexivity|congruence].
Qed.
Lemma select_empty threshold k : select [] threshold k = Raise ValueError. Proof. reflexivity. Qed.
