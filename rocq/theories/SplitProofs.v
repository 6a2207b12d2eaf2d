From Coq Require Import Reals Lra Lia Bool List Arith Permutation.
From Verif Require Import CurveModel CurveProofs OrderModel ExactModel ExactSpec ExactProofs ExactProofs2 ExactProofs3 ExactProofs4 ExactProofs5 ExactProofs6 SplitSpec.
Import ListNotations.
Local Open Scope R_scope.

(** ** fills of a match *)
Lemma fold_zero {A} (l : list A) f : (forall a, In a l -> f a = 0) -> fold_right Rplus 0 (map f l) = 0.
Proof. induction l as [|a l IH]; intros H; [reflexivity|]. cbn [map fold_right]. rewrite H by (left; reflexivity). rewrite IH by (intros; apply H; right; assumption). ring. Qed.
Lemma action_field ti tout (l : list (nat * R * R)) i :
  taken (actions ti tout l) i = fold_right Rplus 0 (map (fun r => if Nat.eq_dec (fst (fst r)) i then - snd r else 0) l) /\
  paid (actions ti tout l) i = fold_right Rplus 0 (map (fun r => if Nat.eq_dec (fst (fst r)) i then snd (fst r) else 0) l).
Proof.
  revert ti tout. induction l as [|[[j a] b] l IH]; intros ti tout; [split; reflexivity|]. cbn [actions]. unfold taken, paid. cbn [map fold_right ac_index ac_output ac_input fst snd].
  destruct (IH (ti + a) (tout + b)) as [E1 E2]. unfold taken in E1. unfold paid in E2. rewrite E1, E2. split; reflexivity.
Qed.
Lemma pick (g : nat -> R) L i : NoDup L -> fold_right Rplus 0 (map (fun j => if Nat.eq_dec j i then g j else 0) L) = if in_dec Nat.eq_dec i L then g i else 0.
Proof.
  induction L as [|j L IH]; intros N; [reflexivity|]. inversion N as [|? ? N1 N2]; subst. cbn [map fold_right]. rewrite (IH N2). destruct (Nat.eq_dec j i) as [->|E].
  - destruct (in_dec Nat.eq_dec i L); [contradiction|]. destruct (in_dec Nat.eq_dec i (i :: L)) as [_|K]; [ring|]. exfalso. apply K. left; reflexivity.
  - destruct (in_dec Nat.eq_dec i L) as [H|H]; destruct (in_dec Nat.eq_dec i (j :: L)) as [K|K]; try ring.
    + exfalso. apply K. right; assumption.
    + destruct K; contradiction.
Qed.
Lemma fold_nonzero (g : nat * R -> R) s : (forall i, g (i, 0) = 0) -> fold_right Rplus 0 (map g (nonzero s)) = fold_right Rplus 0 (map g s).
Proof.
  intros G. induction s as [|[i v] s IH]; [reflexivity|]. unfold nonzero. cbn [filter snd]. fold (nonzero s). unfold req. destruct (Req_EM_T v 0) as [->|E]; cbn [negb map fold_right].
  - rewrite G, Rplus_0_l. exact IH.
  - f_equal. exact IH.
Qed.
Lemma fills os L v i : NoDup L -> (forall j, ~ In j L -> v j = 0) -> let acts := actions 0 0 (map (row os) (nonzero (map (fun j => (j, v j)) L))) in
  taken acts i = - v i /\ paid acts i = payment (getx os i) (- v i).
Proof.
  intros N V acts. destruct (action_field 0 0 (map (row os) (nonzero (map (fun j => (j, v j)) L))) i) as [E1 E2]. unfold acts. rewrite E1, E2, !map_map. cbn [row fst snd].
  rewrite (fold_nonzero (fun kv => if Nat.eq_dec (fst kv) i then - snd kv else 0)) by (intros j; cbn [fst snd]; destruct (Nat.eq_dec j i); lra).
  rewrite (fold_nonzero (fun kv => if Nat.eq_dec (fst kv) i then payment (getx os (fst kv)) (- snd kv) else 0)) by (intros j; cbn [fst snd]; rewrite Ropp_0, payment_zero; destruct (Nat.eq_dec j i); reflexivity).
  rewrite !map_map. cbn [fst snd]. rewrite (pick (fun j => - v j)), (pick (fun j => payment (getx os j) (- v j))) by assumption.
  destruct (in_dec Nat.eq_dec i L) as [H|H]; [split; reflexivity|]. rewrite (V i H), Ropp_0, payment_zero. split; reflexivity.
Qed.
(** ** a match is a common level *)
Lemma matched b fuel infuel os level A check sp : all_sane os level -> (b = true -> forall i, In i level -> (i < length os)%nat) -> (length os < fuel)%nat -> (length os + 1 < infuel)%nat ->
  0 < A -> A <= total (full b os) (eligible os level) ->
  exists acts lam v, exact_match fuel infuel os (amount b A) b check level sp = Some (Ret acts) /\ 0 < lam /\ (forall i, usable os level i -> v i = clamp lam (getx os i)) /\ (forall i, ~ usable os level i -> v i = 0) /\
    total (fun i => serves b (getx os i) (v i)) (eligible os level) = A /\ forall i, taken acts i = - v i /\ paid acts i = payment (getx os i) (- v i).
Proof.
  intros Hs Hin Hf Hi HA Hle. unfold exact_match. rewrite match_unfold.
  assert (Rq : request os (amount b A) b check level sp = Ret (amount b A)).
  { destruct b; [|reflexivity]. apply request_target; try assumption; [|apply Hin; reflexivity]. eapply Rle_trans; [exact Hle|]. right. apply total_ext. intros i _. unfold full, serves. ring. }
  rewrite Rq. cbv iota beta. fold (split_of b os).
  destruct (routing b os level A fuel infuel Hs Hf Hi HA) as (F & p & L & v & Eo & Em & NL & UL & V0 & VB & Hcase). rewrite Eo.
  assert (Hb : bounded os level F p) by (eapply outer_bounded; [apply drained_nil|exact Eo]). destruct (merged_eq _ _ _ _ Hb) as [-> _]. rewrite Em.
  destruct Hcase as [[Hd Hlt]|[Htot (lam & Hl & Hv)]].
  { exfalso. rewrite (eligible_full b os level v Hd) in Hlt. lra. }
  assert (HTL : total (fun i => serves b (getx os i) (v i)) L = A) by (rewrite <- Htot; apply (total_L os level L v (fun i => serves b (getx os i))); try assumption; intros; apply serves_zero).
  rewrite (finish_value b os level A sp L v A Hs); try assumption; try lra.
  2:{ intros i Hi'. split; [apply UL; assumption|apply VB, UL; assumption]. }
  2:{ left. replace (A / A) with 1 by (field; lra). lra. }
  eexists. exists lam, v. split; [reflexivity|]. split; [assumption|]. split; [assumption|]. split; [intros i Hu; apply V0; intro K; apply Hu, UL; exact K|]. split; [assumption|].
  intros i. apply fills; assumption.
Qed.
(** ** books with changed balances *)
Lemma getx_settled os acts i : getx (settled os acts) i = if lt_dec i (length os) then with_balance (getx os i) (xo_y (getx os i) - taken acts i) else mkX 0 0 0 0.
Proof.
  unfold getx, settled. destruct (lt_dec i (length os)) as [L|L].
  - erewrite nth_indep by (rewrite map_length, seq_length; exact L). rewrite (map_nth (fun j => with_balance (nth j os (mkX 0 0 0 0)) (xo_y (nth j os (mkX 0 0 0 0)) - taken acts j)) _ 0%nat). rewrite seq_nth by assumption. reflexivity.
  - apply nth_overflow. rewrite map_length, seq_length. lia.
Qed.
Lemma settled_length os acts : length (settled os acts) = length os.
Proof. unfold settled. rewrite map_length, seq_length. reflexivity. Qed.
Lemma depth_with o u w : depth (with_balance o u) w = depth o (u + w - xo_y o).
Proof. unfold depth, with_balance; cbn. ring. Qed.
Lemma level_with lam o u : sane o -> at_level lam (with_balance o u) = at_level lam o - (u - xo_y o).
Proof. intros ((H & _) & _). unfold at_level. rewrite depth_with. unfold root, depth, with_balance; cbn. field. lra. Qed.
Lemma sane_with o u : sane o -> 0 <= u -> sane (with_balance o u).
Proof. intros (A & B & C & _) H. unfold sane, with_balance; cbn. auto. Qed.
(** payments add up *)
Lemma payment_parts o t s : sane o -> 0 < depth o (- t) -> 0 < depth o (- (t + s)) -> payment o t + payment (with_balance o (xo_y o - t)) s = payment o (t + s).
Proof.
  intros H H1 H2. assert (H0 : 0 < depth o 0) by (apply depth0_pos; assumption). unfold payment. rewrite !depth_with. cbn [with_balance xo_x0 xo_y0].
  replace (xo_y o - t + 0 - xo_y o) with (- t) by ring. replace (xo_y o - t + - s - xo_y o) with (- (t + s)) by ring.
  assert (E1 : depth o 0 = depth o (- t) + xo_n o * t) by (unfold depth; ring). assert (E2 : depth o (- t) = depth o (- (t + s)) + xo_n o * s) by (unfold depth; ring).
  set (a := depth o 0) in *. set (b := depth o (- t)) in *. set (c := depth o (- (t + s))) in *.
  replace (xo_x0 o * xo_y0 o * t / (a * b) + xo_x0 o * xo_y0 o * s / (b * c)) with (xo_x0 o * xo_y0 o * (t * c + s * a) / (a * b * c)) by (field; lra).
  replace (t * c + s * a) with ((t + s) * b) by (rewrite E1, E2; ring). field. lra.
Qed.
Lemma depth_left o t : sane o -> t <= xo_y o -> 0 < depth o (- t).
Proof.
  intros H Ht. pose proof (empty_depth o H) as He. rewrite (depth_shift _ (- t)). rewrite (depth_shift _ (- _)) in He. destruct H as (? & _). assert (xo_n o * - xo_y o <= xo_n o * - t) by (apply Rmult_le_compat_l; lra). lra.
Qed.
Lemma serves_parts b o v w : sane o -> - xo_y o <= v -> - xo_y o <= v + w -> serves b o v + serves b (with_balance o (xo_y o + v)) w = serves b o (v + w).
Proof.
  intros H Hv Hw. destruct b; unfold serves; [ring|]. replace (xo_y o + v) with (xo_y o - - v) by ring. replace (- (v + w)) with (- v + - w) by ring.
  apply payment_parts; [assumption|apply depth_left; [assumption|lra]|]. apply depth_left; [assumption|lra].
Qed.
Lemma clamp_bounds lam o : sane o -> - xo_y o <= clamp lam o <= 0.
Proof. intros (_ & _ & _ & Hy). unfold clamp. split; [apply Rmax_l|]. apply Rmax_lub; [lra|]. apply Rmin_r. Qed.
Lemma clamp_mono lam mu o : sane o -> mu <= lam -> clamp mu o <= clamp lam o.
Proof. intros H L. unfold clamp. apply Rle_max_compat_l. apply Rle_min_compat_r. apply level_le; assumption. Qed.
(** the second level in terms of the first book *)
Lemma clamp_parts lam mu o : sane o -> mu <= lam -> let v := clamp lam o in v + clamp mu (with_balance o (xo_y o + v)) = clamp mu o.
Proof.
  intros H L v. pose proof (clamp_bounds lam o H) as [B1 B2]. fold v in B1, B2. pose proof (level_le mu lam o H L) as Ll. unfold clamp at 1. rewrite level_with by assumption. cbn [with_balance xo_y].
  unfold v in *. unfold clamp in *. set (a := at_level lam o) in *. set (m := at_level mu o) in *. set (y := xo_y o) in *.
  assert (Hy : 0 <= y) by (unfold y; apply H). clearbody a m y. clear v.
  unfold Rmax, Rmin in *. repeat match goal with |- context [Rle_dec ?p ?q] => destruct (Rle_dec p q) | K : context [Rle_dec ?p ?q] |- _ => destruct (Rle_dec p q) end; lra.
Qed.
Lemma clamp_idle lam mu o : sane o -> lam < mu -> let v := clamp lam o in xo_y o + v <> 0 -> clamp mu (with_balance o (xo_y o + v)) = 0.
Proof.
  intros H L v N. pose proof (clamp_bounds lam o H) as [B1 B2]. fold v in B1, B2. pose proof (level_lt lam mu o H L) as Ll. unfold clamp. rewrite level_with by assumption. cbn [with_balance xo_y].
  unfold v in *. unfold clamp in *. set (a := at_level lam o) in *. set (m := at_level mu o) in *. set (y := xo_y o) in *.
  assert (Hy : 0 <= y) by (unfold y; apply H). clearbody a m y. clear v.
  unfold Rmax, Rmin in *. repeat match goal with |- context [Rle_dec ?p ?q] => destruct (Rle_dec p q) | K : context [Rle_dec ?p ?q] |- _ => destruct (Rle_dec p q) end; lra.
Qed.
(** ** one level per amount *)
Lemma total_equal f g l : (forall i, In i l -> f i <= g i) -> total f l = total g l -> forall i, In i l -> f i = g i.
Proof.
  induction l as [|a l IH]; intros H E i Hi; [destruct Hi|]. unfold total in E. cbn [map fold_right] in E. fold (total f l) in E. fold (total g l) in E.
  assert (L : total f l <= total g l) by (apply total_le; intros; apply H; right; assumption). pose proof (H a (or_introl eq_refl)).
  destruct Hi as [<-|Hi]; [lra|]. apply IH; [intros; apply H; right; assumption|lra|assumption].
Qed.
Lemma one_level b os level lam mu : all_sane os level -> mu <= lam ->
  total (fun i => serves b (getx os i) (clamp lam (getx os i))) (eligible os level) = total (fun i => serves b (getx os i) (clamp mu (getx os i))) (eligible os level) ->
  forall i, usable os level i -> clamp lam (getx os i) = clamp mu (getx os i).
Proof.
  intros Hs L E i Hu. assert (Hsi := Hs i Hu). pose proof (clamp_mono lam mu (getx os i) Hsi L) as M.
  assert (D : forall j, usable os level j -> b = true \/ 0 < depth (getx os j) (clamp mu (getx os j))).
  { intros j Hj. right. replace (clamp mu (getx os j)) with (- - clamp mu (getx os j)) by ring. apply depth_left; [apply Hs; assumption|]. pose proof (clamp_bounds mu _ (Hs j Hj)). lra. }
  assert (Q : serves b (getx os i) (clamp lam (getx os i)) = serves b (getx os i) (clamp mu (getx os i))).
  { apply (total_equal (fun i => serves b (getx os i) (clamp lam (getx os i))) (fun i => serves b (getx os i) (clamp mu (getx os i))) (eligible os level)); [|exact E|apply in_eligible; assumption].
    intros j Hj. apply in_eligible in Hj. apply serves_le; [apply Hs; assumption|apply D; assumption|]. apply clamp_mono; [apply Hs; assumption|assumption]. }
  destruct (Rle_lt_or_eq_dec _ _ M) as [Lt|Eq]; [|symmetry; exact Eq]. pose proof (serves_lt b _ _ _ Hsi (D i Hu) Lt). lra.
Qed.
