(** Interpolated paths and the window read from a stored series *)
From Coq Require Import Reals ZArith List Bool String Lra Lia.
From Verif Require Import PairModel PairProofs CurveModel CurveProofs UiModel UiProofs PathModel PathSpec PathProofs.
From Verif Require SdkModel SdkSpec SdkProofs3.
Import ListNotations.
Local Open Scope R_scope.

(** ** one segment *)
Lemma round_ratio r : 1 <= r -> (1 <= round0 r)%Z /\ 3 / 4 * IZR (round0 r) <= r <= 3 / 2 * IZR (round0 r).
Proof.
  intros H. pose proof (round0_near r) as N.
  assert (A : - / 2 <= IZR (round0 r) - r <= / 2) by (revert N; unfold Rabs; destruct (Rcase_abs _); lra). clear N.
  assert (P : (1 <= round0 r)%Z). { assert (0 < round0 r)%Z; [|lia]. apply lt_IZR. lra. } split; [exact P|].
  destruct (Z.eq_dec (round0 r) 1) as [E|E]; [rewrite E in *; lra|]. assert (Q : 2 <= IZR (round0 r)) by (apply (IZR_le 2); lia). lra.
Qed.
Definition act (p q : R * R) (period : R) : R := (fst q - fst p) / IZR (round0 ((fst q - fst p) / period)).
Definition sn (p q : R * R) (period : R) : nat := Z.to_nat (round0 ((fst q - fst p) / period)).
Definition pt (p q : R * R) (sig period : R) (z : nat -> R) (i : nat) : R * R :=
  (fst p + INR i * act p q period,
   snd p + (snd q - snd p) * (INR i / INR (sn p q period)) + sig * sqrt ((fst q - fst p) / YEAR) * (snd p + snd q) / 2 * sqrt (1 / INR (sn p q period)) * (walk z i - INR i / INR (sn p q period) * walk z (sn p q period))).
Lemma nth_eq {A} (l l' : list A) d : List.length l = List.length l' -> (forall i, (i < List.length l)%nat -> nth i l d = nth i l' d) -> l = l'.
Proof. intros L H. apply (nth_ext l l' d d L H). Qed.
Lemma combine_map_seq (f : nat -> R) l n : List.length l = n -> combine (map f (seq 0 n)) l = map (fun i => (f i, nth i l 0)) (seq 0 n).
Proof.
  intros L. apply (nth_eq _ _ (0, 0)); [rewrite combine_length, !map_length, seq_length, L; lia|]. intros i Hi. rewrite combine_length, map_length, seq_length, L, Nat.min_id in Hi.
  rewrite combine_nth by (rewrite map_length, seq_length; lia). rewrite (nth_indep (map f _) 0 (f 0%nat)) by (rewrite map_length, seq_length; lia). rewrite map_nth, seq_nth by lia.
  set (g := fun i => (f i, nth i l 0)). rewrite (nth_indep (map g _) (0, 0) (g 0%nat)) by (rewrite map_length, seq_length; lia). rewrite map_nth, seq_nth by lia. reflexivity.
Qed.
Lemma segment_spec p q sig period z : 0 < period -> period <= fst q - fst p -> 0 <= sig -> 0 < snd p -> 0 < snd q ->
  (1 <= sn p q period)%nat /\ 3 / 4 * period <= act p q period <= 3 / 2 * period /\ INR (sn p q period) * act p q period = fst q - fst p /\
  interpolate_segment p q sig period z = Ret (map (pt p q sig period z) (seq 0 (S (sn p q period)))).
Proof.
  intros Hp Hg Hs Ha Hb. set (td := fst q - fst p) in *. assert (R1 : 1 <= td / period) by (apply (Rmult_le_reg_r period); [exact Hp|]; unfold Rdiv; rewrite Rmult_assoc, Rinv_l by lra; lra).
  destruct (round_ratio _ R1) as [N [A B]]. unfold sn, act. fold td. set (n := round0 (td / period)) in *. assert (Nn : INR (Z.to_nat n) = IZR n) by (rewrite INR_IZR_INZ, Z2Nat.id by lia; reflexivity).
  assert (Np : 1 <= IZR n) by (apply (IZR_le 1); exact N). assert (T : td = td / period * period) by (field; lra).
  split; [lia|]. split.
  { assert (X : td / IZR n * IZR n = td) by (field; lra). assert (M1 : 3 / 4 * IZR n * period <= td) by (rewrite T; apply Rmult_le_compat_r; lra). assert (M2 : td <= 3 / 2 * IZR n * period) by (rewrite T at 1; apply Rmult_le_compat_r; lra).
    split; apply (Rmult_le_reg_r (IZR n)); lra. }
  split; [rewrite Nn; field; lra|].
  unfold interpolate_segment. fold td. rewrite rlt_false by lra. rewrite rdiv_ok by lra. cbn [rbind]. fold n. rewrite rdiv_ok by lra. cbn [rbind].
  assert (Y : 0 <= td / YEAR) by (apply Rmult_le_pos; [lra|left; apply Rinv_0_lt_compat; unfold YEAR; lra]). rewrite rlt_false by lra.
  destruct (bridge_spec (snd p) (snd q) (sig * sqrt (td / YEAR)) n z) as (path & E & L & V); [lia|apply Rmult_le_pos; [apply Rmult_le_pos; [exact Hs|apply sqrt_pos]|lra]|lra|]. rewrite E. cbn [rbind].
  replace (Z.to_nat (n + 1)) with (S (Z.to_nat n)) by lia. rewrite combine_map_seq by exact L. f_equal. apply map_ext_in. intros i I. apply in_seq in I. unfold pt, act, sn. fold td. fold n. rewrite Nn. f_equal. apply V. lia.
Qed.
Lemma segment_short p q sig period z : fst q - fst p < period -> interpolate_segment p q sig period z = Ret [p].
Proof. intros H. unfold interpolate_segment. rewrite rlt_true by exact H. reflexivity. Qed.
Lemma removelast_map_seq {A} (f : nat -> A) n : removelast (map f (seq 0 (S n))) = map f (seq 0 n).
Proof. rewrite seq_S, map_app. cbn [map]. apply removelast_last. Qed.

(** ** a whole path *)
Definition seg (p q : R * R) (sig period : R) (z : nat -> R) : list (R * R) := if Rlt_dec (fst q - fst p) period then [] else map (pt p q sig period z) (seq 0 (sn p q period)).
Fixpoint inter (draw : nat -> nat -> R) (i : nat) (path : series) (sig period : R) : series :=
  match path with p :: ((q :: _) as r) => seg p q sig period (draw i) ++ inter draw (S i) r sig period | _ => path end.
Lemma from_spec draw sig period path : 0 < period -> 0 <= sig -> Forall (fun p => 0 < snd p) path -> forall i, interpolate_from draw i path sig period = Ret (inter draw i path sig period).
Proof.
  intros Hp Hs. induction path as [|p r IH]; intros F i; [reflexivity|]. destruct r as [|q r]; [reflexivity|]. inversion F as [|? ? Fp F']; subst. inversion F'; subst.
  change (interpolate_from draw i (p :: q :: r) sig period) with (let* s := interpolate_segment p q sig period (draw i) in let* rest := interpolate_from draw (S i) (q :: r) sig period in Ret (removelast s ++ rest)%list).
  rewrite (IH F' (S i)). unfold inter at 2. fold inter. unfold seg. destruct (Rlt_dec _ _) as [L|L]; [rewrite segment_short by exact L; reflexivity|].
  destruct (segment_spec p q sig period (draw i)) as (_ & _ & _ & E); try assumption; try lra. rewrite E. cbn [rbind]. rewrite removelast_map_seq. reflexivity.
Qed.
Lemma pt_0 p q sig period z : pt p q sig period z 0 = p.
Proof. unfold pt. cbn [INR walk]. destruct p as [t v]. cbn. f_equal; unfold Rdiv; ring. Qed.
Lemma among_pre {A} (l l' m : list A) : among l l' -> among l (m ++ l').
Proof. intros H. induction m as [|a m IH]; [exact H|]. cbn. constructor. exact IH. Qed.
Lemma inter_among draw sig period path : 0 < period -> 0 <= sig -> Forall (fun p => 0 < snd p) path -> forall i, among (survivors period path) (inter draw i path sig period).
Proof.
  intros Hp Hs. induction path as [|p r IH]; intros F i; [constructor|]. destruct r as [|q r]; [apply among_keep, among_nil|]. inversion F as [|? ? Fp F']; subst. inversion F'; subst. specialize (IH F' (S i)).
  change (survivors period (p :: q :: r)) with (if Rlt_dec (fst q - fst p) period then survivors period (q :: r) else p :: survivors period (q :: r)).
  change (inter draw i (p :: q :: r) sig period) with (seg p q sig period (draw i) ++ inter draw (S i) (q :: r) sig period). unfold seg. destruct (Rlt_dec _ _) as [L|L]; [exact IH|].
  destruct (segment_spec p q sig period (draw i)) as (N & _); try assumption; try lra. destruct (sn p q period) as [|n]; [lia|]. cbn [seq map app]. rewrite pt_0. apply among_keep, among_pre, IH.
Qed.
Lemma inter_nonempty draw sig period path : path <> [] -> forall i, inter draw i path sig period <> [] /\ last (inter draw i path sig period) (0, 0) = last path (0, 0).
Proof.
  induction path as [|p r IH]; intros N i; [contradiction|]. destruct r as [|q r]; [split; [discriminate|reflexivity]|]. destruct (IH ltac:(discriminate) (S i)) as [A B].
  change (inter draw i (p :: q :: r) sig period) with (seg p q sig period (draw i) ++ inter draw (S i) (q :: r) sig period). split; [intros E; apply app_eq_nil in E as [_ E]; contradiction|].
  change (last (p :: q :: r) (0, 0)) with (last (q :: r) (0, 0)). rewrite <- B. clear B. induction (seg p q sig period (draw i)) as [|x m IHm]; [reflexivity|]. cbn [app]. destruct (m ++ inter draw (S i) (q :: r) sig period) eqn:E; [apply app_eq_nil in E as [_ E]; contradiction|]. rewrite <- IHm. reflexivity.
Qed.
Lemma inter_length draw sig period path : 0 < period -> forall i, Z.of_nat (List.length (inter draw i path sig period)) = points period path.
Proof.
  intros Hp. induction path as [|p r IH]; intros i; [reflexivity|]. destruct r as [|q r]; [reflexivity|].
  change (inter draw i (p :: q :: r) sig period) with (seg p q sig period (draw i) ++ inter draw (S i) (q :: r) sig period).
  change (points period (p :: q :: r)) with ((if Rlt_dec (fst q - fst p) period then 0 else round0 ((fst q - fst p) / period)) + points period (q :: r))%Z.
  rewrite app_length, Nat2Z.inj_add, IH. f_equal. unfold seg. destruct (Rlt_dec _ _) as [L|L]; [reflexivity|]. rewrite map_length, seq_length. unfold sn. apply Z2Nat.id.
  assert (R1 : 1 <= (fst q - fst p) / period) by (apply (Rmult_le_reg_r period); [exact Hp|]; unfold Rdiv; rewrite Rmult_assoc, Rinv_l by lra; lra). destruct (round_ratio _ R1). lia.
Qed.
(** steps *)
Fixpoint chain (lo hi : R) (l : series) : Prop := match l with a :: ((b :: _) as r) => lo <= fst b - fst a <= hi /\ chain lo hi r | _ => True end.
Lemma chain_next lo hi l a b : chain lo hi l -> next_to a b l -> lo <= fst b - fst a <= hi.
Proof.
  intros C (l1 & l2 & ->). induction l1 as [|x l1 IH]; [exact (proj1 C)|]. apply IH. destruct l1 as [|y l1]; cbn [app] in *; exact (proj2 C).
Qed.
Lemma chain_seg lo hi (f : nat -> R * R) t d n r rest : (forall i, fst (f i) = t + INR i * d) -> lo <= d <= hi -> fst r = t + INR n * d -> chain lo hi (r :: rest) -> forall k s, (s + k = n)%nat -> chain lo hi (map f (seq s k) ++ r :: rest).
Proof.
  intros Hf Hd Hr C. induction k as [|k IH]; intros s E; [exact C|]. cbn [seq map app]. specialize (IH (S s) ltac:(lia)). destruct k as [|k].
  - cbn [seq map app] in *. split; [|exact C]. rewrite Hr, Hf. replace n with (S s) by lia. rewrite S_INR. lra.
  - cbn [seq map app] in *. split; [|exact IH]. rewrite !Hf, S_INR. lra.
Qed.
Lemma inter_head draw sig period path : 0 < period -> 0 <= sig -> Forall (fun p => 0 < snd p) path -> (forall p q, next_to p q path -> period <= fst q - fst p) -> path <> [] -> forall i, exists rest, inter draw i path sig period = hd (0, 0) path :: rest.
Proof.
  intros Hp Hs F G N i. destruct path as [|p [|q r]]; [contradiction|exists []; reflexivity|]. inversion F as [|? ? Fp F']; subst. inversion F'; subst. assert (Hg : period <= fst q - fst p) by (apply G; exists [], r; reflexivity).
  change (inter draw i (p :: q :: r) sig period) with (seg p q sig period (draw i) ++ inter draw (S i) (q :: r) sig period). unfold seg. destruct (Rlt_dec _ _) as [L|L]; [lra|].
  destruct (segment_spec p q sig period (draw i)) as (Nn & _); try assumption. destruct (sn p q period) as [|n]; [lia|]. cbn [seq map app hd]. rewrite pt_0. eexists. reflexivity.
Qed.
Lemma inter_chain draw sig period path : 0 < period -> 0 <= sig -> Forall (fun p => 0 < snd p) path -> (forall p q, next_to p q path -> period <= fst q - fst p) -> forall i, chain (3 / 4 * period) (3 / 2 * period) (inter draw i path sig period).
Proof.
  intros Hp Hs. induction path as [|p r IH]; intros F G i; [exact I|]. destruct r as [|q r]; [exact I|]. inversion F as [|? ? Fp F']; subst. pose proof F' as F''. inversion F''; subst. assert (Hg : period <= fst q - fst p) by (apply G; exists [], r; reflexivity).
  assert (G' : forall a b, next_to a b (q :: r) -> period <= fst b - fst a). { intros a b (l1 & l2 & E). apply G. exists (p :: l1), l2. rewrite E. reflexivity. } specialize (IH F' G' (S i)).
  destruct (inter_head draw sig period (q :: r) Hp Hs F' G' ltac:(discriminate) (S i)) as (rest & E). cbn [hd] in E.
  change (inter draw i (p :: q :: r) sig period) with (seg p q sig period (draw i) ++ inter draw (S i) (q :: r) sig period). unfold seg. destruct (Rlt_dec _ _) as [L|L]; [lra|]. rewrite E in *.
  destruct (segment_spec p q sig period (draw i)) as (Nn & Ac & T & _); try assumption. apply (chain_seg _ _ _ (fst p) (act p q period) (sn p q period)); [reflexivity|exact Ac|rewrite T; ring|exact IH|lia].
Qed.
Lemma next_cons {A} (p a b : A) l : next_to a b l -> next_to a b (p :: l).
Proof. intros (l1 & l2 & ->). exists (p :: l1), l2. reflexivity. Qed.
Lemma inter_within draw sig period path : 0 < period -> 0 <= sig -> Forall (fun p => 0 < snd p) path -> (2 <= List.length path)%nat -> (forall p q, next_to p q path -> fst p <= fst q) -> forall i u, In u (inter draw i path sig period) ->
  exists p q, next_to p q path /\ fst p <= fst u <= fst q /\ (sig = 0 -> (snd u - snd p) * (fst q - fst p) = (snd q - snd p) * (fst u - fst p)).
Proof.
  intros Hp Hs. induction path as [|p r IH]; intros F L G i u Hu; [cbn in L; lia|]. destruct r as [|q r]; [cbn in L; lia|]. inversion F as [|? ? Fp F']; subst. pose proof F' as F''. inversion F''; subst.
  change (inter draw i (p :: q :: r) sig period) with (seg p q sig period (draw i) ++ inter draw (S i) (q :: r) sig period) in Hu. apply in_app_or in Hu as [Hu|Hu].
  - exists p, q. split; [exists [], r; reflexivity|]. unfold seg in Hu. destruct (Rlt_dec _ _) as [T|T]; [destruct Hu|]. apply in_map_iff in Hu as (k & <- & K). apply in_seq in K.
    destruct (segment_spec p q sig period (draw i)) as (Nn & Ac & E & _); try assumption; try lra. cbn [pt fst snd]. assert (Kn : INR k <= INR (sn p q period)) by (apply le_INR; lia). pose proof (pos_INR k) as K0.
    assert (A1 : 0 <= INR k * act p q period) by (apply Rmult_le_pos; lra). assert (A2 : INR k * act p q period <= INR (sn p q period) * act p q period) by (apply Rmult_le_compat_r; lra). split; [lra|].
    intros ->. assert (Np : 0 < INR (sn p q period)) by (apply lt_0_INR; lia). rewrite <- E. field. lra.
  - destruct r as [|w r].
    + cbn in Hu. destruct Hu as [<-|[]]. exists p, q. split; [exists [], []; reflexivity|]. split; [|intros _; ring]. specialize (G p q). assert (next_to p q [p; q]) by (exists [], []; reflexivity). pose proof (G H). lra.
    + destruct (IH F' ltac:(cbn; lia) ltac:(intros a b X; apply G, next_cons; exact X) (S i) u Hu) as (a & b & N & X). exists a, b. split; [apply next_cons; exact N|exact X].
Qed.
Lemma survivors_all period path : (forall p q, next_to p q path -> period <= fst q - fst p) -> survivors period path = path.
Proof.
  induction path as [|p r IH]; intros G; [reflexivity|]. destruct r as [|q r]; [reflexivity|]. change (survivors period (p :: q :: r)) with (if Rlt_dec (fst q - fst p) period then survivors period (q :: r) else p :: survivors period (q :: r)).
  assert (period <= fst q - fst p) by (apply G; exists [], r; reflexivity). destruct (Rlt_dec _ _); [lra|]. rewrite IH; [reflexivity|]. intros a b X. apply G, next_cons, X.
Qed.
Lemma inter_coarse draw sig period path : path <> [] -> (forall p q, next_to p q path -> fst q - fst p < period) -> forall i, inter draw i path sig period = [last path (0, 0)].
Proof.
  induction path as [|p r IH]; intros N G i; [contradiction|]. destruct r as [|q r]; [reflexivity|]. change (inter draw i (p :: q :: r) sig period) with (seg p q sig period (draw i) ++ inter draw (S i) (q :: r) sig period).
  rewrite IH; [|discriminate|intros a b X; apply G, next_cons, X]. unfold seg. assert (fst q - fst p < period) by (apply G; exists [], r; reflexivity). destruct (Rlt_dec _ _); [reflexivity|lra].
Qed.
Lemma interpolate_some draw path period sig f : (2 <= List.length path)%nat -> interpolate draw path period (Some sig) f true = interpolate_from draw 0 path sig period.
Proof. intros L. unfold interpolate. cbn [negb rbind]. destruct path as [|p [|q r]]; cbn in L; try lia. reflexivity. Qed.
Lemma interpolate_main draw path period sig f : (2 <= List.length path)%nat -> 0 < period -> 0 <= sig -> Forall (fun p => 0 < snd p) path ->
  exists new, interpolate draw path period (Some sig) f true = Ret new /\ among (survivors period path) new /\ last new (0, 0) = last path (0, 0) /\ Z.of_nat (List.length new) = points period path.
Proof.
  intros L Hp Hs F. rewrite interpolate_some by exact L. rewrite from_spec by assumption. eexists. split; [reflexivity|]. split; [apply inter_among; assumption|]. split; [apply inter_nonempty; intros ->; cbn in L; lia|apply inter_length; exact Hp].
Qed.
Lemma interpolate_fine draw path period sig f : (2 <= List.length path)%nat -> 0 < period -> 0 <= sig -> Forall (fun p => 0 < snd p) path -> (forall p q, next_to p q path -> period <= fst q - fst p) ->
  exists new, interpolate draw path period (Some sig) f true = Ret new /\ among path new /\ hd (0, 0) new = hd (0, 0) path /\ last new (0, 0) = last path (0, 0) /\ (forall u v, next_to u v new -> 3 / 4 * period <= fst v - fst u <= 3 / 2 * period).
Proof.
  intros L Hp Hs F G. rewrite interpolate_some by exact L. rewrite from_spec by assumption. assert (N : path <> []) by (intros ->; cbn in L; lia). eexists. split; [reflexivity|]. split; [pose proof (inter_among draw sig period path Hp Hs F 0) as X; rewrite survivors_all in X by exact G; exact X|].
  split; [destruct (inter_head draw sig period path Hp Hs F G N 0) as (rest & ->); reflexivity|]. split; [apply inter_nonempty; exact N|]. intros u v X. apply (chain_next _ _ _ _ _ (inter_chain draw sig period path Hp Hs F G 0) X).
Qed.
Lemma interpolate_between draw path period sig f new : (2 <= List.length path)%nat -> 0 < period -> 0 <= sig -> Forall (fun p => 0 < snd p) path -> (forall p q, next_to p q path -> fst p <= fst q) -> interpolate draw path period (Some sig) f true = Ret new ->
  forall u, In u new -> exists p q, next_to p q path /\ fst p <= fst u <= fst q /\ (sig = 0 -> on_line p q (fst u) (snd u)).
Proof.
  intros L Hp Hs F G E u Hu. rewrite interpolate_some in E by exact L. rewrite from_spec in E by assumption. injection E as <-. destruct (inter_within draw sig period path Hp Hs F L G 0 u Hu) as (p & q & N & T & S). exists p, q. split; [exact N|]. split; [exact T|]. intros Z. split; [exact T|exact (S Z)].
Qed.
Lemma interpolate_coarse draw path period sig f : (2 <= List.length path)%nat -> (forall p q, next_to p q path -> fst q - fst p < period) -> interpolate draw path period (Some sig) f true = Ret [last path (0, 0)].
Proof.
  intros L G. rewrite interpolate_some by exact L. assert (N : path <> []) by (intros ->; cbn in L; lia). clear L. revert N G. generalize 0%nat. induction path as [|p r IH]; intros i N G; [contradiction|]. destruct r as [|q r]; [reflexivity|].
  change (interpolate_from draw i (p :: q :: r) sig period) with (let* s := interpolate_segment p q sig period (draw i) in let* rest := interpolate_from draw (S i) (q :: r) sig period in Ret (removelast s ++ rest)%list).
  rewrite segment_short by (apply G; exists [], r; reflexivity). cbn [rbind]. rewrite (IH (S i)); [reflexivity|discriminate|intros a b X; apply G, next_cons, X].
Qed.
Lemma interpolate_options draw path period : (forall s f, interpolate draw path period s f false = Ret path) /\
  (forall s f f', interpolate draw path period (Some s) f true = interpolate draw path period (Some s) f' true) /\
  (forall s f, (List.length path < 2)%nat -> interpolate draw path period (Some s) f true = Raise ValueError) /\
  (interpolate draw [] period None None true = Raise IndexError) /\
  (forall p f, path = [p] -> interpolate draw path period None f true = Raise ZeroDivision) /\
  (forall sd sig f, estimate_vol path = Ret (sd, sig) -> interpolate draw path period None f true = interpolate draw path period (Some (match f with None => sig | Some x => sig * x end)) None true).
Proof.
  split; [reflexivity|]. split; [reflexivity|]. split; [intros s f L; destruct path as [|p [|q r]]; cbn in L; try lia; reflexivity|]. split; [reflexivity|]. split.
  - intros p f ->. unfold interpolate, estimate_vol, estimate_vol_np. cbn [negb map List.length]. unfold rdiv at 1. change (Z.of_nat 1 - 1)%Z with 0%Z. rewrite req_true by reflexivity. reflexivity.
  - intros sd sig f E. unfold interpolate. rewrite E. cbn [negb rbind snd]. reflexivity.
Qed.
Lemma two_points_linear draw p q period f : fst p < fst q -> 0 < snd p -> 0 < snd q -> interpolate draw [p; q] period None f true = interpolate draw [p; q] period (Some 0) None true.
Proof.
  intros T A B. destruct (vol_spec [snd p; snd q] ((fst q - fst p) / YEAR)) as (sd & sig & E & _ & _ & _ & Z & _); [cbn; lia|apply Rdiv_lt_0_compat; [lra|unfold YEAR; lra]|repeat constructor; assumption|].
  assert (sig = 0). { apply Z. exists (snd q / snd p). intros i Hi. cbn in Hi. assert (i = 0)%nat as -> by lia. reflexivity. } subst sig.
  destruct (interpolate_options draw [p; q] period) as (_ & _ & _ & _ & _ & H). rewrite (H sd 0 f E). destruct f; [rewrite Rmult_0_l|]; reflexivity.
Qed.
