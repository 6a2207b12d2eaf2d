(** Prices and selections of a container. *)
From Coq Require Import Reals Lra Bool List String Arith Lia Permutation Ascii.
From Verif Require Import CurveModel CurveProofs PairModel PairProofs HelperModel HelperProofs CpcModel CpcSpec CpcProofs ContainerModel ContainerSpec ContainerProofs.
Import ListNotations.
Local Open Scope R_scope.

(** ** pairs as strings *)
Lemma split_parts s : forall t a b, split_slash (s ++ String "/" t) = [a; b] -> no_slash s = true /\ no_slash t = true.
Proof.
  induction s as [|ch s IH]; intros t a b E.
  - cbn in E. injection E as <- E. apply split_inv_1 in E. destruct E as [-> E]. split; [reflexivity|exact E].
  - cbn [append split_slash] in E. destruct (Ascii.eqb ch "/") eqn:Ec.
    + injection E as <- E. exfalso. revert E. clear. revert b. induction s as [|c' s IH]; intros b E.
      * cbn in E. injection E as _ E. exact (split_nonempty _ E).
      * cbn [append split_slash] in E. destruct (Ascii.eqb c' "/"); [injection E as _ E; exact (split_nonempty _ E)|].
        destruct (split_slash (s ++ String "/" t)) as [|w ws] eqn:Es; [exact (split_nonempty _ Es)|].
        injection E as <- ->. apply (IH w). reflexivity.
    + destruct (split_slash (s ++ String "/" t)) as [|w ws] eqn:Es; [discriminate|]. injection E as <- ->.
      destruct (IH t w b Es) as [A B]. split; [cbn [no_slash]; rewrite Ec; exact A|exact B].
Qed.
Lemma pair_inj b q b' q' : no_slash b = true -> no_slash q = true -> pair_str b q = pair_str b' q' -> b = b' /\ q = q'.
Proof.
  intros Hb Hq E. assert (S1 : split_slash (pair_str b q) = [b; q]) by (unfold pair_str; apply split_app; assumption).
  rewrite E in S1. pose proof (split_parts _ _ _ _ S1) as [A B]. unfold pair_str in S1. rewrite split_app in S1 by assumption. injection S1. auto.
Qed.
Lemma primary_cases b q : (isprimary norm_cpc b q = true /\ primary norm_cpc b q = pair_str b q) \/ (isprimary norm_cpc b q = false /\ primary norm_cpc b q = pair_str q b).
Proof. unfold primary. destruct (isprimary norm_cpc b q); [left|right]; split; reflexivity. Qed.
Lemma primary_eq b q b' q' : b <> q -> no_slash b' = true -> no_slash q' = true ->
  primary norm_cpc b' q' = primary norm_cpc b q <-> (b' = b /\ q' = q) \/ (b' = q /\ q' = b).
Proof.
  intros Ne Hb Hq. split.
  - intros E. destruct (primary_cases b q) as [[_ P1]|[_ P1]], (primary_cases b' q') as [[_ P2]|[_ P2]]; rewrite P1, P2 in E; apply pair_inj in E; try assumption; tauto.
  - intros [[-> ->]|[-> ->]]; [reflexivity|]. unfold primary. rewrite (isprimary_flip norm_cpc b q Ne). destruct (isprimary norm_cpc b q); reflexivity.
Qed.
Lemma on_tokens_iff b q c : on_tokens_b b q c = true <-> on_tokens b q c.
Proof. unfold on_tokens_b, on_tokens. rewrite orb_true_iff, !andb_true_iff, !String.eqb_eq. reflexivity. Qed.
Lemma bool_iff a b : (a = true <-> b = true) -> a = b.
Proof. destruct a, b; intros [A B]; try reflexivity; [symmetry; apply A; reflexivity|apply B; reflexivity]. Qed.
Lemma filter_map {A B} (f : A -> B) (g : B -> bool) l : filter g (map f l) = map f (filter (fun a => g (f a)) l).
Proof. induction l as [|a l IH]; [reflexivity|]. cbn [map filter]. destruct (g (f a)); cbn [map]; rewrite IH; reflexivity. Qed.
Lemma filter_ext_in' {A} (f g : A -> bool) l : (forall a, In a l -> f a = g a) -> filter f l = filter g l.
Proof. apply filter_ext_in. Qed.

(** ** sums *)
Lemma rsum_total l : rsum l = total l.
Proof.
  unfold rsum, total. assert (X : forall l a, fold_left Rplus l a = a + fold_right Rplus 0 l).
  { clear l. induction l as [|b l IH]; intros a; cbn [fold_left fold_right]; [ring|]. rewrite IH. ring. }
  rewrite X. ring.
Qed.
Lemma total_cons a l : total (a :: l) = a + total l.
Proof. reflexivity. Qed.
Lemma total_nil : total [] = 0.
Proof. reflexivity. Qed.
Lemma total_app l m : total (l ++ m) = total l + total m.
Proof. induction l as [|a l IH]; cbn [app]; [rewrite total_nil; ring|]. rewrite !total_cons, IH. ring. Qed.
Lemma total_perm l m : Permutation l m -> total l = total m.
Proof. induction 1; rewrite ?total_cons in *; [reflexivity|rewrite IHPermutation; reflexivity|ring|congruence]. Qed.
Lemma total_nonneg l : (forall v, In v l -> 0 <= v) -> 0 <= total l.
Proof.
  induction l as [|a l IH]; intros P; [rewrite total_nil; lra|]. rewrite total_cons. assert (0 <= a) by (apply P; left; reflexivity).
  assert (0 <= total l) by (apply IH; intros v I1; apply P; right; exact I1). lra.
Qed.
Lemma total_pos l : l <> [] -> (forall v, In v l -> 0 < v) -> 0 < total l.
Proof.
  destruct l as [|a l]; intros N P; [congruence|]. rewrite total_cons. assert (0 < a) by (apply P; left; reflexivity).
  assert (0 <= total l) by (apply total_nonneg; intros v I1; apply Rlt_le, P; right; exact I1). lra.
Qed.
Lemma exists_min {A} (f : A -> R) l : l <> [] -> exists a, In a l /\ forall b, In b l -> f a <= f b.
Proof.
  induction l as [|a l IH]; intros N; [congruence|]. destruct l as [|b l].
  - exists a. split; [left; reflexivity|]. intros b [<-|[]]. lra.
  - destruct IH as (m & I1 & M); [discriminate|]. destruct (Rle_dec (f a) (f m)) as [H|H].
    + exists a. split; [left; reflexivity|]. intros c [<-|I2]; [lra|]. specialize (M c I2). lra.
    + exists m. split; [right; exact I1|]. intros c [<-|I2]; [lra|]. apply M, I2.
Qed.
Lemma exists_max {A} (f : A -> R) l : l <> [] -> exists a, In a l /\ forall b, In b l -> f b <= f a.
Proof. intros N. destruct (exists_min (fun a => - f a) l N) as (a & I1 & M). exists a. split; [exact I1|]. intros b I2. specialize (M b I2). lra. Qed.
(** a weighted average lies between the smallest and the largest value *)
Lemma weighted_bounds {A} (f w : A -> R) l lo hi : (forall a, In a l -> 0 <= w a) -> (forall a, In a l -> lo <= f a <= hi) ->
  lo * total (map w l) <= total (map (fun a => f a * w a) l) <= hi * total (map w l).
Proof.
  induction l as [|a l IH]; intros W B; cbn [map]; [rewrite total_nil; lra|]. rewrite !total_cons.
  assert (Wa : 0 <= w a) by (apply W; left; reflexivity). assert (Ba : lo <= f a <= hi) by (apply B; left; reflexivity).
  assert (H : lo * total (map w l) <= total (map (fun a => f a * w a) l) <= hi * total (map w l)) by (apply IH; intros b I1; [apply W|apply B]; right; exact I1).
  assert (lo * w a <= f a * w a) by (apply Rmult_le_compat_r; lra). assert (f a * w a <= hi * w a) by (apply Rmult_le_compat_r; lra). lra.
Qed.
Lemma total_ones {A} (l : list A) : total (map (fun _ => 1) l) = INR (List.length l).
Proof.
  induction l as [|a l IH]; [reflexivity|]. cbn [map]. rewrite total_cons, IH.
  change (List.length (a :: l)) with (S (List.length l)). rewrite S_INR. ring.
Qed.
Lemma length_pos {A} (l : list A) : l <> [] -> 0 < INR (List.length l).
Proof. destruct l as [|a l]; [congruence|]. intros _. apply lt_0_INR. cbn [List.length]. lia. Qed.
Lemma mean_bounds {A} (f : A -> R) l : l <> [] -> exists a b, In a l /\ In b l /\ f a <= mean (map f l) <= f b.
Proof.
  intros N. destruct (exists_min f l N) as (a & Ia & Ma), (exists_max f l N) as (b & Ib & Mb). exists a, b. split; [exact Ia|]. split; [exact Ib|].
  assert (H := weighted_bounds f (fun _ => 1) l (f a) (f b) ltac:(intros; lra) ltac:(intros c I1; specialize (Ma c I1); specialize (Mb c I1); lra)).
  rewrite total_ones in H. replace (map (fun a0 => f a0 * 1) l) with (map f l) in H by (apply map_ext; intros; ring).
  unfold mean. rewrite map_length. pose proof (length_pos l N) as L.
  split; [apply le_div|apply div_le]; try exact L; lra.
Qed.
Lemma mean_pos {A} (f : A -> R) l : l <> [] -> (forall a, In a l -> 0 < f a) -> 0 < mean (map f l).
Proof. intros N P. destruct (mean_bounds f l N) as (a & b & Ia & _ & H & _). specialize (P a Ia). lra. Qed.

(** ** C84: the price *)
Lemma rmap_ok {A B} (f : A -> res B) (g : A -> B) l : (forall a, In a l -> f a = Ret (g a)) -> rmap f l = Ret (map g l).
Proof.
  induction l as [|a l IH]; intros H; [reflexivity|]. cbn [rmap map]. rewrite (H a (or_introl eq_refl)). cbn [rbind].
  rewrite IH by (intros b I1; apply H; right; exact I1). reflexivity.
Qed.
Lemma price_pos c : 0 < k c -> x c <> 0 -> 0 < k c / x c / x c.
Proof.
  intros K X. replace (k c / x c / x c) with (k c * (/ x c * / x c)) by (field; exact X).
  apply Rmult_lt_0_compat; [exact K|]. assert (/ x c <> 0) by (apply Rinv_neq_0_compat, X). nra.
Qed.
Lemma quote_pos b c : 0 < k c -> x c <> 0 -> 0 < quote b c.
Proof. intros K X. unfold quote. pose proof (price_pos c K X). destruct (String.eqb (tknx c) b); [assumption|apply Rinv_0_lt_compat; assumption]. Qed.
Lemma quote_inv b q c : on_tokens b q c -> b <> q -> 0 < k c -> x c <> 0 -> quote q c = / quote b c.
Proof.
  intros O Ne K X. unfold quote. pose proof (price_pos c K X) as P. destruct O as [[-> _]|[-> _]].
  - rewrite String.eqb_refl. destruct (String.eqb b q) eqn:E; [apply String.eqb_eq in E; congruence|reflexivity].
  - rewrite String.eqb_refl. destruct (String.eqb q b) eqn:E; [apply String.eqb_eq in E; congruence|]. rewrite Rinv_inv. reflexivity.
Qed.
Lemma pp_quote b q c : on_tokens b q c -> isprimary norm_cpc b q = true -> 0 < k c -> x c <> 0 -> pp c = Ret (quote b c).
Proof.
  intros O P K X. assert (Ne : b <> q) by (intros ->; rewrite isprimary_same in P; discriminate).
  unfold pp, quote, CpcModel.p, y. pose proof (price_pos c K X) as Pr. destruct O as [[-> ->]|[-> ->]].
  - rewrite P, String.eqb_refl. reflexivity.
  - rewrite (isprimary_flip norm_cpc b q Ne), P. cbn [negb]. destruct (String.eqb q b) eqn:E; [apply String.eqb_eq in E; congruence|].
    rewrite rdiv_ok by lra. f_equal. field. apply Rgt_not_eq in Pr. repeat split; [exact X|lra].
Qed.
Lemma trading_swap h cc b q : trading h cc q b = trading h cc b q.
Proof.
  unfold trading. apply filter_ext. intros c. unfold on_tokens_b. apply orb_comm.
Qed.
Lemma trading_primary h cc b q : b <> q -> (forall r, In r (curves cc) -> no_slash (tknx (obj h r)) = true /\ no_slash (tkny (obj h r)) = true) ->
  map (obj h) (filter (fun r => String.eqb (primary_of (obj h r)) (primary norm_cpc b q)) (curves cc)) = trading h cc b q.
Proof.
  intros Ne NS. unfold trading. rewrite filter_map. f_equal. apply filter_ext_in. intros r I1. destruct (NS r I1) as [A B].
  apply bool_iff. rewrite String.eqb_eq, on_tokens_iff. unfold primary_of, on_tokens. apply primary_eq; assumption.
Qed.
Lemma price_value h cc b q : good h cc -> (forall r, In r (curves cc) -> no_slash (tknx (obj h r)) = true /\ no_slash (tkny (obj h r)) = true /\ x (obj h r) <> 0) ->
  b <> q -> (forall c, In c (trading h cc b q) -> 0 < k c) ->
  price h cc b q = match trading h cc b q with
                   | [] => Ret None
                   | T => Ret (Some (if isprimary norm_cpc b q then mean (map (quote b) T) else / mean (map (quote q) T)))
                   end.
Proof.
  intros [_ G] W Ne K. unfold price.
  assert (Pg : pget (by_primary cc) (primary norm_cpc b q) = match filter (fun r => String.eqb (primary_of (obj h r)) (primary norm_cpc b q)) (curves cc) with [] => None | f => Some f end)
    by (rewrite G at 1; apply price_build).
  rewrite Pg. clear Pg. pose proof (trading_primary h cc b q Ne ltac:(intros r I1; destruct (W r I1) as (A & B & _); split; assumption)) as T.
  set (F := filter (fun r => String.eqb (primary_of (obj h r)) (primary norm_cpc b q)) (curves cc)) in *.
  assert (Fx : forall r, In r F -> x (obj h r) <> 0) by (intros r I1; apply filter_In in I1; apply W, I1).
  clearbody F. destruct F as [|r0 F'] eqn:EF; [cbn [map] in T; rewrite <- T; reflexivity|].
  rewrite <- EF in *. assert (FN : F <> []) by (rewrite EF; discriminate).
  assert (FI : forall r, In r F -> on_tokens b q (obj h r) /\ 0 < k (obj h r) /\ x (obj h r) <> 0).
  { intros r I1. assert (I2 : In (obj h r) (trading h cc b q)) by (rewrite <- T; apply in_map, I1).
    split; [|split; [apply K, I2|apply Fx, I1]]. unfold trading in I2. apply filter_In in I2. apply on_tokens_iff, I2. }
  assert (TM : forall A (f : cpc -> A), map (fun r => f (obj h r)) F = map f (trading h cc b q)) by (intros A f; rewrite <- T, map_map; reflexivity).
  assert (LF : List.length F = List.length (trading h cc b q)) by (rewrite <- T, map_length; reflexivity).
  assert (TP : forall t, 0 < mean (map (quote t) (trading h cc b q))).
  { intros t. apply mean_pos; [rewrite <- T, EF; discriminate|]. intros c I1. rewrite <- T in I1. apply in_map_iff in I1. destruct I1 as (r & <- & I1). apply quote_pos; apply FI, I1. }
  destruct (trading h cc b q) as [|c0 T0] eqn:ET; [rewrite EF in LF; discriminate|]. rewrite <- ET in *.
  pose proof (length_pos F FN) as LP. rewrite EF. rewrite <- EF.
  assert (LN : INR (List.length F) <> 0) by lra.
  destruct (isprimary norm_cpc b q) eqn:P.
  - rewrite (rmap_ok _ (fun r => quote b (obj h r))) by (intros r I1; destruct (FI r I1) as (A & B & C); eapply pp_quote; eassumption). cbn [rbind].
    rewrite rsum_total, rdiv_ok by exact LN. cbn [rbind]. rewrite TM. unfold mean. rewrite map_length, <- LF. reflexivity.
  - assert (P' : isprimary norm_cpc q b = true) by (rewrite (isprimary_flip norm_cpc b q Ne), P; reflexivity).
    rewrite (rmap_ok _ (fun r => quote q (obj h r))).
    2:{ intros r I1. destruct (FI r I1) as (A & B & C). apply pp_quote with (q := b); try assumption. unfold on_tokens in *. tauto. }
    cbn [rbind]. rewrite rsum_total, rdiv_ok by exact LN. cbn [rbind]. rewrite TM.
    assert (E : total (map (quote q) (trading h cc b q)) / INR (List.length F) = mean (map (quote q) (trading h cc b q))) by (unfold mean; rewrite map_length, LF; reflexivity).
    rewrite E. specialize (TP q). rewrite rdiv_ok by lra. cbn [rbind]. unfold Rdiv. rewrite Rmult_1_l. reflexivity.
Qed.
Lemma inv_between a b m : 0 < a -> a <= m <= b -> / b <= / m <= / a.
Proof. intros A [H1 H2]. split; apply Rinv_le_contravar; lra. Qed.
Lemma price_props h cc b q : good h cc -> (forall r, In r (curves cc) -> no_slash (tknx (obj h r)) = true /\ no_slash (tkny (obj h r)) = true /\ x (obj h r) <> 0) ->
  b <> q -> (forall c, In c (trading h cc b q) -> 0 < k c) ->
  (price h cc b q = Ret None <-> trading h cc b q = []) /\
  (trading h cc b q <> [] -> exists m, price h cc b q = Ret (Some m) /\ 0 < m /\ price h cc q b = Ret (Some (/ m)) /\
     exists c c', In c (trading h cc b q) /\ In c' (trading h cc b q) /\ quote b c <= m <= quote b c').
Proof.
  intros G W Ne K. assert (K' : forall c, In c (trading h cc q b) -> 0 < k c) by (intros c I1; apply K; rewrite trading_swap in I1; exact I1).
  pose proof (price_value h cc b q G W Ne K) as V. pose proof (price_value h cc q b G W (not_eq_sym Ne) K') as V'. rewrite trading_swap in V'.
  rewrite V. set (T := trading h cc b q) in *.
  assert (TI : forall c, In c T -> on_tokens b q c /\ 0 < k c /\ x c <> 0).
  { intros c I1. split; [|split; [apply K, I1|]].
    - unfold T, trading in I1. apply filter_In in I1. apply on_tokens_iff, I1.
    - unfold T, trading in I1. apply filter_In in I1. destruct I1 as [I1 _]. apply in_map_iff in I1. destruct I1 as (r & <- & I1). apply W, I1. }
  clearbody T. destruct T as [|c0 T0] eqn:ET.
  { split; [split; reflexivity|congruence]. }
  rewrite <- ET in *. assert (TN : T <> []) by (rewrite ET; discriminate). split; [split; [discriminate|congruence]|]. intros _.
  rewrite V'. rewrite (isprimary_flip norm_cpc b q Ne). destruct (isprimary norm_cpc b q); cbn [negb].
  - destruct (mean_bounds (quote b) T TN) as (c & c' & Ic & Ic' & B).
    eexists. split; [reflexivity|]. split; [apply mean_pos; [exact TN|intros a I1; apply quote_pos; apply TI, I1]|]. split; [reflexivity|].
    exists c, c'. repeat split; try assumption; apply B.
  - destruct (mean_bounds (quote q) T TN) as (c & c' & Ic & Ic' & B).
    assert (P : 0 < mean (map (quote q) T)) by (apply mean_pos; [exact TN|intros a I1; apply quote_pos; apply TI, I1]).
    eexists. split; [reflexivity|]. split; [apply Rinv_0_lt_compat, P|]. split; [rewrite Rinv_inv; reflexivity|].
    exists c', c. split; [exact Ic'|]. split; [exact Ic|].
    assert (Q : forall a, In a T -> quote b a = / quote q a).
    { intros a I1. destruct (TI a I1) as (A & A2 & A3). apply (quote_inv q b); try assumption; [unfold on_tokens in *; tauto|congruence]. }
    rewrite (Q c Ic), (Q c' Ic'). apply inv_between; [apply quote_pos; apply TI, Ic|exact B].
Qed.

(** ** C85: selections *)
Lemma number_named l : forall h i, (forall r, In r l -> named h r) -> number h l i = h.
Proof.
  induction l as [|r l IH]; intros h i N; [reflexivity|]. cbn [number]. destruct (N r (or_introl eq_refl)) as [_ C].
  destruct (c_cid (deref h r)); [|congruence]. apply IH. intros r' I1. apply N. right. exact I1.
Qed.
Lemma select_good h cc l : good h cc -> (forall r, In r l -> In r (curves cc)) -> exists cc', select h l = (h, cc') /\ curves cc' = l /\ good h cc'.
Proof.
  intros [N G] S1. unfold select, new_container. rewrite number_named by (intros r I1; apply N, S1, I1). cbv zeta.
  eexists. split; [reflexivity|]. change (fold_left (record h) l no_curves) with (build h l). rewrite build_curves. split; [reflexivity|].
  split; rewrite build_curves; [intros r I1; apply N, S1, I1|reflexivity].
Qed.
Lemma copy_good h cc : good h cc -> copy h cc = (h, cc).
Proof. intros [N G]. unfold copy, new_container. rewrite number_named by exact N. cbv zeta. f_equal. symmetry. exact G. Qed.
Lemma cid_in_iff c l : cid_in c l = true <-> In c l.
Proof. unfold cid_in. rewrite existsb_exists. split; [intros (d & I1 & E); apply cid_eqb_iff in E; subst; exact I1|intros I1; exists c; split; [exact I1|apply cid_eqb_refl]]. Qed.
Lemma str_in_iff s l : str_in s l = true <-> In s l.
Proof. unfold str_in. rewrite existsb_exists. split; [intros (d & I1 & E); apply String.eqb_eq in E; subst; exact I1|intros I1; exists s; split; [exact I1|apply String.eqb_refl]]. Qed.
Lemma rmap_forall2 {A B} (f : A -> res B) l m : rmap f l = Ret m <-> Forall2 (fun a b => f a = Ret b) l m.
Proof.
  revert m. induction l as [|a l IH]; intros m; cbn [rmap].
  - split; [intros H; injection H as <-; constructor|intros H; inversion H; reflexivity].
  - destruct (f a) as [b|e] eqn:E; cbn [rbind].
    + destruct (rmap f l) as [bs|e] eqn:Er; cbn [rbind].
      * split; [intros H; injection H as <-; constructor; [exact E|apply IH; reflexivity]|].
        intros H. inversion H as [|? ? ? ? H1 H2]. subst. apply IH in H2. congruence.
      * split; [discriminate|]. intros H. inversion H as [|? ? ? ? H1 H2]. subst. apply IH in H2. congruence.
    + split; [discriminate|]. intros H. inversion H as [|? ? ? ? H1 H2]. congruence.
Qed.
Lemma rmap_raise {A B} (f : A -> res B) e l : (forall a e', f a = Raise e' -> e' = e) -> (rmap f l = Raise e <-> exists a, In a l /\ f a = Raise e).
Proof.
  intros U. induction l as [|a l IH]; cbn [rmap]; [split; [discriminate|intros (a & [] & _)]|].
  destruct (f a) as [b|e'] eqn:E; cbn [rbind].
  - destruct (rmap f l) as [bs|e'] eqn:Er; cbn [rbind].
    + split; [discriminate|]. intros (a' & [->|I1] & X); [congruence|]. exfalso. assert (Y : Ret bs = Raise e) by (apply IH; exists a'; split; assumption). discriminate.
    + split.
      * intros X. injection X as ->. destruct (proj1 IH eq_refl) as (a' & I1 & X). exists a'. split; [right; exact I1|exact X].
      * intros (a' & [->|I1] & X); [congruence|]. assert (Y : Raise e' = @Raise (list B) e) by (apply IH; exists a'; split; assumption). injection Y as ->. reflexivity.
  - pose proof (U a e' E) as ->. split; [intros _; exists a; split; [left; reflexivity|exact E]|reflexivity].
Qed.
Lemma bycids_all h cc exclude : good h cc -> exists l, bycids h cc None exclude = Ret l /\
  exists keep, l = filter keep (curves cc) /\ forall r, In r (curves cc) -> keep r = true <-> forall c, has_cid h c r -> ~ In c exclude.
Proof.
  intros [N G]. unfold bycids. eexists. split; [reflexivity|]. eexists. split; [reflexivity|].
  intros r I1. cbv beta. rewrite negb_true_iff. destruct (named_has h r (N r I1)) as [c0 H0]. pose proof (proj2 (named_cid h r c0 (N r I1)) H0) as E0. apply cid_eqb_iff in E0. split.
  - intros F c H X. pose proof (proj2 (named_cid h r c (N r I1)) H) as E. apply cid_eqb_iff in E. subst c. apply cid_in_iff in X. congruence.
  - intros F. destruct (cid_in (cid_of h r) exclude) eqn:E; [|reflexivity]. apply cid_in_iff in E. exfalso. apply (F c0 H0). congruence.
Qed.
Lemma forall2_impl {A B} (P Q : A -> B -> Prop) l m : (forall a b, P a b -> Q a b) -> Forall2 P l m -> Forall2 Q l m.
Proof. intros H. induction 1; constructor; auto. Qed.
Lemma bycids_some h cc l exclude : good h cc ->
  (forall rs, bycids h cc (Some l) exclude = Ret rs <-> Forall2 (fun c r => last_such (has_cid h c) (curves cc) r) (filter (fun c => negb (cid_in c exclude)) l) rs) /\
  (bycids h cc (Some l) exclude = Raise KeyError <-> exists c, In c l /\ ~ In c exclude /\ forall r, In r (curves cc) -> ~ has_cid h c r).
Proof.
  intros G. unfold bycids. split.
  - intros rs. rewrite rmap_forall2. split; (intros F; eapply forall2_impl; [|exact F]).
    + intros c r H. cbv beta in *. apply (proj1 (bycid_good h cc c G)). destruct (bycid cc c); [congruence|discriminate].
    + intros c r H. cbv beta in *. apply (proj1 (bycid_good h cc c G)) in H. rewrite H. reflexivity.
  - rewrite rmap_raise.
    2:{ intros c e' H. cbv beta in H. destruct (bycid cc c); congruence. }
    split.
    + intros (c & I1 & H). apply filter_In in I1. destruct I1 as [I1 X]. exists c. split; [exact I1|]. split.
      * intros Y. apply cid_in_iff in Y. rewrite Y in X. discriminate.
      * apply (proj2 (bycid_good h cc c G)). destruct (bycid cc c); [discriminate|reflexivity].
    + intros (c & I1 & X & H). exists c. split.
      * apply filter_In. split; [exact I1|]. destruct (cid_in c exclude) eqn:E; [apply cid_in_iff in E; contradiction|reflexivity].
      * apply (proj2 (bycid_good h cc c G)) in H. rewrite H. reflexivity.
Qed.
Lemma reversed_pair b q : no_slash b = true -> no_slash q = true -> reversed (pair_str b q) = pair_str q b.
Proof. intros Hb Hq. unfold reversed, pair_str. rewrite split_app by assumption. reflexivity. Qed.
Lemma parse_str b q : no_slash b = true -> no_slash q = true -> parse_pair (pair_str b q) = Some (b, q).
Proof. intros Hb Hq. unfold parse_pair, pair_str. rewrite split_app by assumption. reflexivity. Qed.
Lemma parse_inv s b q : parse_pair s = Some (b, q) -> s = pair_str b q /\ no_slash b = true /\ no_slash q = true.
Proof. unfold parse_pair. destruct (split_slash s) as [|a [|c [|d l]]] eqn:E; try discriminate. intros H. injection H as <- <-. apply split_inv_2, E. Qed.
Definition tokens_ok (h : heap) (cc : container) : Prop := forall r, In r (curves cc) -> no_slash (tknx (obj h r)) = true /\ no_slash (tkny (obj h r)) = true.
Lemma pair_of_iff h cc r b q : tokens_ok h cc -> In r (curves cc) -> String.eqb (pair_of (obj h r)) (pair_str b q) = true <-> tknx (obj h r) = b /\ tkny (obj h r) = q.
Proof.
  intros T I1. destruct (T r I1) as [A B]. rewrite String.eqb_eq. unfold pair_of. split; [apply pair_inj; assumption|intros [-> ->]; reflexivity].
Qed.
Lemma filter_or {A} (f g : A -> bool) l : (forall a, In a l -> f a && g a = false) -> Permutation (filter f l ++ filter g l) (filter (fun a => f a || g a) l).
Proof.
  induction l as [|a l IH]; intros H; [constructor|]. cbn [filter]. specialize (H a (or_introl eq_refl)) as Ha.
  assert (P : Permutation (filter f l ++ filter g l) (filter (fun a => f a || g a) l)) by (apply IH; intros b I1; apply H; right; exact I1).
  destruct (f a), (g a); cbn [andb orb] in *; try discriminate; cbn [app].
  - constructor. exact P.
  - rewrite <- Permutation_middle. constructor. exact P.
  - exact P.
Qed.
Lemma bypair_dir h cc b q : tokens_ok h cc -> bypair h cc (pair_str b q) true = filter (fun r => String.eqb (tknx (obj h r)) b && String.eqb (tkny (obj h r)) q) (curves cc).
Proof.
  intros T. unfold bypair. rewrite app_nil_r. apply filter_ext_in. intros r I1. apply bool_iff.
  rewrite (pair_of_iff h cc r b q T I1), andb_true_iff, !String.eqb_eq. reflexivity.
Qed.
Lemma bypair_undir h cc b q : tokens_ok h cc -> no_slash b = true -> no_slash q = true ->
  (b <> q -> Permutation (bypair h cc (pair_str b q) false) (filter (fun r => on_tokens_b b q (obj h r)) (curves cc))) /\
  (b = q -> bypair h cc (pair_str b q) false = (bypair h cc (pair_str b q) true ++ bypair h cc (pair_str b q) true)%list).
Proof.
  intros T Hb Hq. split.
  - intros Ne. unfold bypair. rewrite (reversed_pair b q Hb Hq). cbv zeta.
    rewrite (filter_ext_in (fun r => String.eqb (pair_of (obj h r)) (pair_str b q)) (fun r => String.eqb (tknx (obj h r)) b && String.eqb (tkny (obj h r)) q)).
    2:{ intros r I1. apply bool_iff. rewrite (pair_of_iff h cc r b q T I1), andb_true_iff, !String.eqb_eq. reflexivity. }
    rewrite (filter_ext_in (fun r => String.eqb (pair_of (obj h r)) (pair_str q b)) (fun r => String.eqb (tknx (obj h r)) q && String.eqb (tkny (obj h r)) b)).
    2:{ intros r I1. apply bool_iff. rewrite (pair_of_iff h cc r q b T I1), andb_true_iff, !String.eqb_eq. reflexivity. }
    apply filter_or. intros r _. destruct (String.eqb (tknx (obj h r)) b) eqn:E1; [|reflexivity]. apply String.eqb_eq in E1.
    destruct (String.eqb (tknx (obj h r)) q) eqn:E2; [apply String.eqb_eq in E2; congruence|]. apply andb_false_r.
  - intros <-. unfold bypair. rewrite (reversed_pair b b Hb Hb). rewrite app_nil_r. reflexivity.
Qed.
Lemma bypairs_dir h cc ps : bypairs h cc (Some ps) true = Ret (filter (fun r => str_in (pair_of (obj h r)) ps) (curves cc)).
Proof. unfold bypairs. cbn [rbind]. rewrite app_nil_r. reflexivity. Qed.
Lemma bypairs_undir h cc ps : tokens_ok h cc ->
  (bypairs h cc (Some ps) false = Raise ValueError <-> exists s, In s ps /\ parse_pair s = None) /\
  ((forall s, In s ps -> parse_pair s <> None) -> exists keep, bypairs h cc (Some ps) false = Ret (filter keep (curves cc)) /\
     forall r, In r (curves cc) -> keep r = true <-> exists b q, In (pair_str b q) ps /\ on_tokens b q (obj h r)).
Proof.
  intros T. unfold bypairs. set (f := fun s => match parse_pair s with Some (b, q) => Ret (pair_str q b) | None => Raise ValueError end).
  assert (U : forall s e, f s = Raise e -> e = ValueError /\ parse_pair s = None).
  { intros s e. unfold f. destruct (parse_pair s) as [[b q]|]; [discriminate|]. intros H. injection H as <-. split; reflexivity. }
  split.
  - destruct (rmap f ps) as [rs|e] eqn:E; cbn [rbind].
    + split; [discriminate|]. intros (s & I1 & P). exfalso. assert (X : rmap f ps = Raise ValueError).
      { apply (rmap_raise f ValueError ps); [intros s' e H; apply (U s' e H)|]. exists s. split; [exact I1|]. unfold f. rewrite P. reflexivity. }
      congruence.
    + split.
      * intros H. injection H as ->. apply (rmap_raise f ValueError ps) in E; [|intros s' e' H'; apply (U s' e' H')]. destruct E as (s & I1 & X). exists s. split; [exact I1|apply (U s _ X)].
      * intros (s & I1 & P). f_equal. assert (X : rmap f ps = Raise ValueError).
        { apply (rmap_raise f ValueError ps); [intros s' e' H; apply (U s' e' H)|]. exists s. split; [exact I1|]. unfold f. rewrite P. reflexivity. }
        congruence.
  - intros P. rewrite (rmap_ok f (fun s => match parse_pair s with Some (b, q) => pair_str q b | None => s end)).
    2:{ intros s I1. specialize (P s I1). unfold f. destruct (parse_pair s) as [[b q]|]; [reflexivity|congruence]. }
    cbn [rbind]. eexists. split; [reflexivity|]. intros r I1. cbv beta. rewrite str_in_iff, in_app_iff, in_map_iff. destruct (T r I1) as [A B]. split.
    + intros [I2|(s & E & I2)].
      * exists (tknx (obj h r)), (tkny (obj h r)). split; [exact I2|left; split; reflexivity].
      * specialize (P s I2). destruct (parse_pair s) as [[b q]|] eqn:Ep; [|congruence]. apply parse_inv in Ep. destruct Ep as (-> & Hb & Hq).
        symmetry in E. unfold pair_of in E. apply pair_inj in E; [|assumption..]. destruct E as [E1 E2]. exists b, q. split; [exact I2|right; split; assumption].
    + intros (b & q & I2 & [[E1 E2]|[E1 E2]]).
      * left. unfold pair_of. rewrite E1, E2. exact I2.
      * right. exists (pair_str b q). split; [|exact I2]. rewrite E1 in A. rewrite E2 in B. rewrite (parse_str b q B A). unfold pair_of. rewrite E1, E2. reflexivity.
Qed.
