(** Proofs for C134-C136. *)
From Coq Require Import ZArith QArith Qabs List Bool String Ascii Permutation Sorted Lia Lqa.
From Verif Require Import CurveModel FileModel FileSpec.
From Verif Require SdkModel SdkProofs2.
Import ListNotations.
Local Open Scope string_scope.
Local Open Scope nat_scope.

(** ** sorting *)
Lemma ascii_compare_nat c d : Ascii.compare c d = Nat.compare (nat_of_ascii c) (nat_of_ascii d).
Proof. unfold Ascii.compare, nat_of_ascii. apply Nnat.N2Nat.inj_compare. Qed.
Lemma ascii_nat_inj c d : nat_of_ascii c = nat_of_ascii d -> c = d.
Proof. intros H. rewrite <- (ascii_nat_embedding c), <- (ascii_nat_embedding d), H. reflexivity. Qed.
Lemma leb_before s : forall t, String.leb s t = true <-> before s t.
Proof.
  unfold String.leb. induction s as [|c s IH]; intros [|d t]; cbn [String.compare].
  - split; [|reflexivity]. intros _. left. exists "". reflexivity.
  - split; [|reflexivity]. intros _. left. exists (String d t). reflexivity.
  - split; [discriminate|]. intros [[r E]|(p & a & b & s' & t' & E1 & E2 & _)]; [discriminate|]. destruct p; discriminate.
  - rewrite ascii_compare_nat. destruct (Nat.compare_spec (nat_of_ascii c) (nat_of_ascii d)) as [E|E|E].
    + apply ascii_nat_inj in E. subst d. rewrite IH. split.
      * intros [[r ->]|(p & a & b & s' & t' & -> & -> & H)]; [left; exists r; reflexivity|]. right. exists (String c p), a, b, s', t'. auto.
      * intros [[r E]|(p & a & b & s' & t' & E1 & E2 & H)]; [left; exists r; cbn in E; congruence|]. destruct p as [|e p]; cbn in E1, E2; [injection E1 as <- <-; injection E2 as <- <-; lia|]. right. exists p, a, b, s', t'. split; [congruence|]. split; [congruence|exact H].
    + split; [|reflexivity]. intros _. right. exists "", c, d, s, t. auto.
    + split; [discriminate|]. intros [[r X]|(p & a & b & s' & t' & E1 & E2 & H)]; [injection X as <- _; lia|]. destruct p as [|e p]; cbn in E1, E2; [injection E1 as <- <-; injection E2 as <- <-; lia|]. injection E1 as -> _. injection E2 as -> _. lia.
Qed.
Lemma cmp_trans s : forall t u, String.leb s t = true -> String.leb t u = true -> String.leb s u = true.
Proof.
  unfold String.leb. induction s as [|c s IH]; intros [|d t] [|e u]; cbn [String.compare]; try discriminate; try reflexivity. rewrite !ascii_compare_nat. specialize (IH t u).
  destruct (Nat.compare_spec (nat_of_ascii c) (nat_of_ascii d)) as [E|E|E], (Nat.compare_spec (nat_of_ascii d) (nat_of_ascii e)) as [F|F|F], (Nat.compare_spec (nat_of_ascii c) (nat_of_ascii e)) as [G|G|G]; try discriminate; try lia; try reflexivity. exact IH.
Qed.
Lemma before_trans s t u : before s t -> before t u -> before s u.
Proof. rewrite <- !leb_before. apply cmp_trans. Qed.
Lemma insert_perm a l : Permutation (a :: l) (insert_str a l).
Proof. induction l as [|b l IH]; cbn; [reflexivity|]. destruct (String.leb a b); [reflexivity|]. rewrite perm_swap. constructor. exact IH. Qed.
Lemma sort_perm l : Permutation l (sort_str l).
Proof. induction l as [|a l IH]; cbn; [constructor|]. rewrite <- insert_perm. constructor. exact IH. Qed.
Lemma insert_sorted a l : sorted l -> sorted (insert_str a l).
Proof.
  unfold sorted. induction l as [|b l IH]; cbn; intros S; [repeat constructor|]. inversion S as [|? ? S1 S2]; subst. destruct (String.leb a b) eqn:E.
  - apply leb_before in E. constructor; [exact S|]. constructor; [exact E|]. eapply Forall_impl; [|exact S2]. intros x X. eapply before_trans; eassumption.
  - constructor; [apply IH, S1|]. assert (before b a). { destruct (String.leb_total a b) as [X|X]; [congruence|]. apply leb_before, X. } apply Forall_forall. intros x X. apply (Permutation_in _ (Permutation_sym (insert_perm a l))) in X. destruct X as [->|X]; [assumption|]. rewrite Forall_forall in S2. auto.
Qed.
Lemma sort_sorted l : sorted (sort_str l).
Proof. induction l as [|a l IH]; cbn; [constructor|]. apply insert_sorted, IH. Qed.
Lemma before_antisym s t : before s t -> before t s -> s = t.
Proof. rewrite <- !leb_before. apply String.leb_antisym. Qed.
Lemma sorted_unique l : forall m, sorted l -> sorted m -> Permutation l m -> l = m.
Proof.
  unfold sorted. induction l as [|a l IH]; intros [|b m] S T P; [reflexivity|apply Permutation_nil in P; discriminate|symmetry in P; apply Permutation_nil in P; discriminate|].
  inversion S as [|? ? S1 S2]; subst. inversion T as [|? ? T1 T2]; subst. rewrite Forall_forall in S2, T2.
  assert (E : a = b).
  { assert (A : In a (b :: m)) by (eapply Permutation_in; [exact P|left; reflexivity]). assert (B : In b (a :: l)) by (eapply Permutation_in; [symmetry; exact P|left; reflexivity]). destruct A as [A|A]; [auto|]. destruct B as [B|B]; [auto|]. apply before_antisym; auto. }
  subst b. f_equal. apply IH; [exact S1|exact T1|]. eapply Permutation_cons_inv, P.
Qed.
(** ** listdir *)
Lemma lower_len s : String.length (SdkModel.lower s) = String.length s.
Proof. induction s; cbn; auto. Qed.
Lemma lower_app a b : SdkModel.lower (a ++ b) = SdkModel.lower a ++ SdkModel.lower b.
Proof. induction a; cbn; [reflexivity|]. f_equal. assumption. Qed.
Lemma sub_all s : substring 0 (String.length s) s = s.
Proof. induction s; cbn; [reflexivity|]. f_equal. assumption. Qed.
Lemma sub_all_ge s n : String.length s <= n -> substring 0 n s = s.
Proof. revert n. induction s as [|c s IH]; intros [|n] H; cbn in *; try reflexivity; [lia|]. f_equal. apply IH. lia. Qed.
Lemma sub_skip x e k : String.length e <= k -> substring (String.length x) k (x ++ e) = e.
Proof. intros H. induction x as [|c x IH]; cbn; [apply sub_all_ge, H|exact IH]. Qed.
Lemma tail_app x e : String.length e <> 0 -> tail_n (String.length e) (x ++ e) = e.
Proof.
  intros H. unfold tail_n. destruct (Nat.eqb_spec (String.length e) 0); [contradiction|]. assert (L : forall a b, String.length (a ++ b) = String.length a + String.length b) by (induction a; cbn; auto). rewrite L. replace (String.length x + String.length e - String.length e) with (String.length x) by lia. apply sub_skip. lia.
Qed.
Lemma head_app x e : String.length e <> 0 -> head_n (String.length e) (x ++ e) = x.
Proof.
  intros H. unfold head_n. destruct (Nat.eqb_spec (String.length e) 0); [contradiction|]. assert (L : forall a b, String.length (a ++ b) = String.length a + String.length b) by (induction a; cbn; auto). rewrite L. replace (String.length x + String.length e - String.length e) with (String.length x) by lia. clear. induction x as [|c x IH]; cbn; [destruct e; reflexivity|]. f_equal. exact IH.
Qed.
Lemma split_at n s : n <= String.length s -> s = substring 0 n s ++ substring n (String.length s) s /\ String.length (substring 0 n s) = n.
Proof.
  revert n. induction s as [|c s IH]; intros [|n] H; cbn in *; try (split; reflexivity); try lia; [split; [f_equal; rewrite sub_all; reflexivity|reflexivity]|].
  destruct (IH n ltac:(lia)) as [A B]. split; [|f_equal; exact B]. f_equal. rewrite A at 1. f_equal.
  assert (G : forall n s k j, String.length s - n <= k -> String.length s - n <= j -> substring n k s = substring n j s).
  { clear. intros n s. revert n. induction s as [|c s IH]; intros [|n] k j Hk Hj; cbn in *.
    - destruct k, j; reflexivity.
    - destruct k, j; reflexivity.
    - destruct k as [|k], j as [|j]; try lia. f_equal. rewrite !sub_all_ge by lia. reflexivity.
    - apply IH; lia. }
  apply G; lia.
Qed.
Lemma ext_iff e fn : String.length e <> 0 -> (SdkModel.lower (tail_n (String.length e) fn) = SdkModel.lower e <-> exists x t, fn = x ++ t /\ SdkModel.lower t = SdkModel.lower e).
Proof.
  intros H. split.
  - intros E. assert (L : String.length (tail_n (String.length e) fn) = String.length e) by (rewrite <- (lower_len (tail_n _ _)), E, lower_len; reflexivity).
    exists (head_n (String.length e) fn), (tail_n (String.length e) fn). split; [|exact E]. unfold tail_n, head_n in *. destruct (Nat.eqb_spec (String.length e) 0); [contradiction|]. apply (split_at (String.length fn - String.length e)). lia.
  - intros (x & t & -> & E). assert (L : String.length t = String.length e) by (rewrite <- (lower_len t), E, lower_len; reflexivity). rewrite <- L. rewrite tail_app by lia. exact E.
Qed.
Lemma ext_head e x t : String.length e <> 0 -> SdkModel.lower t = SdkModel.lower e -> head_n (String.length e) (x ++ t) = x.
Proof. intros H E. assert (L : String.length t = String.length e) by (rewrite <- (lower_len t), E, lower_len; reflexivity). rewrite <- L. apply head_app. lia. Qed.
Lemma lower_code c : nat_of_ascii (SdkModel.lower_ascii c) = if Nat.leb 65 (nat_of_ascii c) && Nat.leb (nat_of_ascii c) 90 then nat_of_ascii c + 32 else nat_of_ascii c.
Proof.
  unfold SdkModel.lower_ascii. destruct (Nat.leb 65 (nat_of_ascii c)) eqn:A, (Nat.leb (nat_of_ascii c) 90) eqn:B; cbn [andb]; try reflexivity. apply Nat.leb_le in B. rewrite nat_ascii_embedding; lia.
Qed.
Lemma lower_same_letter c d : SdkModel.lower_ascii c = SdkModel.lower_ascii d <-> same_letter c d.
Proof.
  assert (R : forall n, n < 123 -> nat_of_ascii (ascii_of_nat n) = n) by (intros n H; apply nat_ascii_embedding; lia).
  split.
  - intros E. apply (f_equal nat_of_ascii) in E. rewrite !lower_code in E.
    destruct (Nat.leb_spec 65 (nat_of_ascii c)) as [A|A], (Nat.leb_spec (nat_of_ascii c) 90) as [B|B], (Nat.leb_spec 65 (nat_of_ascii d)) as [C|C], (Nat.leb_spec (nat_of_ascii d) 90) as [D|D]; cbn [andb] in E; try (left; apply ascii_nat_inj; lia); right.
    all: try (exists (nat_of_ascii c - 65); split; [lia|]; left; split; [replace (65 + (nat_of_ascii c - 65)) with (nat_of_ascii c) by lia; symmetry; apply ascii_nat_embedding|replace (97 + (nat_of_ascii c - 65)) with (nat_of_ascii d) by lia; symmetry; apply ascii_nat_embedding]).
    all: exists (nat_of_ascii d - 65); split; [lia|]; right; split; [replace (97 + (nat_of_ascii d - 65)) with (nat_of_ascii c) by lia; symmetry; apply ascii_nat_embedding|replace (65 + (nat_of_ascii d - 65)) with (nat_of_ascii d) by lia; symmetry; apply ascii_nat_embedding].
  - intros [->|(k & K & [[-> ->]|[-> ->]])]; [reflexivity| |]; apply ascii_nat_inj; rewrite !lower_code, !R by lia.
    + rewrite (proj2 (Nat.leb_le 65 (65 + k))), (proj2 (Nat.leb_le (65 + k) 90)), (proj2 (Nat.leb_gt (97 + k) 90)), andb_false_r by lia. cbn [andb]. lia.
    + rewrite (proj2 (Nat.leb_le 65 (65 + k))), (proj2 (Nat.leb_le (65 + k) 90)), (proj2 (Nat.leb_gt (97 + k) 90)), andb_false_r by lia. cbn [andb]. lia.
Qed.
Lemma lower_same s : forall t, SdkModel.lower s = SdkModel.lower t <-> same_upto_case s t.
Proof.
  unfold same_upto_case. induction s as [|c s IH]; intros [|d t]; cbn; [split; constructor|split; [discriminate|intros H; inversion H]|split; [discriminate|intros H; inversion H]|]. split.
  - intros [= A B]. constructor; [apply lower_same_letter, A|apply IH, B].
  - intros H. inversion H; subst. f_equal; [apply lower_same_letter; assumption|apply IH; assumption].
Qed.
Lemma listdir_sorted dir ext : sorted (listdir dir ext).
Proof. destruct ext; apply sort_sorted. Qed.
Lemma listdir_all dir : Permutation (listdir dir None) dir.
Proof. symmetry. apply sort_perm. Qed.
Lemma lower_idem s : SdkModel.lower (SdkModel.lower s) = SdkModel.lower s.
Proof.
  induction s as [|c s IH]; cbn; [reflexivity|]. f_equal; [|exact IH]. apply ascii_nat_inj. rewrite !lower_code. destruct (Nat.leb_spec 65 (nat_of_ascii c)) as [A|A], (Nat.leb_spec (nat_of_ascii c) 90) as [B|B]; cbn [andb].
  - rewrite (proj2 (Nat.leb_gt (nat_of_ascii c + 32) 90)) by lia. rewrite andb_false_r. reflexivity.
  - rewrite (proj2 (Nat.leb_gt _ 90)) by lia. rewrite andb_false_r. reflexivity.
  - rewrite (proj2 (Nat.leb_gt 65 _)) by lia. reflexivity.
  - lia.
Qed.
Lemma listdir_ext dir e : e <> "" -> exists ps rest, Permutation (listdir dir (Some e)) (map fst ps) /\ (forall p, In p ps -> same_upto_case (snd p) e) /\ Permutation dir (map (fun p => (fst p ++ snd p)%string) ps ++ rest)%list /\ forall fn x t, In fn rest -> fn = x ++ t -> ~ same_upto_case t e.
Proof.
  intros N. assert (Le : String.length e <> 0) by (destruct e; [congruence|discriminate]). unfold listdir. rewrite lower_len.
  set (has := fun fn => String.eqb (SdkModel.lower (tail_n (String.length e) fn)) (SdkModel.lower e)).
  enough (G : exists ps rest, map (head_n (String.length e)) (filter has dir) = map fst ps /\ (forall p, In p ps -> same_upto_case (snd p) e) /\ Permutation dir (map (fun p => (fst p ++ snd p)%string) ps ++ rest)%list /\ forall fn x t, In fn rest -> fn = x ++ t -> ~ same_upto_case t e).
  { destruct G as (ps & rest & A & B & C & D). exists ps, rest. rewrite A. split; [symmetry; apply sort_perm|auto]. }
  induction dir as [|fn dir IH]; [exists [], []; split; [reflexivity|split; [intros ? []|split; [constructor|intros ? ? ? []]]]|]. destruct IH as (ps & rest & A & B & C & D). cbn [filter]. destruct (has fn) eqn:E; unfold has in E.
  - apply String.eqb_eq in E. apply (proj1 (ext_iff e fn Le)) in E as (x & t & -> & E). exists ((x, t) :: ps), rest. split; [cbn; rewrite (ext_head e x t) by assumption; f_equal; exact A|]. split; [intros p [<-|P]; [apply lower_same, E|auto]|]. split; [cbn; constructor; exact C|exact D].
  - apply String.eqb_neq in E. exists ps, (fn :: rest). split; [exact A|]. split; [exact B|]. split; [rewrite <- Permutation_middle; constructor; exact C|]. intros fn' x t [<-|F] -> S; [|eapply D; [exact F|reflexivity|exact S]]. apply E, ext_iff; [exact Le|]. exists x, t. split; [reflexivity|]. apply lower_same, S.
Qed.
Lemma filter_perm {A} (p : A -> bool) l m : Permutation l m -> Permutation (filter p l) (filter p m).
Proof. induction 1; cbn; [constructor|destruct (p x); [constructor|]; assumption|destruct (p x), (p y); try constructor; try reflexivity|etransitivity; eassumption]. Qed.
Lemma listdir_order dir dir' ext : Permutation dir dir' -> listdir dir ext = listdir dir' ext.
Proof.
  intros P. apply sorted_unique; [apply listdir_sorted..|]. destruct ext as [e|]; cbn [listdir]; rewrite <- !sort_perm; [|exact P]. apply Permutation_map, filter_perm, P.
Qed.
Lemma listdir_case dir e e' : same_upto_case e e' -> listdir dir (Some e) = listdir dir (Some e').
Proof. intros H. apply lower_same in H. unfold listdir. rewrite H. reflexivity. Qed.
Lemma listdir_none dir : ~ In "" dir -> listdir dir (Some "") = [].
Proof.
  intros H. unfold listdir. cbn [SdkModel.lower String.length]. assert (E : filter (fun fn => String.eqb (SdkModel.lower (tail_n 0 fn)) "") dir = []); [|rewrite E; reflexivity].
  induction dir as [|fn dir IH]; [reflexivity|]. cbn. destruct fn as [|c fn]; [exfalso; apply H; left; reflexivity|]. cbn. apply IH. intros X. apply H. right. exact X.
Qed.

(** ** fls *)
Lemma universal_id s : no_CR s -> universal s = s.
Proof.
  unfold no_CR. induction s as [|c s IH]; intros H; [reflexivity|]. cbn [universal]. destruct (Ascii.eqb_spec c CR) as [->|N]; [exfalso; apply H; left; reflexivity|]. f_equal. apply IH. intros X. apply H. right. exact X.
Qed.
Lemma universal_no_CR s : no_CR (universal s).
Proof.
  unfold no_CR. assert (G : forall n s, String.length s <= n -> ~ In CR (chars (universal s))).
  { induction n as [|n IH]; intros [|c t] L; cbn in L; try lia; [intros []|intros []|]. cbn [universal]. destruct (Ascii.eqb_spec c CR) as [->|N].
    - destruct t as [|d t]; [intros [X|[]]; discriminate|]. destruct (Ascii.eqb d LF).
      + intros [X|X]; [discriminate|]. cbn in L. revert X. apply IH. lia.
      + intros [X|X]; [discriminate|]. revert X. apply IH. lia.
    - intros [X|X]; [congruence|]. revert X. apply IH. lia. }
  apply (G (String.length s)). lia.
Qed.
Lemma holds_set fs n s can : holds (mkFs (SdkModel.dset n s (f_files fs)) can) n s.
Proof. unfold holds. cbn. rewrite SdkProofs2.dget_dset, String.eqb_refl. reflexivity. Qed.
Lemma only_set fs n s : only n fs (mkFs (SdkModel.dset n s (f_files fs)) (f_can fs)).
Proof. split; [reflexivity|]. intros m M. cbn. rewrite SdkProofs2.dget_dset. destruct (String.eqb_spec m n); [congruence|reflexivity]. Qed.
Lemma only_refl n fs : only n fs fs. Proof. split; reflexivity. Qed.
(** writing text, bytes, objects *)
Lemma save_text {J} (L : libs J) fs s fn path : f_can fs (full path fn) = true -> exists fs', fsave L fs (Text s) fn path false false false None false = (Ret tt, fs') /\ holds fs' (full path fn) s /\ only (full path fn) fs fs' /\ fload L fs' fn path false false false None false = Ret (Text (universal s)) /\ fload L fs' fn path true false false None false = Ret (Bytes s).
Proof.
  intros C. unfold fsave. cbn [wrap]. rewrite C. eexists. split; [reflexivity|]. split; [apply holds_set|]. split; [apply only_set|]. unfold fload. cbn [f_files]. rewrite SdkProofs2.dget_dset, String.eqb_refl. split; reflexivity.
Qed.
Lemma save_bytes {J} (L : libs J) fs s fn path : f_can fs (full path fn) = true -> exists fs', fsave L fs (Bytes s) fn path true false false None false = (Ret tt, fs') /\ holds fs' (full path fn) s /\ only (full path fn) fs fs' /\ fload L fs' fn path true false false None false = Ret (Bytes s).
Proof.
  intros C. unfold fsave. cbn [wrap]. rewrite C. eexists. split; [reflexivity|]. split; [apply holds_set|]. split; [apply only_set|]. unfold fload. cbn [f_files]. rewrite SdkProofs2.dget_dset, String.eqb_refl. reflexivity.
Qed.
Lemma save_json {J} (L : libs J) fs d s fn path compressed : f_can fs (full path fn) = true -> gzip_ok L -> json_ok L d s -> exists fs', fsave L fs d fn path false true false None compressed = (Ret tt, fs') /\ only (full path fn) fs fs' /\ fload L fs' fn path false true false None compressed = Ret d.
Proof.
  intros C G (D & Lo & N). unfold fsave. rewrite D. cbn [rbind wrap]. destruct compressed; rewrite C.
  - eexists. split; [reflexivity|]. split; [apply only_set|]. unfold fload. cbn [f_files]. rewrite SdkProofs2.dget_dset, String.eqb_refl, G. cbn [rbind]. rewrite Lo. reflexivity.
  - eexists. split; [reflexivity|]. split; [apply only_set|]. unfold fload. cbn [f_files]. rewrite SdkProofs2.dget_dset, String.eqb_refl. cbn [rbind]. rewrite universal_id by exact N. rewrite Lo. reflexivity.
Qed.
Lemma save_gz {J} (L : libs J) fs s fn path binary : f_can fs (full path fn) = true -> gzip_ok L -> exists fs', fsave L fs (Text s) fn path binary false false None true = (Ret tt, fs') /\ only (full path fn) fs fs' /\ holds fs' (full path fn) (gz L s) /\ fload L fs' fn path binary false false None true = Ret (Bytes s).
Proof.
  intros C G. unfold fsave. cbn [wrap]. rewrite C. eexists. split; [reflexivity|]. split; [apply only_set|]. split; [apply holds_set|]. unfold fload. cbn [f_files]. rewrite SdkProofs2.dget_dset, String.eqb_refl, G. reflexivity.
Qed.
(** the wrapper *)
Lemma save_wrapped {J} (L : libs J) fs s fn path a b : f_can fs (full path fn) = true -> pystr L (Text s) = s -> pystr L (Text (universal s)) = universal s ->
  fsave L fs (Text s) fn path false false false (Some (a, b)) false = fsave L fs (Text (a ++ s ++ b)) fn path false false false None false /\
  exists fs', fsave L fs (Text s) fn path false false false None false = (Ret tt, fs') /\ fload L fs' fn path false false false (Some (a, b)) false = Ret (Text (a ++ universal s ++ b)).
Proof.
  intros C P P2. unfold fsave. cbn [wrap]. rewrite P, C. split; [reflexivity|]. eexists. split; [reflexivity|]. unfold fload. cbn [f_files]. rewrite SdkProofs2.dget_dset, String.eqb_refl. cbn [rbind wrap]. rewrite P2. reflexivity.
Qed.
(** errors *)
Lemma save_errors {J} (L : libs J) fs d fn path binary json w compressed :
  fsave L fs d fn path binary json true w compressed = (Raise AssertionError, fs) /\ fload L fs fn path binary json true w compressed = Raise AssertionError /\
  (absent fs (full path fn) -> fload L fs fn path binary json false w compressed = Raise OSError) /\
  (f_can fs (full path fn) = false -> exists e, fsave L fs d fn path binary json false w compressed = (Raise e, fs)) /\
  (forall e, json = true -> dumps L d = Raise e -> fsave L fs d fn path binary json false w compressed = (Raise e, fs)).
Proof.
  split; [reflexivity|]. split; [reflexivity|]. split; [intros A; unfold fload; unfold absent in A; rewrite A; reflexivity|]. split.
  - intros C. unfold fsave. destruct (if json then _ else _) as [d1|e]; [|eauto]. destruct (if compressed then _ else _) as [d2|e]; [|eauto]. rewrite C. eauto.
  - intros e -> D. unfold fsave. rewrite D. reflexivity.
Qed.
Lemma save_type {J} (L : libs J) fs d fn path binary compressed : f_can fs (full path fn) = true ->
  (compressed = true -> (forall s, d <> Text s) -> fsave L fs d fn path binary false false None compressed = (Raise AttributeError, fs)) /\
  (compressed = false -> (forall s, d <> if binary then Bytes s else Text s) -> exists fs', fsave L fs d fn path binary false false None compressed = (Raise TypeError, fs') /\ holds fs' (full path fn) "" /\ only (full path fn) fs fs').
Proof.
  intros C. unfold fsave. cbn [wrap]. split.
  - intros -> H. destruct d as [s|s|j]; [exfalso; apply (H s); reflexivity|reflexivity..].
  - intros -> H. rewrite C. destruct d as [s|s|j], binary; try (exfalso; apply (H s); reflexivity); (eexists; split; [reflexivity|]; split; [apply holds_set|apply only_set]).
Qed.
Lemma full_spec path fn : (forall r, fn = "/" ++ r -> full path fn = fn) /\ ((forall r, fn <> "/" ++ r) -> full None fn = "./" ++ fn /\ full (Some "") fn = fn /\ forall p, full (Some (p ++ "/")) fn = p ++ "/" ++ fn /\ ((forall q, p <> q ++ "/") -> p <> "" -> full (Some p) fn = p ++ "/" ++ fn)).
Proof.
  split; [intros r ->; reflexivity|]. intros N. assert (F : first_is "/" fn = false). { destruct fn as [|c r]; [reflexivity|]. cbn [first_is]. destruct (Ascii.eqb_spec "/" c) as [<-|]; [exfalso; apply (N r); reflexivity|reflexivity]. }
  unfold full, path_join. rewrite F. split; [reflexivity|]. split; [reflexivity|]. intros p. split.
  - assert (E : last_is "/" (p ++ "/") = true). { induction p as [|c p IH]; [reflexivity|]. cbn [append last_is]. destruct (p ++ "/") eqn:X; [destruct p; discriminate|exact IH]. } rewrite E, orb_true_r. clear. induction p as [|c p IH]; [reflexivity|]. cbn. f_equal. exact IH.
  - intros Q P. assert (E : last_is "/" p = false).
    { clear P. induction p as [|c p IH]; [reflexivity|]. destruct p as [|d p]; [cbn [last_is]; destruct (Ascii.eqb_spec "/" c) as [<-|]; [exfalso; apply (Q ""); reflexivity|reflexivity]|]. apply IH. intros q X. apply (Q (String c q)). cbn [append]. rewrite <- X. reflexivity. }
    rewrite E, orb_false_r. destruct (String.eqb_spec p ""); [contradiction|reflexivity].
Qed.

(** ** iseq and raises *)
Lemma iseq_num a0 x rest eps r : iseq (Num a0) (Num x :: rest) eps = Ret r -> let e := match eps with None => (1 # 1000000)%Q | Some e => e end in
  ((a0 == 0)%Q -> (r = true <-> (Qabs x <= e)%Q)) /\ (~ (a0 == 0)%Q -> (r = true <-> (Qabs (x - a0) <= e * Qabs a0)%Q)).
Proof.
  cbn. set (e := match eps with None => _ | Some e => e end). destruct (Qeq_bool a0 0) eqn:Z.
  - apply Qeq_bool_iff in Z. intros [= <-]. split; [intros _; apply Qle_bool_iff|contradiction].
  - assert (N : ~ (a0 == 0)%Q) by (intros X; apply Qeq_bool_iff in X; congruence). intros [= <-]. split; [contradiction|]. intros _. rewrite Qle_bool_iff.
    assert (P : (0 < Qabs a0)%Q). { destruct (Qlt_le_dec 0 (Qabs a0)) as [P|P]; [exact P|]. exfalso. apply N. apply Qabs_Qle_condition in P. lra. }
    assert (E : (Qabs (x - a0) == Qabs (x / a0 - 1) * Qabs a0)%Q). { rewrite <- Qabs_Qmult. apply Qabs_wd. field. exact N. }
    rewrite E. symmetry. apply Qmult_le_r. exact P.
Qed.
Lemma iseq_total a0 args eps : (args = [] -> iseq a0 args eps = Raise ValueError) /\ (forall s rest q, args = Other s :: rest -> a0 = Num q -> iseq a0 args eps = Raise TypeError) /\ (forall x rest q, args = Num x :: rest -> a0 = Num q -> exists r, iseq a0 args eps = Ret r) /\ (forall s, a0 = Other s -> args <> [] -> exists r, iseq a0 args eps = Ret r /\ (r = true <-> forall a, In a args -> a = a0)).
Proof.
  split; [intros ->; destruct a0; reflexivity|]. split; [intros s rest q -> ->; reflexivity|]. split; [intros x rest q -> ->; cbn; destruct (Qeq_bool q 0); eauto|]. intros s -> N. destruct args as [|a args]; [congruence|]. unfold iseq. eexists. split; [reflexivity|]. rewrite forallb_forall. split; intros H x I.
  - specialize (H x I). destruct x as [q|t]; [discriminate|]. cbn in H. apply String.eqb_eq in H. congruence.
  - rewrite (H x I). cbn. apply String.eqb_refl.
Qed.
Lemma iseq_rest a0 x rest rest' eps : iseq (Num a0) (x :: rest) eps = iseq (Num a0) (x :: rest') eps.
Proof. reflexivity. Qed.
Lemma raises_spec o : (o = Returns -> raises o = Some VFalse) /\ (forall m, o = Raises m -> exists v, raises o = Some v /\ v <> VFalse /\ (truthy v = true <-> m <> "")) /\ (o = Exits -> raises o = None).
Proof.
  split; [intros ->; reflexivity|]. split; [|intros ->; reflexivity]. intros m ->. exists (VMsg m). split; [reflexivity|]. split; [discriminate|]. cbn. destruct (String.eqb_spec m ""); cbn; split; intros; congruence.
Qed.
Lemma universal_iff s : universal s = s <-> no_CR s.
Proof. split; [intros E; rewrite <- E; apply universal_no_CR|apply universal_id]. Qed.
