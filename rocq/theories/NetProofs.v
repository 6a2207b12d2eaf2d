(** Proofs about arbitrage graphs as networks: conversion and shortest walks. *)
From Coq Require Import Reals ZArith List Bool String Arith Lia Lra.
From Verif Require Import CurveModel GraphModel GraphSpec NetModel NetSpec.
Import ListNotations.

(** ** walks *)
Lemma walk_hd E a z l : walk E a z l -> exists r, l = a :: r.
Proof. destruct 1; eauto. Qed.
Lemma walk_last E a z l d : walk E a z l -> last l d = z.
Proof.
  induction 1 as [a|a b z l H W IH]; [reflexivity|]. destruct (walk_hd _ _ _ _ W) as [r ->]. rewrite <- IH. reflexivity.
Qed.
Lemma walk_mono (E F : nat -> nat -> Prop) a z l : (forall x y, E x y -> F x y) -> walk E a z l -> walk F a z l.
Proof. intros H. induction 1; econstructor; eauto. Qed.
Lemma walk_suffix E a z l c : walk E a z l -> In c l -> exists s, walk E c z s /\ (List.length s <= List.length l)%nat.
Proof.
  induction 1 as [a|a b z l H W IH]; intros I.
  - destruct I as [<-|[]]. exists [a]. split; [constructor|auto].
  - destruct I as [<-|I]. { exists (a :: l). split; [econstructor; eauto|auto]. }
    destruct (IH I) as (s & S & L). exists s. split; [exact S|cbn; lia].
Qed.
Lemma walk_shorter E a z l : walk E a z l -> NoDup l \/ exists l', walk E a z l' /\ (List.length l' < List.length l)%nat.
Proof.
  induction 1 as [a|a b z l H W IH].
  - left. constructor; [intros []|constructor].
  - destruct IH as [N|(l' & W' & L)].
    + destruct (in_dec Nat.eq_dec a l) as [I|I]; [|left; constructor; auto]. right. destruct (walk_suffix _ _ _ _ _ W I) as (s & S & L). exists s. split; [exact S|cbn; lia].
    + right. exists (a :: l'). split; [econstructor; eauto|cbn; lia].
Qed.
Lemma walk_nodup E a z : forall n l, (List.length l <= n)%nat -> walk E a z l -> exists l', walk E a z l' /\ NoDup l'.
Proof.
  induction n as [|n IH]; intros l L W.
  - destruct (walk_hd _ _ _ _ W) as [r ->]. cbn in L. lia.
  - destruct (walk_shorter _ _ _ _ W) as [N|(l' & W' & L')]; [eauto|]. apply (IH l'); [lia|exact W'].
Qed.
Lemma minimal_nodup E a z l : walk E a z l -> (forall l', walk E a z l' -> (List.length l <= List.length l')%nat) -> NoDup l.
Proof. intros W M. destruct (walk_shorter _ _ _ _ W) as [N|(l' & W' & L)]; [exact N|]. specialize (M _ W'). lia. Qed.
Lemma walk_range L n a z l : Forall (fun p => (fst p < n)%nat /\ (snd p < n)%nat) L -> (a < n)%nat -> walk (edge_in L) a z l -> Forall (fun x => (x < n)%nat) l.
Proof.
  intros F H W. induction W as [a|a b z l I W IH]; [repeat constructor; exact H|]. constructor; [exact H|]. apply IH. rewrite Forall_forall in F. apply F in I. apply I.
Qed.
Lemma nodup_bound n l : NoDup l -> Forall (fun x => (x < n)%nat) l -> (List.length l <= n)%nat.
Proof.
  intros N F. rewrite <- (seq_length n 0). apply NoDup_incl_length; [exact N|]. intros x I. rewrite Forall_forall in F. apply in_seq. specialize (F _ I). lia.
Qed.

(** ** the search by length *)
Lemma walks_spec L : forall k b w, In w (walks L k b) <-> exists z, walk (edge_in L) b z w /\ List.length w = S k.
Proof.
  induction k as [|k IH]; intros b w; cbn [walks].
  - split.
    + intros [<-|[]]. exists b. split; [constructor|reflexivity].
    + intros (z & W & E). destruct W as [a|a c z l H W]; [left; reflexivity|]. destruct (walk_hd _ _ _ _ W) as [r ->]. discriminate.
  - rewrite in_flat_map. split.
    + intros ([x y] & I & J). cbn [fst snd] in J. destruct (Nat.eqb_spec x b) as [->|]; [|destruct J]. apply in_map_iff in J. destruct J as (u & <- & J). apply IH in J. destruct J as (z & W & E). exists z. split; [econstructor; [exact I|exact W]|cbn; lia].
    + intros (z & W & E). inversion W as [a|a c z' l H W']; subst; [discriminate|]. exists (b, c). split; [exact H|]. cbn [fst snd]. rewrite Nat.eqb_refl. apply in_map. apply IH. exists z. split; [exact W'|]. cbn in E. lia.
Qed.
Lemma search_spec L b q : forall m k, (forall l, walk (edge_in L) b q l -> (k < List.length l)%nat) ->
  (forall l, search L b q k m = Some l -> walk (edge_in L) b q l /\ forall l', walk (edge_in L) b q l' -> (List.length l <= List.length l')%nat) /\
  (search L b q k m = None -> forall l, walk (edge_in L) b q l -> (S (k + m) < List.length l)%nat).
Proof.
  induction m as [|m IH]; intros k H; cbn [search].
  all: destruct (List.find (fun w => Nat.eqb (last w b) q) (walks L k b)) as [w|] eqn:F.
  1,3: apply find_some in F; destruct F as [I E]; apply walks_spec in I; destruct I as (z & W & Len); apply Nat.eqb_eq in E; rewrite (walk_last _ _ _ _ b W) in E; subst z; split; [intros l [= <-]; split; [exact W|intros l' W'; specialize (H _ W'); lia]|discriminate].
  all: assert (H' : forall l, walk (edge_in L) b q l -> (S k < List.length l)%nat) by (intros l W; assert (A := H _ W); destruct (Nat.eq_dec (List.length l) (S k)) as [E|]; [|lia]; exfalso; assert (I : In l (walks L k b)) by (apply walks_spec; eauto); apply (find_none _ _ F) in I; rewrite (walk_last _ _ _ _ b W), Nat.eqb_refl in I; discriminate).
  - split; [discriminate|]. intros _ l W. specialize (H' _ W). lia.
  - destruct (IH (S k) H') as [A B]. split; [exact A|]. intros N l W. specialize (B N l W). lia.
Qed.
Lemma by_length_searches : searches by_length.
Proof.
  intros n L b q F Hb Hq. unfold by_length. cbn [nx_edges nx_n].
  destruct (search_spec L b q n 0) as [A B]. { intros l W. destruct (walk_hd _ _ _ _ W) as [r ->]. cbn. lia. }
  split; [exact A|]. intros N l W. destruct (walk_nodup _ _ _ _ l (le_n _) W) as (l' & W' & D). specialize (B N l' W'). assert (X := nodup_bound n l' D (walk_range L n b q l' F Hb W')). lia.
Qed.

(** ** conversion *)
Lemma same_pair_eq p q : same_pair p q = true <-> p = q.
Proof. destruct p, q. unfold same_pair. cbn. rewrite andb_true_iff, !Nat.eqb_eq. split; [intros [-> ->]; reflexivity|intros [= -> ->]; auto]. Qed.
Lemma has_dir l i j : has true l i j = true <-> In (i, j) l.
Proof.
  unfold has. rewrite existsb_exists. cbn [negb andb]. split.
  - intros (p & I & E). rewrite orb_false_r in E. apply same_pair_eq in E. subst. exact I.
  - intros I. exists (i, j). split; [exact I|]. rewrite orb_false_r. apply same_pair_eq. reflexivity.
Qed.
Lemma has_undir l i j : has false l i j = true <-> In (i, j) l \/ In (j, i) l.
Proof.
  unfold has. rewrite existsb_exists. cbn [negb andb]. split.
  - intros (p & I & E). apply orb_true_iff in E. rewrite !same_pair_eq in E. destruct E; subst; auto.
  - intros [I|I]; eexists; (split; [exact I|]); apply orb_true_iff; rewrite !same_pair_eq; auto.
Qed.
Lemma has_sym l i j : has false l i j = has false l j i.
Proof. apply eq_true_iff_eq. rewrite !has_undir. tauto. Qed.
Definition collected (dir : bool) (es : list edge) : list (nat * nat) := fold_left (nx_add dir) es [].
Lemma collected_snoc dir es e : collected dir (es ++ [e]) = nx_add dir (collected dir es) e.
Proof. unfold collected. rewrite fold_left_app. reflexivity. Qed.
Lemma collected_has dir es i j : has dir (collected dir es) i j = true <-> exists e, In e es /\ ((e_in e = i /\ e_out e = j) \/ (dir = false /\ e_in e = j /\ e_out e = i)).
Proof.
  induction es as [|e es IH] using rev_ind.
  - cbn. split; [discriminate|intros (e & [] & _)].
  - rewrite collected_snoc. unfold nx_add. destruct (has dir (collected dir es) (e_in e) (e_out e)) eqn:H.
    + rewrite IH. split.
      * intros (f & I & C). exists f. split; [apply in_or_app; auto|exact C].
      * intros (f & I & C). apply in_app_or in I. destruct I as [I|[<-|[]]]; [eauto|]. apply IH. destruct C as [[<- <-]|(-> & <- & <-)]; [exact H|]. rewrite has_sym. exact H.
    + unfold has at 1. rewrite existsb_app. fold (has dir (collected dir es) i j). cbn [existsb]. rewrite orb_false_r, orb_true_iff, IH, orb_true_iff, andb_true_iff, !same_pair_eq. split.
      * intros [(f & I & C)|[E|[D E]]]; [exists f; split; [apply in_or_app; auto|exact C]| |]; exists e; (split; [apply in_or_app; right; left; reflexivity|]); injection E as E1 E2; [left; auto|right; destruct dir; [discriminate|auto]].
      * intros (f & I & C). apply in_app_or in I. destruct I as [I|[<-|[]]]; [left; eauto|right]. destruct C as [[-> ->]|(-> & -> & ->)]; auto.
Qed.
Lemma collected_from dir es p : In p (collected dir es) -> exists e, In e es /\ p = (e_in e, e_out e).
Proof.
  induction es as [|e es IH] using rev_ind; [intros []|]. rewrite collected_snoc. unfold nx_add. destruct (has _ _ _ _).
  - intros I. destruct (IH I) as (f & J & E). exists f. split; [apply in_or_app; auto|exact E].
  - intros I. apply in_app_or in I. destruct I as [I|[<-|[]]]; [destruct (IH I) as (f & J & E); exists f; split; [apply in_or_app; auto|exact E]|]. exists e. split; [apply in_or_app; right; left; reflexivity|reflexivity].
Qed.
Lemma collected_nodup dir es : NoDup (collected dir es).
Proof.
  induction es as [|e es IH] using rev_ind; [constructor|]. rewrite collected_snoc. unfold nx_add. destruct (has dir (collected dir es) (e_in e) (e_out e)) eqn:H; [exact IH|].
  assert (X : ~ In (e_in e, e_out e) (collected dir es)). { intros I. assert (Y : has dir (collected dir es) (e_in e) (e_out e) = true) by (unfold has; apply existsb_exists; exists (e_in e, e_out e); split; [exact I|]; apply orb_true_iff; left; apply same_pair_eq; reflexivity). congruence. }
  revert IH X. generalize (collected dir es). intros l N X. induction N as [|p l I N IH]; cbn; [constructor; [intros []|constructor]|]. constructor; [|apply IH; intros J; apply X; right; exact J]. intros J. apply in_app_or in J. destruct J as [J|[J|[]]]; [auto|]. apply X. left. auto.
Qed.
Lemma directed_edge g i j : In (i, j) (collected true (g_edges g)) <-> has_edge g (i, j).
Proof.
  rewrite <- has_dir, collected_has. unfold has_edge. cbn. split.
  - intros (e & I & [[A B]|[D _]]); [eauto|discriminate].
  - intros (e & I & A & B). eauto.
Qed.
Lemma as_graph_directed g : as_graph g true false = Ret (mkNx true (List.length (g_nodes g)) (collected true (g_edges g))).
Proof. reflexivity. Qed.
Lemma collected_range dir g : linked g -> Forall (fun p => (fst p < List.length (g_nodes g))%nat /\ (snd p < List.length (g_nodes g))%nat) (collected dir (g_edges g)).
Proof.
  intros L. apply Forall_forall. intros p I. apply collected_from in I. destruct I as (e & I & ->). unfold linked in L. rewrite Forall_forall in L. specialize (L _ I). cbn. tauto.
Qed.
Lemma walk_graph g b q l : walk (edge_in (collected true (g_edges g))) b q l <-> walk (step g) b q l.
Proof. split; apply walk_mono; unfold edge_in, step; intros x y; apply directed_edge. Qed.
Lemma walk_steps g b q l : walk (step g) b q l -> Forall (has_edge g) (steps l).
Proof.
  unfold steps. induction 1 as [a|a b z l H W IH]; cbn; [constructor|]. destruct (walk_hd _ _ _ _ W) as [r ->]. cbn. constructor; [exact H|exact IH].
Qed.
Lemma search_graph find g b q : searches find -> linked g -> on_graph g b -> on_graph g q ->
  (exists l, shortest_path find g b q = Ret l /\ walk (step g) b q l /\ forall l', walk (step g) b q l' -> (List.length l <= List.length l')%nat) \/
  (shortest_path find g b q = Raise RuntimeError /\ forall l, ~ walk (step g) b q l).
Proof.
  intros S L B Q. unfold shortest_path. rewrite as_graph_directed. cbn [rbind]. destruct (S _ _ b q (collected_range true g L) B Q) as [H N].
  destruct (find _ b q) as [l|].
  - left. exists l. destruct (H l eq_refl) as [W M]. split; [reflexivity|]. split; [apply walk_graph; exact W|]. intros l' W'. apply M, walk_graph, W'.
  - right. split; [reflexivity|]. intros l W. apply (N eq_refl l), walk_graph, W.
Qed.
