(** Calls of margp_optimizer. *)
From Coq Require Import Reals Lra Bool String List ZArith Arith Lia Permutation.
From Verif Require Import CurveModel CurveProofs CpcModel CpcSpec ContainerModel ContainerSpec ContainerProofs ContainerProofs2 ContainerProofs3 OptModel OptSpec OptProofs2 OptProofs6 OptProofs8 OptProofs9 OptProofs10 ArbModel.
Import ListNotations.
Local Open Scope R_scope.

Section CALL.
Variables (ot op : list string -> list string) (solve : list (list R) -> list R -> list R) (h : heap) (cc : container).
Local Notation call := (optimize ot op solve h cc).
Local Notation cs := (map (obj h) (curves cc)).

Lemma arb_name t : exists s, arb t = Ret s /\ is_arbsfc s = true /\ s_ov s = t.
Proof. unfold arb, make_sfc. cbn. eexists. split; [reflexivity|]. split; reflexivity. Qed.
Lemma call_name t s want eps maxiter start : is_arbsfc s = true -> s_ov s = t -> call (ByName t) want eps maxiter start = call (ByObject s) want eps maxiter start.
Proof.
  intros A O. destruct (arb_name t) as (s' & E & A' & O'). unfold optimize. rewrite E. cbn [rbind]. rewrite A, A', O, O'. cbn [negb].
  destruct cs as [|c l] eqn:Z; [reflexivity|]. destruct (str_in t (token_set (c :: l))); [|reflexivity]. cbn [negb]. destruct (starting h cc t (tokens_t ot (c :: l) t) start) as [p0|e]; [|reflexivity]. cbn [rbind].
  destruct want; [| |reflexivity]; unfold margp_optimizer; rewrite A, A', O, O'; reflexivity.
Qed.
Definition admissible (a : sfcarg) (target : string) : Prop :=
  match a with ByName t => t = target | ByObject s => is_arbsfc s = true /\ s_ov s = target end /\ exists c, In c cs /\ (tknx c = target \/ tkny c = target).
Lemma in_tokens t : In t (token_set cs) <-> exists c, In c cs /\ (tknx c = t \/ tkny c = t).
Proof. apply tokens_in. Qed.
Lemma call_value a target want eps maxiter start : admissible a target -> exists s, is_arbsfc s = true /\ s_ov s = target /\
  call a want eps maxiter start =
  let* p0 := starting h cc target (tokens_t ot cs target) start in
  match want with PStart => Ret (price_frame target (tokens_t ot cs target) p0)
  | _ => let* o := margp_optimizer ot op solve cs s eps maxiter None p0 (match want with Minimal => true | _ => false end) in Ret (Result o) end.
Proof.
  intros [A T]. apply in_tokens in T. assert (T' : str_in target (token_set cs) = true) by (apply str_in_iff; exact T).
  assert (X : exists s, match a with ByName t => arb t | ByObject s => Ret s end = Ret s /\ is_arbsfc s = true /\ s_ov s = target).
  { destruct a as [t|s]; [subst t; apply arb_name|exists s; split; [reflexivity|exact A]]. }
  destruct X as (s & E & As & O). exists s. split; [exact As|]. split; [exact O|]. unfold optimize. rewrite E. cbn [rbind]. rewrite As, O. cbn [negb].
  destruct cs as [|c l] eqn:Z; [destruct T|]. rewrite T'. reflexivity.
Qed.
Lemma call_checks a want eps maxiter start : (forall target, ~ admissible a target) -> call a want eps maxiter start = Raise AssertionError.
Proof.
  intros N. unfold optimize. assert (X : exists s, match a with ByName t => arb t | ByObject s => Ret s end = Ret s /\ (is_arbsfc s = true -> match a with ByName t => t = s_ov s | ByObject s0 => is_arbsfc s0 = true /\ s_ov s0 = s_ov s end)).
  { destruct a as [t|s]; [destruct (arb_name t) as (s & E & _ & O); exists s; split; [exact E|]; intros _; symmetry; exact O|exists s; split; [reflexivity|]; auto]. }
  destruct X as (s & E & X). rewrite E. cbn [rbind]. destruct (is_arbsfc s) eqn:A; [|reflexivity]. cbn [negb]. destruct cs as [|c l] eqn:Z; [reflexivity|].
  destruct (str_in (s_ov s) (token_set (c :: l))) eqn:I1; [|reflexivity]. exfalso. apply str_in_iff in I1. rewrite <- Z in I1. apply in_tokens in I1. apply (N (s_ov s)). split; [apply X; reflexivity|exact I1].
Qed.

(** start prices from a dictionary *)
Definition entry (d : list (string * R)) (t : string) : option R := option_map snd (find (fun e => String.eqb (fst e) t) d).
Lemma start_entry ts d : start_prices ts (Some d) None = rmap (fun t => match entry d t with Some v => Ret v | None => Raise KeyError end) ts.
Proof. cbn [start_prices]. unfold entry. induction ts as [|t ts IH]; [reflexivity|]. cbn [rmap]. rewrite IH. destruct (find _ d); reflexivity. Qed.
Lemma start_ext ts d d' : (forall t, In t ts -> entry d t = entry d' t) -> start_prices ts (Some d) None = start_prices ts (Some d') None.
Proof. intros H. rewrite !start_entry. induction ts as [|t ts IH]; [reflexivity|]. cbn [rmap]. rewrite (H t (or_introl eq_refl)), IH by (intros u Hu; apply H; right; exact Hu). reflexivity. Qed.
Lemma start_missing ts d t : In t ts -> entry d t = None -> start_prices ts (Some d) None = Raise KeyError.
Proof.
  intros I1 E. rewrite start_entry. induction ts as [|u ts IH]; [destruct I1|]. cbn [rmap]. destruct (string_dec u t) as [->|N]; [rewrite E; reflexivity|]. destruct I1 as [->|I1]; [contradiction|].
  rewrite (IH I1). destruct (entry d u); reflexivity.
Qed.
Lemma start_combine ts v : NoDup ts -> List.length v = List.length ts -> start_prices ts (Some (combine ts v)) None = Ret v.
Proof.
  rewrite start_entry. intros D. revert v. induction ts as [|t ts IH]; intros [|a v] L; try discriminate L; [reflexivity|]. inversion D as [|? ? D1 D2]; subst. cbn [combine rmap]. unfold entry at 1. cbn [find fst]. rewrite String.eqb_refl. cbn [option_map snd rbind].
  assert (X : rmap (fun t0 => match entry ((t, a) :: combine ts v) t0 with Some w => Ret w | None => Raise KeyError end) ts = rmap (fun t0 => match entry (combine ts v) t0 with Some w => Ret w | None => Raise KeyError end) ts).
  { clear - D1. assert (K : forall l, (forall u, In u l -> u <> t) -> rmap (fun t0 => match entry ((t, a) :: combine ts v) t0 with Some w => Ret w | None => Raise KeyError end) l = rmap (fun t0 => match entry (combine ts v) t0 with Some w => Ret w | None => Raise KeyError end) l).
    { induction l as [|u l IH]; intros H; [reflexivity|]. cbn [rmap]. rewrite IH by (intros w Hw; apply H; right; exact Hw). assert (Q : entry ((t, a) :: combine ts v) u = entry (combine ts v) u); [|rewrite Q; reflexivity].
      unfold entry. cbn [find fst]. destruct (String.eqb t u) eqn:Z; [|reflexivity]. apply String.eqb_eq in Z. exfalso. apply (H u (or_introl eq_refl)). auto. }
    apply K. intros u Hu ->. contradiction. }
  rewrite X, IH; [reflexivity|exact D2|]. cbn in L. lia.
Qed.
Lemma tokens_t_in target t : order ot -> In t (tokens_t ot cs target) <-> t <> target /\ exists c, In c cs /\ (tknx c = t \/ tkny c = t).
Proof.
  intros Ot. unfold tokens_t. rewrite filter_In. rewrite <- in_tokens. split.
  - intros [A B]. split; [intros ->; rewrite String.eqb_refl in B; discriminate|]. apply (Permutation_in _ (Ot _)), A.
  - intros [A B]. split; [apply (Permutation_in _ (Permutation_sym (Ot _))), B|]. destruct (String.eqb t target) eqn:Z; [apply String.eqb_eq in Z; contradiction|reflexivity].
Qed.
Lemma tokens_t_nodup target : order ot -> NoDup (tokens_t ot cs target).
Proof. intros Ot. unfold tokens_t. apply NoDup_filter. apply (Permutation_NoDup (Permutation_sym (Ot _))). unfold token_set. apply as_set_nodup. Qed.

Lemma call_dict_ext a target want eps maxiter d d' : order ot -> admissible a target -> (forall t, t <> target -> (exists c, In c cs /\ (tknx c = t \/ tkny c = t)) -> entry d t = entry d' t) ->
  call a want eps maxiter (StartDict d) = call a want eps maxiter (StartDict d').
Proof.
  intros Ot A E. assert (X : starting h cc target (tokens_t ot cs target) (StartDict d) = starting h cc target (tokens_t ot cs target) (StartDict d')).
  { cbn [starting]. rewrite (start_ext _ d d'); [reflexivity|]. intros t Ht. apply tokens_t_in in Ht as [H1 H2]; [|exact Ot]. apply E; assumption. }
  destruct (call_value a target want eps maxiter (StartDict d) A) as (s & As & O & ->). destruct (call_value a target want eps maxiter (StartDict d') A) as (s' & As' & O' & ->). rewrite X.
  destruct (starting h cc target (tokens_t ot cs target) (StartDict d')) as [p0|e]; [|reflexivity]. cbn [rbind]. destruct want; [| |reflexivity]; unfold margp_optimizer; rewrite As, As', O, O'; reflexivity.
Qed.
Lemma call_starting a target want eps maxiter s1 s2 : admissible a target -> starting h cc target (tokens_t ot cs target) s1 = starting h cc target (tokens_t ot cs target) s2 ->
  call a want eps maxiter s1 = call a want eps maxiter s2.
Proof.
  intros A X. destruct (call_value a target want eps maxiter s1 A) as (s & As & O & ->). destruct (call_value a target want eps maxiter s2 A) as (s' & As' & O' & ->). rewrite X.
  destruct (starting h cc target (tokens_t ot cs target) s2) as [p0|e]; [|reflexivity]. cbn [rbind]. destruct want; [| |reflexivity]; unfold margp_optimizer; rewrite As, As', O, O'; reflexivity.
Qed.
Lemma call_frame a target want eps maxiter cols d : admissible a target -> frame_column cols target = Some d -> call a want eps maxiter (StartFrame cols) = call a want eps maxiter (StartDict d).
Proof. intros A E. apply (call_starting a target); [exact A|]. cbn [starting]. rewrite E. reflexivity. Qed.
Lemma call_missing a target want eps maxiter d t : order ot -> admissible a target -> t <> target -> (exists c, In c cs /\ (tknx c = t \/ tkny c = t)) -> entry d t = None ->
  call a want eps maxiter (StartDict d) = Raise KeyError.
Proof.
  intros Ot A N Hc E. destruct (call_value a target want eps maxiter (StartDict d) A) as (s & _ & _ & ->). cbn [starting]. rewrite (start_missing _ d t); [reflexivity| |exact E]. apply tokens_t_in; auto.
Qed.
Lemma call_no_column a target want eps maxiter cols : admissible a target -> frame_column cols target = None -> call a want eps maxiter (StartFrame cols) = Raise RuntimeError.
Proof. intros A E. destruct (call_value a target want eps maxiter (StartFrame cols) A) as (s & _ & _ & ->). cbn [starting]. rewrite E. reflexivity. Qed.

(** without start prices: the estimates *)
Definition quoted (target t : string) (v : R) : Prop := exists A, active (trading h cc t target) A /\ A <> [] /\ v = weighted t A.
Lemma estimate_row target : (forall r, In r (curves cc) -> 0 < k (obj h r) /\ x (obj h r) <> 0) -> forall ts, ~ In target ts -> exists row, rmap (fun b => price_estimate h cc b target false) ts = Ret row /\
  Forall2 (fun t e => forall A, active (trading h cc t target) A -> e = match A with [] => None | _ => Some (weighted t A) end) ts row.
Proof.
  intros H. induction ts as [|t ts IH]; intros N; [exists []; split; [reflexivity|constructor]|]. destruct (IH (fun X => N (or_intror X))) as (row & E & F).
  destruct (active_exists (trading h cc t target)) as (A & HA). assert (Nt : t <> target) by (intros ->; apply N; left; reflexivity). pose proof (estimate_value h cc t target false A Nt H HA) as V.
  exists (match A with [] => None | _ => Some (weighted t A) end :: row). split.
  - cbn [rmap]. rewrite V. destruct A; cbn [rbind]; rewrite E; reflexivity.
  - constructor; [|exact F]. intros B HB. rewrite (active_unique _ _ _ HB HA). reflexivity.
Qed.
Lemma estimates_value target ts : (forall r, In r (curves cc) -> 0 < k (obj h r) /\ x (obj h r) <> 0) -> ~ In target ts ->
  (exists v, opt_estimates h cc target ts = Ret v /\ Forall2 (quoted target) ts v) \/
  (opt_estimates h cc target ts = Raise ValueError /\ exists t, In t ts /\ forall c, In c cs -> on_tokens t target c -> used_up c).
Proof.
  intros H N. destruct (estimate_row target H ts N) as (row & E & F). unfold opt_estimates, price_estimates. cbn [rmap]. rewrite E. cbn [rbind].
  destruct (existsb (fun o : option R => match o with None => true | Some _ => false end) row) eqn:X.
  - right. cbn [existsb]. rewrite X. split; [reflexivity|]. clear E. induction F as [|t e ts row Ht _ IH]; [discriminate|]. cbn [existsb] in X.
    destruct (active_exists (trading h cc t target)) as (A & HA). specialize (Ht A HA). destruct A as [|a A].
    + exists t. split; [left; reflexivity|]. intros c Hc On. destruct (active_exists [c]) as (B & HB). inversion HB as [|? ? ? U _|? ? ? U _]; subst; [|exact U]. exfalso. assert (In c []) as []. apply (active_in _ _ c HA). split; [|exact U]. unfold trading. apply filter_In. split; [exact Hc|]. apply on_tokens_iff, On.
    + subst e. cbn [orb] in X. destruct (IH (fun Y => N (or_intror Y)) X) as (t' & I1 & I2). exists t'. split; [right; exact I1|exact I2].
  - left. cbn [existsb]. rewrite X. cbn [orb andb]. exists (somes row). split; [reflexivity|]. clear E. induction F as [|t e ts row Ht _ IH]; [constructor|]. cbn [existsb] in X. apply orb_false_iff in X as [X1 X2]. destruct e as [e|]; [|discriminate].
    cbn [somes flat_map]. constructor; [|exact (IH (fun Y => N (or_intror Y)) X2)]. destruct (active_exists (trading h cc t target)) as (A & HA). specialize (Ht A HA). exists A. split; [exact HA|]. destruct A as [|a A]; [discriminate|]. injection Ht as ->. split; [discriminate|reflexivity].
Qed.
End CALL.
