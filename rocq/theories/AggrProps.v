(** C169: tables aggregated from price histories (carbon/helpers/cryptocompare.py). *)
From Coq Require Import ZArith QArith List Bool String Lia Permutation.
From Verif Require Import PairModel CurveModel CcModel AggrModel AggrSpec AggrProofs AggrProofs2.
Import ListNotations.
Local Open Scope string_scope.
Local Open Scope list_scope.

(** for every field wanted there is one table; it has every time of any history once and for every
    pair that was answered one column, with the values of this field at their times and nothing
    elsewhere. The grand table puts the tables side by side. The order of the columns is that of a
    Python set, so any order is allowed *)
Theorem C169_tables : forall order ts flds grand, (forall l, Permutation (order l) l) -> NoDup (map fst ts) -> (forall p h, In (p, Some h) ts -> NoDup (map fst h)) ->
  (exists p h, In (p, Some h) ts) -> Forall (fun f => exists i, field_no f i) flds -> (grand = true -> flds <> []) ->
  exists a, aggregate order ts flds grand = Ret a /\ NoDup (map fst (ag_aggr a)) /\ (forall f, In f (map fst (ag_aggr a)) <-> In f flds) /\
    (forall f F, In (f, F) (ag_aggr a) -> table_for ts f grand F) /\
    (grand = false -> ag_grand a = None) /\
    (grand = true -> exists g, ag_grand a = Some g /\ (forall f F, In (f, F) (ag_aggr a) -> f_index F = f_index g) /\ f_cols g = flat_map (fun x => f_cols (snd x)) (ag_aggr a)).
Proof.
  intros order ts flds grand O N T E F G. apply aggregate_ok; try assumption. apply Forall_forall. intros f H. rewrite Forall_forall in F. destruct (F f H) as [i I]. apply nth_error_In in I. exact I.
Qed.
(** it fails exactly if no pair was answered (ValueError), if a field is not one of the six
    (KeyError), or if a grand table of no fields is wanted (ValueError) *)
Theorem C169_refused : forall order ts flds grand, (forall l, Permutation (order l) l) -> NoDup (map fst ts) -> (forall p h, In (p, Some h) ts -> NoDup (map fst h)) ->
  ((forall p h, ~ In (p, Some h) ts) -> aggregate order ts flds grand = Raise ValueError) /\
  ((exists p h, In (p, Some h) ts) -> (exists f, In f flds /\ forall i, ~ field_no f i) -> aggregate order ts flds grand = Raise KeyError) /\
  ((exists p h, In (p, Some h) ts) -> aggregate order ts [] true = Raise ValueError).
Proof.
  intros order ts flds grand O N T. split; [|split].
  - intros H. apply aggregate_none. intros (p & h & K). apply (H p h K).
  - intros E (f & F & B). apply aggregate_bad; try assumption. apply Exists_exists. exists f. split; [exact F|]. intros C. apply In_nth_error in C. destruct C as [i C]. apply (B i C).
  - intros E. unfold aggregate. rewrite (df_raw_some ts E). reflexivity.
Qed.
(** the histories are the answers to one question for each pair; a pair whose question failed
    quietly stays in the list of answers without a history, so it has no column *)
Theorem C169_answers : forall c s order pairs freq f grand ps, aggr_pairs pairs = Ret ps ->
  let question p := snd (query_freqlypair c s (match freq with None => "day" | Some f => f end) (Some (fst p)) (Some (snd p)) None LFalse None true) in
  ((forall p, In p ps -> exists t, question p = Ret t) ->
     exists ts, NoDup (map fst ts) /\ (forall p t, In (p, t) ts <-> In p ps /\ question p = Ret t) /\
       aggr_tables c s order pairs freq f grand = aggregate order ts (match f with None => ["close"] | Some (Joined l) => unjoin None l | Some (Items l) => l end) grand) /\
  (forall l p r e, ps = l ++ p :: r -> (forall q, In q l -> exists t, question q = Ret t) -> question p = Raise e -> aggr_tables c s order pairs freq f grand = Raise e).
Proof.
  intros c s order pairs freq f grand ps P question. set (fr := match freq with None => "day" | Some f => f end) in *. split.
  - intros H. unfold aggr_tables. rewrite P. cbn [rbind]. fold fr. destruct (raw_by_pair c s fr ps []) as [ts|e] eqn:E.
    + destruct (raw_by_pair_spec _ _ _ _ _ _ E ltac:(constructor) ltac:(intros ? ? [])) as (A & B & C). exists ts. split; [exact A|]. split.
      * intros p t. split.
        -- intros I. split; [|apply B, I]. pose proof (in_map fst _ _ I) as I'. cbn in I'. apply C in I'. destruct I' as [I'|[]]. exact I'.
        -- intros [I Q]. pose proof (proj2 (C p) (or_introl I)) as M. apply in_map_iff in M. destruct M as ([p' t'] & M1 & M). cbn in M1. subst p'. pose proof (B p t' M) as Q'. unfold ask in Q'. unfold question in Q. rewrite Q in Q'. injection Q' as <-. exact M.
      * cbn [rbind]. destruct f as [[j|l]|]; reflexivity.
    + apply raw_by_pair_error in E. destruct E as (l & p & r & -> & A & _). destruct (H p) as [t Q]; [apply in_elt|]. unfold ask in A. unfold question in Q. rewrite Q in A. discriminate.
  - intros l p r e -> L Q. unfold aggr_tables. rewrite P. cbn [rbind]. fold fr. assert (E : raw_by_pair c s fr (l ++ p :: r) [] = Raise e) by (apply raw_by_pair_error; exists l, p, r; split; [reflexivity|]; split; [exact Q|exact L]).
    rewrite E. reflexivity.
Qed.
(** a pair that was not answered disappears from the tables without a word *)
Theorem C169_missing_refuted : exists ts p a F, In p (map fst ts) /\ aggregate (fun l => l) ts ["close"] false = Ret a /\ In ("close", F) (ag_aggr a) /\ ~ In (One (fst p ++ "/" ++ snd p)%string) (map fst (f_cols F)).
Proof.
  exists [(("ETH", "USD"), Some [(1%Z, [1; 2; 3; 4; 5; 6]%Q)]); (("BTC", "USD"), None)], ("BTC", "USD"). eexists _, _. split; [right; left; reflexivity|]. split; [reflexivity|]. split; [left; reflexivity|].
  cbn. intros [H|[]]. discriminate.
Qed.
Example C169_ex : let eth := [(1%Z, [1; 2; 3; 4; 5; 6]%Q); (2%Z, [7; 8; 9; 10; 11; 12]%Q)] in let btc := [(2%Z, [20; 21; 22; 23; 24; 25]%Q); (3%Z, [30; 31; 32; 33; 34; 35]%Q)] in
  let ts := [(("ETH", "USD"), Some eth); (("BTC", "USD"), Some btc); (("XXX", "USD"), None)] in
  NoDup (map fst ts) /\ (forall p h, In (p, Some h) ts -> NoDup (map fst h)) /\ (forall l : list pt, Permutation (rev l) l) /\
  exists a F g, aggregate (@rev pt) ts ["close"; "open"] true = Ret a /\ In ("close", F) (ag_aggr a) /\ f_index F = [1; 2; 3]%Z /\
    f_cols F = [(Two "close" "BTC/USD", [None; Some 21; Some 31]%Q); (Two "close" "ETH/USD", [Some 2; Some 8; None]%Q)] /\ ag_grand a = Some g /\ List.length (f_cols g) = 4%nat.
Proof.
  intros eth btc ts. split; [|split; [|split]].
  - repeat constructor; cbn; intuition discriminate.
  - intros p h [H|[H|[H|[]]]]; injection H as <- <- || discriminate; repeat constructor; cbn; intuition discriminate.
  - intros l. apply Permutation_sym, Permutation_rev.
  - eexists _, _, _. split; [vm_compute; reflexivity|]. split; [left; reflexivity|]. repeat split.
Qed.

Print Assumptions C169_tables.
Print Assumptions C169_refused.
Print Assumptions C169_answers.
Print Assumptions C169_missing_refuted.
