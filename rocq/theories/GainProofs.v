From Coq Require Import ZArith QArith Qabs List Bool Ascii String Lia Lqa.
From Verif Require Import TradeModel TradeProofs PairModel PairSpec PairProofs SimModel SimSpec SimProofs SimProofs2 SimProofs3 SimProofs4 SimProofs5 SimProofs6 SimProofs7 SimProofs8.
From Verif Require Import FastModel FastSpec FastProofs GainSpec.
Import ListNotations.
Local Open Scope list_scope.

(** ** One fill *)
Lemma qmul_le_l a b c : (0 <= a)%Q -> (b <= c)%Q -> (a * b <= a * c)%Q.
Proof. intros Ha H. pose proof (qmul_nonneg a (c - b) Ha ltac:(lra)). lra. Qed.
(** what is paid is worth what is sold *)
Lemma fill_worth (w : string -> Q) (o l : sorder) sold bought : no_bargain w o l -> (0 <= w (so_tkn o))%Q -> (0 <= bought)%Q -> (sold <= so_phigh o * bought)%Q ->
  (w (so_tkn o) * sold <= w (so_tkn l) * bought)%Q.
Proof.
  unfold no_bargain. intros H Hw Hb Hs. pose proof (qmul_le_l _ _ _ Hw Hs). pose proof (qmul_le_l _ _ _ Hb H). lra.
Qed.

Lemma same_terms_tkn o o' : same_terms o o' -> so_tkn o' = so_tkn o /\ so_lid o' = so_lid o /\ so_phigh o' = so_phigh o /\ so_plow o' = so_plow o.
Proof. intros (_ & A & B & _ & D & C & _). auto. Qed.
Lemma worth_set w i o o' os : oget i os = Some o -> (book_worth w (oset i o' os) == book_worth w os - worth_of w o + worth_of w o')%Q.
Proof.
  unfold book_worth. induction os as [|[k v] os IH]; [discriminate|]. unfold oget, oset in *. cbn -[Nat.eqb].
  destruct (Nat.eqb i k) eqn:E.
  - intros H. injection H as ->. cbn. ring.
  - intros H. cbn. rewrite (IH H). ring.
Qed.

(** ** The loop over the routes *)
Definition priced (c : loop_ctx) (os : list (nat * sorder)) (routes : list route) : Prop :=
  forall r i o, In r routes -> id_map (lc_apps c) (rt_index r) = Some i -> oget i os = Some o ->
    ((if lc_swap c then Qabs (rt_input r) else Qabs (rt_output r)) <= so_phigh o * (if lc_swap c then Qabs (rt_output r) else Qabs (rt_input r)))%Q.
Lemma priced_evolves c os os' routes : evolves os os' -> priced c os routes -> priced c os' routes.
Proof.
  intros V P r i o Hr Hi Ho. destruct (evolves_back _ _ _ _ V Ho) as (o0 & E & T). apply same_terms_tkn in T as (_ & _ & -> & _). apply (P r i o0 Hr Hi E).
Qed.
(** nobody but its partner pays into an order *)
Definition partners (os : list (nat * sorder)) (k l : nat) : Prop :=
  k <> l /\ forall i o, oget i os = Some o -> (so_lid o = k <-> i = l) /\ (so_lid o = l <-> i = k).
Lemma partners_evolves os os' k l : evolves os os' -> partners os k l -> partners os' k l.
Proof.
  intros V [N P]. split; [assumption|]. intros i o Ho. destruct (evolves_back _ _ _ _ V Ho) as (o0 & E & T). apply same_terms_tkn in T as (_ & -> & _). apply (P i o0 E).
Qed.
Definition pair_worth (w : string -> Q) (os : list (nat * sorder)) (k l : nat) (v : Q) : Prop :=
  exists o o', oget k os = Some o /\ oget l os = Some o' /\ no_bargain w o o' /\ no_bargain w o' o /\ (0 <= w (so_tkn o))%Q /\ (0 <= w (so_tkn o'))%Q /\
    (v <= worth_of w o + worth_of w o')%Q.
Lemma no_bargain_terms w o l o' l' : same_terms o o' -> same_terms l l' -> no_bargain w o l -> no_bargain w o' l'.
Proof.
  intros A B. apply same_terms_tkn in A as (A1 & _ & A2 & _). apply same_terms_tkn in B as (B1 & _). unfold no_bargain. rewrite A1, A2, B1. auto.
Qed.
Lemma credited_terms l b : same_terms l (credited l b). Proof. apply credited_spec. Qed.
Lemma move_pair w c i r routes os k l v : id_map (lc_apps c) (rt_index r) = Some i -> priced c os (r :: routes) -> partners os k l -> pair_worth w os k l v ->
  pair_worth w (fst (move (lc_swap c) i (Qabs (rt_output r)) (Qabs (rt_input r)) os)) k l v.
Proof.
  intros Ei P PT (ok & ol & Ek & El & B1 & B2 & W1 & W2 & V).
  destruct PT as [N PT].
  destruct (Nat.eq_dec i k) as [->|Nk]; [|destruct (Nat.eq_dec i l) as [->|Nl]].
  - specialize (P r k ok (or_introl eq_refl) Ei Ek). set (sold := if lc_swap c then Qabs (rt_input r) else Qabs (rt_output r)) in *.
    set (bought := if lc_swap c then Qabs (rt_output r) else Qabs (rt_input r)) in *.
    assert (Lk : so_lid ok = l) by (apply (PT k ok Ek); reflexivity).
    destruct (move_cases (lc_swap c) k (Qabs (rt_output r)) (Qabs (rt_input r)) os) as [[E _]|(o0 & E0 & D)]; [congruence|]. cbv zeta in D. fold sold bought in D.
    assert (o0 = ok) by congruence. subst o0. rewrite Lk in D.
    destruct D as [[E _]|[(_ & E & _)|(l0 & _ & E & ->)]]; [congruence|congruence|]. assert (l0 = ol) by congruence. subst l0. cbn [fst].
    assert (Hb : (0 <= bought)%Q) by (unfold bought; destruct (lc_swap c); apply Qabs_nonneg).
    pose proof (fill_worth w ok ol sold bought B1 W1 Hb P) as F.
    exists (set_y ok (so_y ok - sold)%Q), (credited ol bought).
    rewrite oget_oset_other, oget_oset_same by assumption. rewrite oget_oset_same.
    destruct (credited_spec ol bought) as (T & _ & Y & _). pose proof (same_terms_tkn _ _ T) as (T1 & _).
    split; [reflexivity|]. split; [reflexivity|]. split; [apply (no_bargain_terms w ok ol); [apply same_terms_set_y|assumption|assumption]|].
    split; [apply (no_bargain_terms w ol ok); [assumption|apply same_terms_set_y|assumption]|]. rewrite T1. split; [assumption|]. split; [assumption|].
    unfold worth_of in *. rewrite T1, Y. cbn [so_tkn so_y set_y]. lra.
  - specialize (P r l ol (or_introl eq_refl) Ei El). set (sold := if lc_swap c then Qabs (rt_input r) else Qabs (rt_output r)) in *.
    set (bought := if lc_swap c then Qabs (rt_output r) else Qabs (rt_input r)) in *.
    assert (Ll : so_lid ol = k) by (apply (PT l ol El); reflexivity).
    destruct (move_cases (lc_swap c) l (Qabs (rt_output r)) (Qabs (rt_input r)) os) as [[E _]|(o0 & E0 & D)]; [congruence|]. cbv zeta in D. fold sold bought in D.
    assert (o0 = ol) by congruence. subst o0. rewrite Ll in D.
    destruct D as [[E _]|[(_ & E & _)|(l0 & _ & E & ->)]]; [congruence|congruence|]. assert (l0 = ok) by congruence. subst l0. cbn [fst].
    assert (Hb : (0 <= bought)%Q) by (unfold bought; destruct (lc_swap c); apply Qabs_nonneg).
    pose proof (fill_worth w ol ok sold bought B2 W2 Hb P) as F.
    exists (credited ok bought), (set_y ol (so_y ol - sold)%Q).
    rewrite oget_oset_same. rewrite oget_oset_other, oget_oset_same by congruence.
    destruct (credited_spec ok bought) as (T & _ & Y & _). pose proof (same_terms_tkn _ _ T) as (T1 & _).
    split; [reflexivity|]. split; [reflexivity|]. split; [apply (no_bargain_terms w ok ol); [assumption|apply same_terms_set_y|assumption]|].
    split; [apply (no_bargain_terms w ol ok); [apply same_terms_set_y|assumption|assumption]|]. rewrite T1. split; [assumption|]. split; [assumption|].
    unfold worth_of in *. rewrite T1, Y. cbn [so_tkn so_y set_y]. lra.
  - exists ok, ol. rewrite (move_frame _ _ _ _ _ k) by (try congruence; intros o Ho E; apply (PT i o Ho) in E; congruence).
    rewrite (move_frame _ _ _ _ _ l) by (try congruence; intros o Ho E; apply (PT i o Ho) in E; congruence). repeat (split; [assumption|]). assumption.
Qed.
Lemma loop_pair w c ct routes os ts k l v : priced c os routes -> partners os k l -> pair_worth w os k l v ->
  pair_worth w (fst (fst (route_loop c ct routes os ts))) k l v.
Proof.
  revert ct os ts. induction routes as [|r routes IH]; intros ct os ts P PT V; [assumption|].
  cbn [route_loop]. destruct (id_map _ _) as [i|] eqn:Ei; [|assumption].
  set (m := if lc_exec c then move (lc_swap c) i (Qabs (rt_output r)) (Qabs (rt_input r)) os else (os, true)).
  assert (Ev : evolves os (fst m)) by (unfold m; destruct (lc_exec c); [apply move_evolves|apply evolves_refl]).
  assert (V1 : pair_worth w (fst m) k l v) by (unfold m; destruct (lc_exec c); [apply (move_pair w c i r routes); assumption|assumption]).
  destruct m as [os1 ok]. cbn [fst] in *. destruct ok; cbn [negb]; [|assumption]. destruct (rec_price c); [|assumption].
  apply IH; [|apply (partners_evolves os); assumption|assumption]. apply (priced_evolves c os); [assumption|]. intros r' i' o Hr. apply P. right. assumption.
Qed.

(** the whole book *)
Lemma move_book w c i r routes os : id_map (lc_apps c) (rt_index r) = Some i -> priced c os (r :: routes) ->
  (forall k o, oget k os = Some o -> (0 <= w (so_tkn o))%Q /\ so_lid o <> k /\ exists l, oget (so_lid o) os = Some l /\ no_bargain w o l) ->
  (book_worth w os <= book_worth w (fst (move (lc_swap c) i (Qabs (rt_output r)) (Qabs (rt_input r)) os)))%Q.
Proof.
  intros Ei P H. destruct (move_cases (lc_swap c) i (Qabs (rt_output r)) (Qabs (rt_input r)) os) as [[_ ->]|(o & E & D)]; [apply Qle_refl|]. cbv zeta in D.
  specialize (P r i o (or_introl eq_refl) Ei E).
  set (sold := if lc_swap c then Qabs (rt_input r) else Qabs (rt_output r)) in *. set (bought := if lc_swap c then Qabs (rt_output r) else Qabs (rt_input r)) in *.
  destruct (H i o E) as (Hw & Hn & l & El & Hb). destruct D as [[E1 _]|[(_ & E1 & _)|(l0 & _ & E1 & ->)]]; [congruence|congruence|]. assert (l0 = l) by congruence. subst l0. cbn [fst].
  assert (B0 : (0 <= bought)%Q) by (unfold bought; destruct (lc_swap c); apply Qabs_nonneg).
  pose proof (fill_worth w o l sold bought Hb Hw B0 P) as F.
  rewrite (worth_set w _ l) by (rewrite oget_oset_other; assumption). rewrite (worth_set w i o) by assumption.
  destruct (credited_spec l bought) as (T & _ & Y & _). pose proof (same_terms_tkn _ _ T) as (T1 & _).
  unfold worth_of. rewrite T1, Y. cbn [so_tkn so_y set_y]. lra.
Qed.
Definition all_fair (w : string -> Q) (os : list (nat * sorder)) : Prop :=
  forall k o, oget k os = Some o -> (0 <= w (so_tkn o))%Q /\ so_lid o <> k /\ exists l, oget (so_lid o) os = Some l /\ no_bargain w o l.
Lemma all_fair_evolves w os os' : evolves os os' -> all_fair w os -> all_fair w os'.
Proof.
  intros V H k o' Ho'. destruct (evolves_back _ _ _ _ V Ho') as (o & E & T). destruct (H k o E) as (A & B & l & El & C).
  pose proof (same_terms_tkn _ _ T) as (T1 & T2 & T3). rewrite T1, T2. split; [assumption|]. split; [assumption|].
  destruct V as [_ V]. destruct (V _ _ El) as (l' & El' & Tl & _). exists l'. split; [assumption|]. apply (no_bargain_terms w o l); assumption.
Qed.
Lemma loop_book w c ct routes os ts : priced c os routes -> all_fair w os -> (book_worth w os <= book_worth w (fst (fst (route_loop c ct routes os ts))))%Q.
Proof.
  revert ct os ts. induction routes as [|r routes IH]; intros ct os ts P H; [apply Qle_refl|].
  cbn [route_loop]. destruct (id_map _ _) as [i|] eqn:Ei; [|apply Qle_refl].
  set (m := if lc_exec c then move (lc_swap c) i (Qabs (rt_output r)) (Qabs (rt_input r)) os else (os, true)).
  assert (Ev : evolves os (fst m)) by (unfold m; destruct (lc_exec c); [apply move_evolves|apply evolves_refl]).
  assert (V1 : (book_worth w os <= book_worth w (fst m))%Q) by (unfold m; destruct (lc_exec c); [apply (move_book w c i r routes); assumption|apply Qle_refl]).
  destruct m as [os1 ok]. cbn [fst] in *. destruct ok; cbn [negb]; [|assumption]. destruct (rec_price c); [|assumption].
  eapply Qle_trans; [exact V1|]. apply IH; [|apply (all_fair_evolves w os); assumption].
  apply (priced_evolves c os); [assumption|]. intros r' i' o Hr. apply P. right. assumption.
Qed.

(** ** From the loop to the calls *)
Definition properly (os : list (nat * sorder)) : Prop := forall k o, oget k os = Some o -> proper o.
Lemma trade_shape e s tkn amt partial cp by_ execute lp la inpair use thr : router_priced e -> well_keyed s -> bounded (orders s) -> properly (orders s) ->
  let r := trade e s tkn amt partial cp by_ execute lp la inpair use thr in
  orders (fst r) = orders s \/ exists c routes, priced c (orders s) routes /\ orders (fst r) = fst (fst (route_loop c 0 routes (orders s) (trades s))).
Proof.
  intros Hr Hw Hb Hp. cbv zeta. destruct (trade_cases e s tkn amt partial cp by_ execute lp la inpair use thr) as [-> |E]; [left; reflexivity|]. right.
  destruct E as (l & r0 & rs & price & lf & _ & _ & Er & _ & _ & os & ts & okl & El & D). cbv zeta in D, El.
  set (c := mkCtx _ _ _ _ _ _ _ _ _) in *. exists c, (r0 :: rs). split.
  - intros r i o Hin Hi Ho. change (lc_apps c) with (applicable cp tkn use (orders s)) in Hi.
    destruct (id_map_spec s cp tkn use _ _ Hw Hi) as (o' & Eo' & _ & En & _). assert (o' = o) by congruence. subst o'.
    pose proof (Hr (applicable cp tkn use (orders s)) (mkRequest by_ amt thr partial) (r0 :: rs) r o) as X.
    assert (A : forall o, In o (applicable cp tkn use (orders s)) -> (0 < so_y o)%Q /\ (so_y o <= so_yint o)%Q /\ proper o).
    { intros o1 H1. destruct (applicable_spec s cp tkn use o1 Hw H1) as (A & B & _). apply eligible_spec in B. split; [tauto|]. split; [apply (Hb _ _ A)|apply (Hp _ _ A)]. }
    specialize (X A Er Hin En). unfold sold_of, bought_of in X. cbn [rq_by] in X. cbn [c lc_swap]. destruct by_; cbn [swap_of]; [exact X|]. destruct (e_fast e); exact X.
  - rewrite El. cbn [fst]. destruct D as [[_ ->]|(-> & ids & rp & Hi & Hp2 & ->)]; reflexivity.
Qed.
