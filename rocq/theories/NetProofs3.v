(** Proofs about arbitrage graphs as networks: graphs of pools, price tables. *)
From Coq Require Import Reals ZArith List Bool String Arith Lia Lra Permutation.
From Verif Require Import CurveModel CurveProofs GraphModel GraphSpec GraphProofs2 GraphProofs5 GraphProofs6 GraphProofs9 NetModel NetSpec NetProofs NetProofs2.
Import ListNotations.
Local Open Scope R_scope.

(** ** graphs made from pools *)
Lemma prices_app g g' es i j : g_edges g' = g_edges g ++ es -> prices_between g' i j = prices_between g i j ++ map out_per_in (filter (fun e => Nat.eqb (e_in e) i && Nat.eqb (e_out e) j) es).
Proof. intros E. unfold prices_between. rewrite E, filter_app, map_app. reflexivity. Qed.
Lemma mirrored_pair g g' e1 e2 p : mirrored g -> g_edges g' = g_edges g ++ [e1; e2] -> e_in e2 = e_out e1 -> e_out e2 = e_in e1 -> e_in e1 <> e_out e1 -> 0 < p -> out_per_in e1 = p -> out_per_in e2 = 1 / p ->
  mirrored g'.
Proof.
  intros M E A B D P P1 P2 i j N. rewrite !(prices_app g g' _ _ _ E). unfold inv. rewrite map_app. fold (inv (prices_between g i j)). apply Permutation_app; [apply M; exact N|]. cbn [filter]. rewrite A, B.
  revert D. generalize (e_in e1) (e_out e1). intros a b D.
  destruct (Nat.eqb_spec a i) as [Ai|Ai], (Nat.eqb_spec b j) as [Bj|Bj], (Nat.eqb_spec a j) as [Aj|Aj], (Nat.eqb_spec b i) as [Bi|Bi]; cbn [andb map]; try (exfalso; congruence); try apply perm_nil; rewrite P1, P2; try apply Permutation_refl.
  replace (1 / (1 / p)) with p by (field; lra). apply Permutation_refl.
Qed.
Lemma price_value e p : e_price_outperin e = Ret p -> e_ain e <> 0 -> out_per_in e = p.
Proof. intros H N. unfold e_price_outperin, e_price in H. rewrite rdiv_ok in H by exact N. unfold out_per_in. congruence. Qed.
Lemma neg_out e p : e_ain e < 0 -> out_per_in e = p -> 0 < p -> e_aout e < 0.
Proof. intros A E P. unfold out_per_in in E. replace (e_aout e) with (p * e_ain e) by (rewrite <- E; field; lra). assert (0 < p * - e_ain e) by (apply Rmult_lt_0_compat; lra). lra. Qed.
Lemma pools_shape uid : forall l g, winv g -> Forall (fun x => CpcSpec.pool_ok (fst x)) l -> Forall (fun x => CpcModel.tknx (fst x) <> CpcModel.tkny (fst x)) l ->
  connections g -> mirrored g -> Forall (fun e => e_in e <> e_out e) (g_edges g) ->
  exists g' es, add_edges_cpc g l uid = (g', None) /\ g_edges g' = g_edges g ++ es /\ ext g g' /\ winv g' /\ connections g' /\ mirrored g' /\ Forall (fun e => e_in e <> e_out e) (g_edges g') /\
    (forall e, In e es -> exists c cid, In (c, cid) l /\ from_pool g' e c) /\
    (forall c cid, In (c, cid) l -> exists e, In e es /\ name g' (e_in e) = Some (CpcModel.tknx c) /\ name g' (e_out e) = Some (CpcModel.tkny c) /\ out_per_in e = CpcModel.p c).
Proof.
  induction l as [|[c cid] l IH]; intros g W PO DT C M NL.
  - exists g, []. rewrite app_nil_r. split; [reflexivity|]. split; [reflexivity|]. split; [apply ext_refl|]. do 4 (split; [assumption|]). split; [intros e []|intros ? ? []].
  - inversion PO as [|? ? Pc Pl]; subst. inversion DT as [|? ? Dc Dl]; subst. cbn [fst] in Pc, Dc. cbn [add_edges_cpc].
    assert (Hp : 0 < CpcModel.p c) by (pose proof (CpcProofs.pool_pos c Pc) as (Y0 & _ & X0 & _); unfold CpcModel.p; apply Rdiv_lt_0_compat; assumption).
    assert (Q : Forall (fun e => e_ain e < 0) (g_edges g)) by (revert C; apply Forall_impl; tauto).
    destruct (connection_exact g (CpcModel.tknx c) (CpcModel.tkny c) (CpcModel.p c) 1 (Some (match uid with Some u => u | None => cid end)) W ltac:(lra) Hp Q)
      as (g1 & e1 & e2 & E & Eg & L1 & L2 & P1 & P2 & _ & _ & A1 & A2 & S & Q1 & _).
    assert (E' : add_edge_connection g (CpcModel.tknx c) (CpcModel.tkny c) None false (Some (CpcModel.p c)) None true (Some (match uid with Some u => u | None => cid end)) = (g1, None)) by (rewrite <- E; reflexivity).
    rewrite E'. destruct L1 as (N1 & N2 & I1 & I2), L2 as (N3 & N4 & I3 & I4).
    assert (X1 : e_in e2 = e_out e1) by congruence. assert (X2 : e_out e2 = e_in e1) by congruence. assert (X3 : e_in e1 <> e_out e1) by (intros X; rewrite X in N1; congruence).
    apply price_value in P1; [|lra]. apply price_value in P2; [|lra].
    assert (Hr : 0 < 1 / CpcModel.p c) by (apply Rdiv_lt_0_compat; lra).
    assert (C1 : connections g1). { unfold connections. rewrite Eg. apply Forall_app. split; [exact C|]. constructor; [split; [lra|eapply neg_out; eauto; lra]|]. constructor; [split; [lra|eapply neg_out; eauto; lra]|constructor]. }
    assert (M1 : mirrored g1) by (exact (mirrored_pair g g1 e1 e2 (CpcModel.p c) M Eg X1 X2 X3 Hp P1 P2)).
    assert (NL1 : Forall (fun e => e_in e <> e_out e) (g_edges g1)). { rewrite Eg. apply Forall_app. split; [exact NL|]. constructor; [exact X3|]. constructor; [congruence|constructor]. }
    destruct (IH g1 (proj1 S) Pl Dl C1 M1 NL1) as (g' & es & A & B & X & W' & C' & M' & NL' & F1 & F2). exists g', ([e1; e2] ++ es). split; [exact A|]. split; [rewrite B, Eg, <- app_assoc; reflexivity|].
    split; [eapply ext_trans; [apply S|exact X]|]. do 4 (split; [assumption|]). split.
    + intros e [<-|[<-|I]].
      * exists c, cid. split; [left; reflexivity|]. left. split; [eapply ext_name; eauto|]. split; [eapply ext_name; eauto|exact P1].
      * exists c, cid. split; [left; reflexivity|]. right. split; [eapply ext_name; eauto|]. split; [eapply ext_name; eauto|exact P2].
      * destruct (F1 e I) as (c' & cid' & J & K). exists c', cid'. split; [right; exact J|exact K].
    + intros c' cid' [H|H].
      * injection H as <- <-. exists e1. split; [left; reflexivity|]. split; [eapply ext_name; eauto|]. split; [eapply ext_name; eauto|exact P1].
      * destruct (F2 _ _ H) as (f & I & K). exists f. split; [right; right; exact I|exact K].
Qed.
Lemma winv_named g : winv g -> NoDup (map n_tkn (g_nodes g)) -> named g.
Proof.
  intros (_ & D & _) N n I. unfold on_graph in I. assert (X : exists m, nth_error (g_nodes g) n = Some m) by (destruct (nth_error (g_nodes g) n) eqn:E; [eauto|]; apply nth_error_None in E; lia). destruct X as [m E].
  exists (n_tkn m). assert (Nm : name g n = Some (n_tkn m)) by (unfold name; rewrite E; reflexivity). split; [exact Nm|]. unfold node_by_tkn. rewrite (proj2 (D (n_tkn m) n)); [reflexivity|]. split; [exact Nm|].
  intros k L K. unfold name in K. destruct (nth_error (g_nodes g) k) as [m'|] eqn:E'; [|discriminate]. injection K as K. assert (n = k); [|lia]. apply (proj1 (NoDup_nth_error _) N); [rewrite map_length; exact I|]. rewrite !nth_error_map, E, E'. cbn. congruence.
Qed.
Lemma winv_linked g : winv g -> linked g.
Proof.
  intros (_ & _ & _ & E & _). unfold linked. revert E. apply Forall_impl. intros e (A & B & R). split; [exact A|]. split; [exact B|]. rewrite R. unfold is_amount. destruct (rlt (e_ain e) 0); cbn; split; congruence.
Qed.
(** the whole graph of a container of pools *)
Lemma pool_graph pools uid : Forall (fun x => CpcSpec.pool_ok (fst x)) pools -> Forall (fun x => CpcModel.tknx (fst x) <> CpcModel.tkny (fst x)) pools ->
  exists g, add_edges_cpc empty_graph pools uid = (g, None) /\ linked g /\ named g /\ connections g /\ mirrored g /\ Forall (fun e => e_in e <> e_out e) (g_edges g) /\
    (forall e, In e (g_edges g) -> exists c cid, In (c, cid) pools /\ from_pool g e c) /\
    (forall c cid, In (c, cid) pools -> exists e, In e (g_edges g) /\ name g (e_in e) = Some (CpcModel.tknx c) /\ name g (e_out e) = Some (CpcModel.tkny c) /\ out_per_in e = CpcModel.p c).
Proof.
  intros P D. destruct (pools_shape uid pools empty_graph) as (g & es & A & B & X & W & C & M & NL & F1 & F2); try assumption; [exact (proj1 (build_inv []))|constructor|intros i j _; constructor|constructor|].
  cbn [g_edges empty_graph app] in B. exists g. split; [exact A|]. split; [apply winv_linked; exact W|]. split.
  { apply winv_named; [exact W|]. assert (G : g = build [CCpc pools uid]) by (change (build [CCpc pools uid]) with (fst (add_edges_cpc empty_graph pools uid)); rewrite A; reflexivity). rewrite G. apply (proj2 (build_inv [CCpc pools uid])). repeat constructor. }
  do 3 (split; [assumption|]). rewrite B. split; [exact F1|exact F2].
Qed.
Lemma name_on g n t : name g n = Some t -> on_graph g n.
Proof. unfold name, on_graph. intros H. apply nth_error_Some. destruct (nth_error (g_nodes g) n); [discriminate|discriminate]. Qed.
Lemma pools_fair (pools : list (CpcModel.cpc * string)) g : linked g -> named g -> connections g ->
  (forall e, In e (g_edges g) -> exists c cid, In (c, cid) pools /\ from_pool g e c) ->
  (forall c cid, In (c, cid) pools -> exists e, In e (g_edges g) /\ name g (e_in e) = Some (CpcModel.tknx c) /\ name g (e_out e) = Some (CpcModel.tkny c) /\ out_per_in e = CpcModel.p c) ->
  (exists V, fair g V) <-> exists v : string -> R, (forall t, 0 < v t) /\ forall c cid, In (c, cid) pools -> CpcModel.p c = v (CpcModel.tknx c) / v (CpcModel.tkny c).
Proof.
  intros L N C F1 F2. split.
  - intros (V & PV & F). exists (fun t => match node_by_tkn g t with Ret n => V n | Raise _ => 1 end). split; [intros t; destruct (node_by_tkn g t); [apply PV|lra]|].
    intros c cid I. destruct (F2 c cid I) as (e & J & A & B & E). rewrite Forall_forall in F. destruct (F e J) as [_ X]. destruct (N _ (name_on _ _ _ A)) as (t1 & T1 & K1). destruct (N _ (name_on _ _ _ B)) as (t2 & T2 & K2).
    assert (t1 = CpcModel.tknx c) by congruence. assert (t2 = CpcModel.tkny c) by congruence. subst t1 t2. rewrite K1, K2, <- X. symmetry. exact E.
  - intros (v & PV & F). exists (fun n => v (tkn_of g n)). split; [intros n; apply PV|]. apply Forall_forall. intros e I. assert (CI := connections_in g C). rewrite Forall_forall in CI. split; [apply CI, I|].
    assert (T : forall n t, name g n = Some t -> tkn_of g n = t). { intros n t. unfold name, tkn_of. destruct (nth_error (g_nodes g) n); [|discriminate]. cbn. congruence. }
    destruct (F1 e I) as (c & cid & J & [(A & B & E)|(A & B & E)]); rewrite (T _ _ A), (T _ _ B); change (e_aout e / e_ain e) with (out_per_in e); rewrite E, (F c cid J); [reflexivity|].
    assert (X := PV (CpcModel.tknx c)). assert (Y := PV (CpcModel.tkny c)). field. lra.
Qed.

(** ** tables *)
Lemma mapr_map {A B} (f : A -> res B) h l : (forall a, In a l -> f a = Ret (h a)) -> mapr f l = Ret (map h l).
Proof. induction l as [|a l IH]; intros H; [reflexivity|]. cbn [mapr map]. rewrite (H a (or_introl eq_refl)). cbn [rbind]. rewrite IH; [reflexivity|]. intros b I. apply H. right. exact I. Qed.
Lemma mapr_fail {A B} (f : A -> res B) e l : (forall a, In a l -> f a = Raise e \/ exists b, f a = Ret b) -> (exists a, In a l /\ f a = Raise e) -> mapr f l = Raise e.
Proof.
  induction l as [|a l IH]; intros H (b & I & E); [destruct I|]. cbn [mapr]. destruct (H a (or_introl eq_refl)) as [X|[y X]]; rewrite X; [reflexivity|]. cbn [rbind]. rewrite IH; [reflexivity|intros c J; apply H; right; exact J|].
  destruct I as [<-|I]; [congruence|eauto].
Qed.
Lemma mapr_eq {A B} (f h : A -> res B) l : (forall a, In a l -> f a = h a) -> mapr f l = mapr h l.
Proof. induction l as [|a l IH]; intros H; [reflexivity|]. cbn [mapr]. rewrite (H a (or_introl eq_refl)), IH; [reflexivity|]. intros b I. apply H. right. exact I. Qed.
Lemma price_either find g i j : searches find -> linked g -> named g -> connections g -> on_graph g i -> on_graph g j ->
  (exists x, price find g (Nd i) (Nd j) = Ret (Some x) /\ exists l, walk (step g) i j l) \/ (price find g (Nd i) (Nd j) = Raise RuntimeError /\ forall l, ~ walk (step g) i j l).
Proof.
  intros S L N C I J. destruct (Nat.eq_dec i j) as [->|D].
  - left. exists 1. split; [apply price_same; [exact C|rewrite nd_eqb; apply Nat.eqb_refl]|]. exists [j]. constructor.
  - destruct (price_spec find g (Nd i) (Nd j) i j S L C) as [(l & W & _ & P)|[Q P]]; try assumption; try (apply node_of_named; assumption); [rewrite nd_eqb; apply Nat.eqb_neq; exact D|left; eauto|right; auto].
Qed.
Definition quoted (find : searcher) (g : graph) (i j : nat) : R := match price find g (Nd i) (Nd j) with Ret (Some x) => x | _ => 0 end.
Lemma mapr_nodes {B} (f : tknarg -> res B) l : mapr f (map Nd l) = mapr (fun n => f (Nd n)) l.
Proof. induction l as [|a l IH]; [reflexivity|]. cbn. rewrite IH. reflexivity. Qed.
Lemma table_ok find g ns : searches find -> linked g -> named g -> connections g -> Forall (on_graph g) ns -> (forall i j, In i ns -> In j ns -> exists l, walk (step g) i j l) ->
  pricetable find g (Some (map Nd ns)) None = Ret (map (tkn_of g) ns, map (fun i => map (fun j => Some (quoted find g i j)) ns) ns) /\
  forall i j, In i ns -> In j ns -> price find g (Nd i) (Nd j) = Ret (Some (quoted find g i j)).
Proof.
  intros S L N C F W. rewrite Forall_forall in F.
  assert (X : forall i j, In i ns -> In j ns -> price find g (Nd i) (Nd j) = Ret (Some (quoted find g i j))). { intros i j I J. unfold quoted. destruct (price_either find g i j S L N C (F _ I) (F _ J)) as [(x & E & _)|[_ Q]]; [rewrite E; reflexivity|]. destruct (W i j I J) as [l K]. destruct (Q l K). }
  split; [|exact X]. unfold pricetable. rewrite !mapr_nodes. rewrite (mapr_map _ (tkn_of g)) by reflexivity. cbn [rbind]. rewrite (mapr_map _ (fun i => map (fun j => Some (quoted find g i j)) ns)); [reflexivity|].
  intros i I. rewrite mapr_nodes. apply mapr_map. intros j J. apply X; assumption.
Qed.
Lemma table_fails find g ns i j : searches find -> linked g -> named g -> connections g -> Forall (on_graph g) ns -> In i ns -> In j ns -> (forall l, ~ walk (step g) i j l) ->
  pricetable find g (Some (map Nd ns)) None = Raise RuntimeError.
Proof.
  intros S L N C F I J W. rewrite Forall_forall in F. unfold pricetable. rewrite !mapr_nodes. rewrite (mapr_map _ (tkn_of g)) by reflexivity. cbn [rbind].
  assert (X : forall a, In a ns -> (mapr (fun ni => price find g (Nd a) ni) (map Nd ns) = Raise RuntimeError \/ exists b, mapr (fun ni => price find g (Nd a) ni) (map Nd ns) = Ret b) /\ ((forall l, ~ walk (step g) a j l) -> mapr (fun ni => price find g (Nd a) ni) (map Nd ns) = Raise RuntimeError)).
  { intros a A. rewrite mapr_nodes. assert (Y : forall b, In b ns -> price find g (Nd a) (Nd b) = Raise RuntimeError \/ exists x, price find g (Nd a) (Nd b) = Ret x). { intros b B. destruct (price_either find g a b S L N C (F _ A) (F _ B)) as [(x & E & _)|[E _]]; eauto. }
    split.
    - clear - Y. induction ns as [|b l IH]; [right; exists []; reflexivity|]. cbn [mapr]. destruct (Y b (or_introl eq_refl)) as [E|[x E]]; rewrite E; [left; reflexivity|]. cbn [rbind]. destruct IH as [E'|[y E']]; [intros c K; apply Y; right; exact K| |]; rewrite E'; cbn [rbind]; eauto.
    - intros Q. apply mapr_fail; [exact Y|]. exists j. split; [exact J|]. destruct (price_either find g a j S L N C (F _ A) (F _ J)) as [(x & _ & l & K)|[E _]]; [destruct (Q l K)|exact E]. }
  rewrite (mapr_fail _ RuntimeError); [reflexivity|intros a A; apply X; exact A|]. exists i. split; [exact I|]. apply X; assumption.
Qed.
Lemma existsb_eqb_nodes n l : existsb (arg_eqb (Nd n)) l = existsb (fun a => match a with Nd m => Nat.eqb n m | Tkn _ => false end) l.
Proof. induction l as [|a l IH]; [reflexivity|]. cbn. rewrite IH. destruct a; reflexivity. Qed.
Lemma exclude_spec find g ns x : pricetable find g (Some (map Nd ns)) (Some x) =
  pricetable find g (Some (map Nd (filter (fun n => negb (existsb (fun a => match a with Nd m => Nat.eqb n m | Tkn _ => false end) x)) ns))) None.
Proof.
  unfold pricetable. replace (filter (fun n => negb (existsb (arg_eqb n) x)) (map Nd ns)) with (map Nd (filter (fun n => negb (existsb (fun a => match a with Nd m => Nat.eqb n m | Tkn _ => false end) x)) ns)); [reflexivity|].
  induction ns as [|n l IH]; [reflexivity|]. cbn [map filter]. rewrite existsb_eqb_nodes. destruct (existsb _ x); cbn [negb map]; [exact IH|]. f_equal. exact IH.
Qed.
Lemma exclude_names find g inc ts : pricetable find g (Some (map Nd inc)) (Some (map Tkn ts)) = pricetable find g (Some (map Nd inc)) None.
Proof.
  rewrite exclude_spec. f_equal. f_equal. f_equal. induction inc as [|n l IH]; [reflexivity|]. cbn [filter]. assert (E : existsb (fun a => match a with Nd m => Nat.eqb n m | Tkn _ => false end) (map Tkn ts) = false) by (clear; induction ts; [reflexivity|exact IHts]). rewrite E. cbn. f_equal. exact IH.
Qed.
Lemma table_all find g x : pricetable find g None x = pricetable find g (Some (map Nd (seq 0 (List.length (g_nodes g))))) x.
Proof. reflexivity. Qed.
Lemma table_names find g t l x : (forall a, In a (match x with None => [] | Some x => x end) -> arg_eqb (Tkn t) a = false) -> pricetable find g (Some (Tkn t :: l)) x = Raise AttributeError.
Proof.
  intros H. unfold pricetable. destruct x as [x|]; [|reflexivity]. cbn [filter]. assert (E : existsb (arg_eqb (Tkn t)) x = false). { destruct (existsb _ x) eqn:E; [|reflexivity]. apply existsb_exists in E. destruct E as (a & I & E). rewrite (H a I) in E. discriminate. }
  rewrite E. reflexivity.
Qed.
Lemma table_amount find g n ns : g_is_amount g = Some true -> pricetable find g (Some (map Nd (n :: ns))) None = Raise AssertionError.
Proof.
  intros A. unfold pricetable. rewrite !mapr_nodes. rewrite (mapr_map _ (tkn_of g)) by reflexivity. cbn [rbind mapr map]. unfold price at 1. rewrite A. reflexivity.
Qed.
