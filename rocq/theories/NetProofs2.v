(** Proofs about arbitrage graphs as networks: prices between nodes. *)
From Coq Require Import Reals ZArith List Bool String Arith Lia Lra Permutation.
From Verif Require Import CurveModel CurveProofs GraphModel GraphSpec GraphProofs2 GraphProofs9 NetModel NetSpec NetProofs.
Import ListNotations.
Local Open Scope R_scope.

Lemma connections_in g : connections g -> Forall (fun e => e_ain e <> 0) (g_edges g).
Proof. apply Forall_impl. intros e [H _]. lra. Qed.
Lemma connections_type g : connections g -> g_is_amount g <> Some true.
Proof.
  unfold connections, g_is_amount. destruct (g_edges g) as [|e l]; [discriminate|]. intros C. inversion C as [|? ? [H _] _]; subst. unfold is_amount. rewrite rlt_true by exact H. discriminate.
Qed.
Lemma div_neg a b : a < 0 -> b < 0 -> 0 < a / b.
Proof. intros A B. replace (a / b) with ((- a) / (- b)) by (field; lra). apply Rdiv_lt_0_compat; lra. Qed.
Lemma connections_pos g : connections g -> Forall (fun e => 0 < e_aout e / e_ain e) (g_edges g).
Proof. apply Forall_impl. intros e [A B]. apply div_neg; assumption. Qed.
Lemma avg_pos g p : connections g -> has_edge g p -> 0 < avg_price g p.
Proof.
  intros C H. destruct p as [i j]. unfold avg_price. cbn [fst snd]. apply Rdiv_lt_0_compat; apply total_pos; try exact H; [apply connections_pos; exact C|apply Forall_forall; intros; lra].
Qed.
Lemma product_pos l : Forall (fun x => 0 < x) l -> 0 < product l.
Proof. induction 1 as [|x l H F IH]; cbn; [lra|]. apply Rmult_lt_0_compat; assumption. Qed.

(** the price, once the nodes are known *)
Lemma price_nodes find g b q i j : connections g -> arg_eqb b q = false -> node_of g b = Ret i -> node_of g q = Ret j ->
  price find g b q = let* l := shortest_path find g i j in let* prs := path_pairs l in let* r := ptransport g prs in Ret (fst (fst r)).
Proof.
  intros C E B Q. unfold price. assert (T := connections_type g C). destruct (g_is_amount g) as [[|]|]; [congruence| |]; rewrite E, B, Q; reflexivity.
Qed.
Lemma price_walk find g b q i j l : connections g -> arg_eqb b q = false -> node_of g b = Ret i -> node_of g q = Ret j -> shortest_path find g i j = Ret l -> walk (step g) i j l ->
  price find g b q = Ret (Some (product (map (avg_price g) (steps l)))).
Proof.
  intros C E B Q S W. rewrite (price_nodes find g b q i j C E B Q), S. cbn [rbind]. destruct (walk_hd _ _ _ _ W) as [r ->]. unfold path_pairs. cbn [rbind].
  change (pair_up (i :: r)) with (steps (i :: r)). unfold ptransport. rewrite (pt_some g (connections_in g C)) by (apply (walk_steps g i j); exact W). cbn [rbind fst]. rewrite Rmult_1_l. reflexivity.
Qed.
Lemma price_spec find g b q i j : searches find -> linked g -> connections g -> arg_eqb b q = false -> node_of g b = Ret i -> node_of g q = Ret j -> on_graph g i -> on_graph g j ->
  (exists l, walk (step g) i j l /\ (forall l', walk (step g) i j l' -> (List.length l <= List.length l')%nat) /\ price find g b q = Ret (Some (product (map (avg_price g) (steps l))))) \/
  ((forall l, ~ walk (step g) i j l) /\ price find g b q = Raise RuntimeError).
Proof.
  intros S L C E B Q I J. destruct (search_graph find g i j S L I J) as [(l & H & W & M)|[H N]].
  - left. exists l. split; [exact W|]. split; [exact M|]. apply (price_walk find g b q i j); assumption.
  - right. split; [exact N|]. rewrite (price_nodes find g b q i j C E B Q), H. reflexivity.
Qed.
Lemma shortest_direct g i j l : i <> j -> has_edge g (i, j) -> walk (step g) i j l -> (forall l', walk (step g) i j l' -> (List.length l <= List.length l')%nat) -> l = [i; j].
Proof.
  intros D H W M. assert (X : walk (step g) i j [i; j]) by (econstructor; [exact H|constructor]). specialize (M _ X). cbn in M.
  inversion W as [|a b z r S W']; subst; [congruence|]. destruct (walk_hd _ _ _ _ W') as [r' ->]. destruct r' as [|c r']; [|cbn in M; lia]. inversion W' as [|? ? ? ? ? W'']; subst; [reflexivity|]. destruct (walk_hd _ _ _ _ W'') as [? ?]. discriminate.
Qed.
Lemma linked_edge g i j : linked g -> has_edge g (i, j) -> on_graph g i /\ on_graph g j.
Proof. intros L (e & I & A & B). unfold linked in L. rewrite Forall_forall in L. specialize (L _ I). cbn in A, B. subst i j. split; apply L. Qed.
Lemma price_direct find g b q i j : searches find -> linked g -> connections g -> arg_eqb b q = false -> node_of g b = Ret i -> node_of g q = Ret j -> i <> j -> has_edge g (i, j) ->
  price find g b q = Ret (Some (avg_price g (i, j))).
Proof.
  intros S L C E B Q D H. assert (R := linked_edge g i j L H).
  destruct (price_spec find g b q i j S L C E B Q (proj1 R) (proj2 R)) as [(l & W & M & P)|[N _]].
  - rewrite (shortest_direct g i j l D H W M) in P. rewrite P. cbn. rewrite Rmult_1_r. reflexivity.
  - exfalso. apply (N [i; j]). econstructor; [exact H|constructor].
Qed.
Lemma price_same find g b q : connections g -> arg_eqb b q = true -> price find g b q = Ret (Some 1).
Proof. intros C E. unfold price. assert (T := connections_type g C). destruct (g_is_amount g) as [[|]|]; [congruence| |]; rewrite E; reflexivity. Qed.
Lemma price_same_node find g b q i : searches find -> linked g -> connections g -> node_of g b = Ret i -> node_of g q = Ret i -> on_graph g i -> price find g b q = Ret (Some 1).
Proof.
  intros S L C B Q I. destruct (arg_eqb b q) eqn:E; [apply price_same; assumption|]. destruct (price_spec find g b q i i S L C E B Q I I) as [(l & W & M & P)|[N _]].
  - assert (X := M _ (walk_here (step g) i)). cbn in X. destruct (walk_hd _ _ _ _ W) as [r ->]. destruct r; [|cbn in X; lia]. exact P.
  - exfalso. apply (N [i]). constructor.
Qed.

(** ** tables *)
Lemma node_of_named g n : named g -> on_graph g n -> node_of g (Nd n) = Ret n.
Proof.
  intros H I. destruct (H n I) as (t & N & E). unfold node_of, tkn_of. unfold name in N. destruct (nth_error (g_nodes g) n) as [m|]; [|discriminate]. injection N as ->. rewrite E. cbn [rbind]. rewrite Nat.eqb_refl. reflexivity.
Qed.
Lemma telescope g (V : nat -> R) b q l : (forall n, 0 < V n) -> (forall i j, i <> j -> has_edge g (i, j) -> avg_price g (i, j) = V i / V j) -> walk (step g) b q l -> NoDup l ->
  product (map (avg_price g) (steps l)) = V b / V q.
Proof.
  intros P H W. induction W as [a|a b z l E W IH]; intros N; cbn.
  - field. specialize (P a). lra.
  - inversion N as [|? ? NI ND]; subst. destruct (walk_hd _ _ _ _ W) as [r ->]. cbn. unfold steps in IH. cbn in IH. rewrite (IH ND). rewrite H; [|intros ->; apply NI; left; reflexivity|exact E]. assert (Pb := P b). assert (Pz := P z). field. lra.
Qed.
Lemma nd_eqb i j : arg_eqb (Nd i) (Nd j) = Nat.eqb i j. Proof. reflexivity. Qed.
Lemma priced_direct find g P i j : searches find -> linked g -> named g -> connections g -> priced find g P -> i <> j -> has_edge g (i, j) -> P i j = avg_price g (i, j).
Proof.
  intros S L N C H D E. destruct (linked_edge g i j L E) as [I J]. assert (X := H i j I J). rewrite (price_direct find g (Nd i) (Nd j) i j) in X; try assumption; [congruence|rewrite nd_eqb; apply Nat.eqb_neq; exact D|apply node_of_named; assumption|apply node_of_named; assumption].
Qed.
Lemma priced_self find g P i : connections g -> priced find g P -> on_graph g i -> P i i = 1.
Proof. intros C H I. assert (X := H i i I I). rewrite price_same in X; [congruence|exact C|rewrite nd_eqb; apply Nat.eqb_refl]. Qed.
Lemma priced_walk find g P i j : searches find -> linked g -> named g -> connections g -> priced find g P -> on_graph g i -> on_graph g j -> i <> j ->
  exists l, walk (step g) i j l /\ NoDup l /\ P i j = product (map (avg_price g) (steps l)).
Proof.
  intros S L N C H I J D. assert (X := H i j I J). destruct (price_spec find g (Nd i) (Nd j) i j S L C) as [(l & W & M & P')|[_ Q]]; try assumption; try (apply node_of_named; assumption); [rewrite nd_eqb; apply Nat.eqb_neq; exact D| |congruence].
  exists l. split; [exact W|]. split; [eapply minimal_nodup; eassumption|congruence].
Qed.
Lemma walk_steps_pos g b q l : connections g -> walk (step g) b q l -> 0 < product (map (avg_price g) (steps l)).
Proof. intros C W. apply product_pos. apply Forall_map. apply walk_steps in W. revert W. apply Forall_impl. intros p H. apply avg_pos; assumption. Qed.
Lemma priced_pos find g P i j : searches find -> linked g -> named g -> connections g -> priced find g P -> on_graph g i -> on_graph g j -> 0 < P i j.
Proof.
  intros S L N C H I J. destruct (Nat.eq_dec i j) as [->|D]; [rewrite (priced_self find g P j C H J); lra|]. destruct (priced_walk find g P i j S L N C H I J D) as (l & W & _ & ->). apply (walk_steps_pos g i j); assumption.
Qed.
Lemma consistent_iff find g P : searches find -> linked g -> named g -> connections g -> priced find g P ->
  (forall i j k, on_graph g i -> on_graph g j -> on_graph g k -> P i j * P j k = P i k) <->
  (exists V, (forall n, 0 < V n) /\ forall i j, i <> j -> has_edge g (i, j) -> avg_price g (i, j) = V i / V j).
Proof.
  intros S L N C H. split.
  - intros K. exists (fun n => if Nat.ltb n (List.length (g_nodes g)) then P n 0%nat else 1). split.
    + intros n. destruct (Nat.ltb_spec n (List.length (g_nodes g))) as [I|I]; [|lra]. apply (priced_pos find g P); try assumption. unfold on_graph. lia.
    + intros i j D E. destruct (linked_edge g i j L E) as [I J]. rewrite !(proj2 (Nat.ltb_lt _ _)) by assumption. assert (Z : on_graph g 0) by (unfold on_graph in *; lia). rewrite <- (K i j 0%nat I J Z), <- (priced_direct find g P i j S L N C H D E). field. assert (X := priced_pos find g P j 0 S L N C H J Z). lra.
  - intros (V & PV & K) i j k I J Kk.
    assert (X : forall a b, on_graph g a -> on_graph g b -> P a b = V a / V b).
    { intros a b A B. destruct (Nat.eq_dec a b) as [->|D]; [rewrite (priced_self find g P b C H B); specialize (PV b); field; lra|]. destruct (priced_walk find g P a b S L N C H A B D) as (l & W & ND & ->). apply (telescope g V a b); assumption. }
    rewrite !X by assumption. assert (A := PV j). assert (B := PV k). field. lra.
Qed.

(** ** the harmonic and the arithmetic mean *)
Lemma pair_term p q : 0 < p -> 0 < q -> 2 <= p * (1 / q) + q / p /\ (p * (1 / q) + q / p = 2 -> q = p).
Proof.
  intros P Q. assert (E : p * (1 / q) + q / p - 2 = (p - q) * (p - q) * (1 / (p * q))) by (field; lra). assert (I : 0 < 1 / (p * q)) by (apply Rdiv_lt_0_compat; [lra|apply Rmult_lt_0_compat; assumption]).
  assert (S : 0 <= (p - q) * (p - q)) by apply Rle_0_sqr. split.
  - assert (X : 0 <= (p - q) * (p - q) * (1 / (p * q))) by (apply Rmult_le_pos; lra). lra.
  - intros H. assert (Z : (p - q) * (p - q) * (1 / (p * q)) = 0) by lra. apply Rmult_integral in Z. destruct Z as [Z|Z]; [|lra]. apply Rmult_integral in Z. destruct Z; lra.
Qed.
Lemma pair_terms p l : 0 < p -> Forall (fun q => 0 < q) l ->
  2 * INR (List.length l) <= p * summed (inv l) + summed l / p /\ (p * summed (inv l) + summed l / p = 2 * INR (List.length l) -> Forall (fun q => q = p) l).
Proof.
  intros P. induction 1 as [|q l Q F [IH1 IH2]].
  - cbn. split; [|constructor]. unfold Rdiv. rewrite Rmult_0_l. lra.
  - destruct (pair_term p q P Q) as [T1 T2]. cbn [List.length inv map summed fold_right]. fold (inv l) (summed (inv l)) (summed l). rewrite S_INR.
    assert (E : p * (1 / q + summed (inv l)) + (q + summed l) / p = (p * (1 / q) + q / p) + (p * summed (inv l) + summed l / p)) by (field; lra). rewrite E. split; [lra|]. intros H. constructor; [apply T2; lra|apply IH2; lra].
Qed.
Lemma means l : Forall (fun q => 0 < q) l -> INR (List.length l) * INR (List.length l) <= summed l * summed (inv l) /\
  (summed l * summed (inv l) = INR (List.length l) * INR (List.length l) -> forall a b, In a l -> In b l -> a = b).
Proof.
  induction 1 as [|p l P F [IH1 IH2]].
  - cbn. split; [lra|intros _ a b []].
  - destruct (pair_terms p l P F) as [T1 T2]. cbn [List.length inv map summed fold_right]. fold (inv l) (summed (inv l)) (summed l). rewrite S_INR.
    assert (E : (p + summed l) * (1 / p + summed (inv l)) = 1 + (p * summed (inv l) + summed l / p) + summed l * summed (inv l)) by (field; lra). rewrite E. split; [lra|]. intros H.
    assert (A : Forall (fun q => q = p) l) by (apply T2; lra). rewrite Forall_forall in A. intros a b [<-|I] [<-|J]; auto; [symmetry; auto|rewrite (A a I), (A b J); reflexivity].
Qed.
Lemma summed_perm l m : Permutation l m -> summed l = summed m.
Proof. induction 1; cbn; unfold summed in *; cbn in *; try lra. Qed.
Lemma summed_rsum l : summed l = rsum l.
Proof. unfold summed, rsum. symmetry. apply fold_symmetric; intros; lra. Qed.

Lemma prices_total g i j : summed (prices_between g i j) = total (fun e => e_aout e / e_ain e) g i j.
Proof. unfold prices_between. rewrite summed_rsum. change (filter (fun e => Nat.eqb (e_in e) i && Nat.eqb (e_out e) j) (g_edges g)) with (edges_between g (Some i) (Some j)). apply edges_total. Qed.
Lemma prices_count g i j : INR (List.length (prices_between g i j)) = total (fun _ => 1) g i j.
Proof. unfold prices_between. rewrite map_length. apply between_len. Qed.
Lemma prices_in g i j x : In x (prices_between g i j) <-> exists e, In e (g_edges g) /\ e_in e = i /\ e_out e = j /\ x = e_aout e / e_ain e.
Proof.
  unfold prices_between. rewrite in_map_iff. split.
  - intros (e & <- & I). apply filter_In in I. destruct I as [I E]. apply andb_true_iff in E. rewrite !Nat.eqb_eq in E. exists e. unfold out_per_in. tauto.
  - intros (e & I & A & B & ->). exists e. split; [reflexivity|]. apply filter_In. split; [exact I|]. rewrite A, B, !Nat.eqb_refl. reflexivity.
Qed.
Lemma prices_positive g i j : connections g -> Forall (fun q => 0 < q) (prices_between g i j).
Proof. intros C. apply Forall_forall. intros x I. apply prices_in in I. destruct I as (e & I & _ & _ & ->). assert (X := connections_pos g C). rewrite Forall_forall in X. apply X, I. Qed.
Lemma prices_ne g i j : has_edge g (i, j) <-> prices_between g i j <> [].
Proof.
  split.
  - intros (e & I & A & B) E. assert (X : In (e_aout e / e_ain e) (prices_between g i j)) by (apply prices_in; exists e; auto). rewrite E in X. destruct X.
  - intros N. destruct (prices_between g i j) as [|x l] eqn:E; [congruence|]. assert (X : In x (prices_between g i j)) by (rewrite E; left; reflexivity). apply prices_in in X. destruct X as (e & I & A & B & _). exists e. auto.
Qed.
Lemma inv_ne l : inv l <> [] <-> l <> []. Proof. destruct l; cbn; split; congruence. Qed.
Lemma mirrored_edge g i j : mirrored g -> i <> j -> has_edge g (i, j) -> has_edge g (j, i).
Proof.
  intros M D H. apply prices_ne in H. apply prices_ne. intros E. assert (X := M i j D). rewrite E in X. apply Permutation_nil in X. apply H. destruct (prices_between g i j); [reflexivity|discriminate].
Qed.
Lemma avg_prices g i j : avg_price g (i, j) = summed (prices_between g i j) / INR (List.length (prices_between g i j)).
Proof. unfold avg_price. cbn [fst snd]. rewrite prices_total, prices_count. reflexivity. Qed.
Lemma round_trip g i j : mirrored g -> connections g -> i <> j -> has_edge g (i, j) ->
  1 <= avg_price g (i, j) * avg_price g (j, i) /\
  (avg_price g (i, j) * avg_price g (j, i) = 1 -> forall e f, In e (g_edges g) -> In f (g_edges g) -> e_in e = i -> e_out e = j -> e_in f = i -> e_out f = j -> e_aout e / e_ain e = e_aout f / e_ain f).
Proof.
  intros M C D H. rewrite !avg_prices. assert (X := M i j D). rewrite (summed_perm _ _ X), (Permutation_length X). unfold inv at 2 4. rewrite map_length.
  assert (Pn : 0 < INR (List.length (prices_between g i j))). { apply prices_ne in H. destruct (prices_between g i j); [congruence|]. apply lt_0_INR. cbn. lia. }
  destruct (means (prices_between g i j) (prices_positive g i j C)) as [M1 M2]. set (n := INR _) in *. set (A := summed (prices_between g i j)) in *. set (B := summed (inv _)) in *.
  assert (E : A / n * (B / n) = (A * B) / (n * n)) by (field; lra). assert (Q : 0 < n * n) by (apply Rmult_lt_0_compat; assumption). rewrite E. split.
  - apply Rmult_le_reg_r with (n * n); [exact Q|]. unfold Rdiv. rewrite Rmult_assoc, Rinv_l by lra. lra.
  - intros K e f I J E1 E2 F1 F2. apply M2; [|apply prices_in; eauto|apply prices_in; eauto]. assert (Z : A * B = (A * B / (n * n)) * (n * n)) by (field; lra). rewrite K in Z. lra.
Qed.
Lemma avg_equal g i j e : connections g -> In e (g_edges g) -> e_in e = i -> e_out e = j -> (forall f, In f (g_edges g) -> e_in f = i -> e_out f = j -> e_aout f / e_ain f = e_aout e / e_ain e) ->
  avg_price g (i, j) = e_aout e / e_ain e.
Proof.
  intros C I E1 E2 H. rewrite avg_prices. assert (F : Forall (fun q => q = e_aout e / e_ain e) (prices_between g i j)). { apply Forall_forall. intros x X. apply prices_in in X. destruct X as (f & J & F1 & F2 & ->). auto. }
  assert (N : prices_between g i j <> []) by (apply prices_ne; exists e; auto). set (r := e_aout e / e_ain e) in *.
  assert (S : forall l, Forall (fun q => q = r) l -> summed l = INR (List.length l) * r). { induction 1 as [|q l -> _ IH]; [cbn; lra|]. cbn [List.length summed fold_right]. fold (summed l). rewrite S_INR, IH. lra. }
  rewrite (S _ F). field. destruct (prices_between g i j); [congruence|]. apply not_0_INR. discriminate.
Qed.
Lemma mirrored_consistent find g P : searches find -> linked g -> named g -> connections g -> mirrored g -> Forall (fun e => e_in e <> e_out e) (g_edges g) -> priced find g P ->
  (forall i j k, on_graph g i -> on_graph g j -> on_graph g k -> P i j * P j k = P i k) <-> exists V, fair g V.
Proof.
  intros S L N C M NL H. rewrite (consistent_iff find g P S L N C H). rewrite Forall_forall in NL. split.
  - intros (V & PV & K). exists V. split; [exact PV|]. apply Forall_forall. intros e I. split; [assert (X := connections_in g C); rewrite Forall_forall in X; apply X, I|]. specialize (NL e I).
    assert (HE : has_edge g (e_in e, e_out e)) by (exists e; auto). assert (HR := mirrored_edge g _ _ M NL HE). destruct (round_trip g _ _ M C NL HE) as [_ R].
    assert (E1 := K _ _ NL HE). assert (E2 := K (e_out e) (e_in e) (fun X => NL (eq_sym X)) HR). assert (U : avg_price g (e_in e, e_out e) * avg_price g (e_out e, e_in e) = 1). { rewrite E1, E2. assert (A := PV (e_in e)). assert (B := PV (e_out e)). field. lra. }
    rewrite <- E1. symmetry. apply avg_equal; auto.
  - intros (V & PV & F). exists V. split; [exact PV|]. intros i j D E. apply (avg_fair g V (i, j) (conj PV F) E).
Qed.
