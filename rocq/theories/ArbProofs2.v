(** The graphs of the two optimizers and of containers. *)
From Coq Require Import Reals Lra Bool String List ZArith Arith Lia.
From Verif Require Import CurveModel CurveProofs CpcModel CpcSpec ContainerModel ContainerProofs OptModel OptSpec OptProofs2 OptProofs3 OptProofs6 OptProofs8 OptProofs9 OptProofs10 GraphModel GraphSpec GraphProofs5 GraphProofs6 ArbModel ArbSpec ArbProofs.
Import ListNotations.
Local Open Scope R_scope.

Definition signed (e : cpc * R * R) : Prop := let '(c, dx, dy) := e in (dx = 0 /\ dy = 0) \/ (0 < dx /\ dy < 0) \/ (dx < 0 /\ 0 < dy).
Lemma mtrade_signed P c : pool_ok c -> (forall t, 0 < P t) -> signed (mtrade P c) /\
  (let '(_, dx, dy) := mtrade P c in (dx <> 0 \/ dy <> 0) -> P (tknx c) * dx + P (tkny c) * dy < 0).
Proof.
  intros H PP. unfold mtrade, signed. pose proof (PP (tknx c)) as Px. pose proof (PP (tkny c)) as Py. assert (Pr : 0 < P (tknx c) / P (tkny c)) by (apply Rdiv_lt_0_compat; assumption).
  destruct (trade_gain c _ _ _ H Pr (dxdy_value c _ H Pr)) as (G1 & G2 & G3). split; [exact G3|]. intros N.
  assert (L : P (tknx c) / P (tkny c) * gx c (P (tknx c) / P (tkny c)) + gy c (P (tknx c) / P (tkny c)) < 0).
  { destruct G1 as [G1|G1]; [exact G1|]. exfalso. apply G2 in G1 as [A B]. destruct N; congruence. }
  apply (Rmult_lt_compat_l (P (tkny c))) in L; [|exact Py]. rewrite Rmult_0_r in L.
  match type of L with ?u < 0 => replace u with (P (tknx c) * gx c (P (tknx c) / P (tkny c)) + P (tkny c) * gy c (P (tknx c) / P (tkny c))) in L by (field; lra) end. exact L.
Qed.
Lemma best_signed P best : Forall proper (pools best) -> (forall t, 0 < P t) -> Forall (marginal P) best -> Forall signed best /\
  Forall (fun e => let '(c, dx, dy) := e in (dx <> 0 \/ dy <> 0) -> P (tknx c) * dx + P (tkny c) * dy < 0) best.
Proof.
  intros H PP M. rewrite (marginal_is P best H PP M). split; apply Forall_forall; intros e He; apply in_map_iff in He as (c & <- & Hc); rewrite Forall_forall in H; destruct (mtrade_signed P c (proj1 (H c Hc)) PP) as [A B]; [exact A|exact B].
Qed.
Lemma moving_in l : forall i n c dx dy, In (n, (c, dx, dy)) (moving i l) <-> (i <= n)%nat /\ nth_error l (n - i) = Some (c, dx, dy) /\ (dx <> 0 \/ dy <> 0).
Proof.
  induction l as [|[[c0 a] b] l IH]; intros i n c dx dy; [cbn; split; [intros []|intros (_ & H & _); destruct (n - i)%nat; discriminate]|].
  assert (K : In (n, (c, dx, dy)) (moving (S i) l) -> (i <= n)%nat /\ nth_error ((c0, a, b) :: l) (n - i) = Some (c, dx, dy) /\ (dx <> 0 \/ dy <> 0)).
  { intros H. apply IH in H as (A & B & C). split; [lia|]. replace (n - i)%nat with (S (n - S i)) by lia. auto. }
  assert (J : (i <= n)%nat -> nth_error ((c0, a, b) :: l) (n - i) = Some (c, dx, dy) -> (dx <> 0 \/ dy <> 0) -> (n = i /\ c0 = c /\ a = dx /\ b = dy) \/ In (n, (c, dx, dy)) (moving (S i) l)).
  { intros A B C. destruct (Nat.eq_dec n i) as [->|Nn]; [left; rewrite Nat.sub_diag in B; cbn in B; injection B as <- <- <-; auto|]. right. apply IH. split; [lia|]. split; [|exact C].
    replace (n - i)%nat with (S (n - S i)) in B by lia. exact B. }
  assert (M : (a <> 0 \/ b <> 0) -> In (n, (c, dx, dy)) ((i, (c0, a, b)) :: moving (S i) l) <-> (i <= n)%nat /\ nth_error ((c0, a, b) :: l) (n - i) = Some (c, dx, dy) /\ (dx <> 0 \/ dy <> 0)).
  { intros N. split.
    - intros [H|H]; [injection H as <- <- <- <-; split; [lia|]; rewrite Nat.sub_diag; auto|auto].
    - intros (A & B & C). destruct (J A B C) as [(-> & -> & -> & ->)|H]; [left; reflexivity|right; exact H]. }
  cbn [moving]. destruct (Req_EM_T a 0) as [Ea|Ea]; [destruct (Req_EM_T b 0) as [Eb|Eb]|]; [|apply M; auto|apply M; auto].
  split; [exact K|]. intros (A & B & C). destruct (J A B C) as [(-> & -> & -> & ->)|H]; [destruct C; contradiction|exact H].
Qed.

(** values of trades and of edges *)
Lemma shown_gain cid P g c i dx dy e : shows cid g (i, (c, dx, dy)) e -> edge_gain P g e = - (P (tknx c) * dx + P (tkny c) * dy).
Proof. intros (_ & _ & [(_ & _ & A & B & C & D)|(_ & _ & A & B & C & D)]); unfold edge_gain; rewrite A, C, B, D; ring. Qed.
Lemma shown_total cid P g l : forall i es, Forall2 (shows cid g) (moving i l) es ->
  fold_right (fun e s => edge_gain P g e + s) 0 es = - fold_right (fun e s => (let '(c, dx, dy) := e in P (tknx c) * dx + P (tkny c) * dy) + s) 0 l.
Proof.
  induction l as [|[[c dx] dy] l IH]; intros i es H; [inversion H; cbn; ring|]. cbn [moving] in H.
  assert (M : Forall2 (shows cid g) ((i, (c, dx, dy)) :: moving (S i) l) es -> fold_right (fun e s => edge_gain P g e + s) 0 es =
    - fold_right (fun e s => (let '(c, dx, dy) := e in P (tknx c) * dx + P (tkny c) * dy) + s) 0 ((c, dx, dy) :: l)).
  { intros F. inversion F as [|? e ? es' F1 F2]; subst. cbn [fold_right]. rewrite (shown_gain _ P _ _ _ _ _ _ F1), (IH _ _ F2). ring. }
  destruct (Req_EM_T dx 0) as [Ea|Ea]; [destruct (Req_EM_T dy 0) as [Eb|Eb]|]; [|apply M, H|apply M, H]. cbn [fold_right]. rewrite (IH _ _ H), Ea, Eb. ring.
Qed.
Lemma worth_trades P toks l : NoDup toks -> (forall c, In c (pools l) -> In (tknx c) toks /\ In (tkny c) toks) ->
  worth P toks (OptSpec.net l) = fold_right (fun e s => (let '(c, dx, dy) := e in P (tknx c) * dx + P (tkny c) * dy) + s) 0 l.
Proof.
  intros D. induction l as [|[[c dx] dy] l IH]; intros H; [apply worth_zero; reflexivity|]. cbn [fold_right]. rewrite <- IH by (intros d Hd; apply H; right; exact Hd).
  rewrite (worth_ext P toks _ (fun t => flow t (c, dx, dy) + OptSpec.net l t)) by reflexivity. rewrite worth_plus. f_equal. cbn [flow]. rewrite worth_plus. destruct (H c (or_introl eq_refl)) as [A B].
  rewrite !worth_single by assumption. reflexivity.
Qed.

(** ** margp_optimizer *)
Lemma margp_rows m cs target P best cid : Forall proper cs -> reports m cs target (m_p m) P best -> m_minimal m = false -> forall iz,
  from_r cid (Converged m) iz = built (from_ccdxdy empty_graph (rows_of cid 0 best) iz).
Proof.
  intros H Hr N iz. destruct (results_value m cs target P best H Hr N) as (_ & E & _). cbn [from_r]. rewrite E. cbn [rbind].
  assert (Q : map (fun c => (tknx c, tkny c)) (m_curves m) = map (fun e : cpc * R * R => (tknx (fst (fst e)), tkny (fst (fst e)))) best).
  { destruct Hr as (R1 & _ & _ & _ & _ & _ & R6 & _). rewrite R1, <- R6. unfold pools. rewrite map_map. reflexivity. }
  rewrite Q. reflexivity.
Qed.
Lemma margp_graph m cs target P best cid : Forall proper cs -> reports m cs target (m_p m) P best -> m_minimal m = false ->
  exists g, (forall iz, from_r cid (Converged m) iz = Ret g) /\ positive g /\ NoDup (map n_tkn (g_nodes g)) /\ Forall2 (shows cid g) (moving 0 best) (g_edges g) /\
    (forall t, net g t = dget (m_dtokens m) t) /\ (forall u, (exists n, name g n = Some u) <-> exists n c dx dy, In (n, (c, dx, dy)) (moving 0 best) /\ (tknx c = u \/ tkny c = u)).
Proof.
  intros H Hr N. pose proof (fun iz => margp_rows m cs target P best cid H Hr N iz) as E.
  assert (Hr2 := Hr). destruct Hr2 as (R1 & R2 & R3 & R4 & R5 & (P1 & P2 & P3 & P4) & R6 & R7 & R8 & R9 & R10).
  destruct (best_signed P best ltac:(rewrite R6; exact H) P1 R7) as [S _]. destruct (trades_graph cid best S true) as (g & A & B & C & D & F & G). exists g.
  split; [intros iz; rewrite E; destruct iz; [|rewrite ignorezero_same]; rewrite A; reflexivity|]. split; [exact B|]. split; [exact C|]. split; [exact D|]. split; [|exact G]. intros t. rewrite F, R8. reflexivity.
Qed.
Lemma Forall2_In_r {A B} (Q : A -> B -> Prop) l l' b : Forall2 Q l l' -> In b l' -> exists a, In a l /\ Q a b.
Proof. intros F. induction F as [|a b' l l' H _ IH]; intros I1; [destruct I1|]. destruct I1 as [->|I1]; [exists a; split; [left; reflexivity|exact H]|]. destruct (IH I1) as (a' & X & Y). exists a'. split; [right; exact X|exact Y]. Qed.
Lemma margp_gain m cs target P best cid g iz : Forall proper cs -> reports m cs target (m_p m) P best -> m_minimal m = false -> from_r cid (Converged m) iz = Ret g ->
  (forall e, In e (g_edges g) -> 0 < edge_gain P g e) /\ total_gain P g = - worth P (target :: m_tokens m) (dget (m_dtokens m)) /\
  (Forall (fun a => a = 0) (m_dt m) -> (forall u, u <> target -> net g u = 0) /\ net g target = m_value m /\ total_gain P g = - m_value m).
Proof.
  intros H Hr N E0. destruct (margp_graph m cs target P best cid H Hr N) as (g' & E & Pg & Nd & D & F & _). rewrite E in E0. injection E0 as ->.
  assert (Hr2 := Hr). destruct Hr2 as (R1 & R2 & R3 & R4 & R5 & (P1 & P2 & P3 & P4) & R6 & R7 & R8 & R9 & R10).
  destruct (best_signed P best ltac:(rewrite R6; exact H) P1 R7) as [_ S]. rewrite Forall_forall in S.
  assert (T : total_gain P g = - worth P (target :: m_tokens m) (dget (m_dtokens m))).
  { unfold total_gain. rewrite (shown_total cid P g best 0 _ D). f_equal. rewrite (worth_ext P _ (dget (m_dtokens m)) (OptSpec.net best)) by (intros t _; apply R8). symmetry. apply worth_trades.
    - constructor; [|exact R4]. intros X. apply R5 in X. apply (proj1 X). reflexivity.
    - intros c Hc. rewrite R6 in Hc. split.
      + destruct (string_dec (tknx c) target) as [->|X]; [left; reflexivity|right; apply R5; split; [exact X|exists c; auto]].
      + destruct (string_dec (tkny c) target) as [->|X]; [left; reflexivity|right; apply R5; split; [exact X|exists c; auto]]. }
  split; [|split; [exact T|]].
  - intros e He. destruct (Forall2_In_r _ _ _ _ D He) as ([i [[c dx] dy]] & X & Y). rewrite (shown_gain _ P _ _ _ _ _ _ Y). apply moving_in in X as (_ & X1 & X2). apply nth_error_In in X1.
    specialize (S _ X1 X2). cbn beta in S. lra.
  - intros Z. assert (Zt : forall u, u <> target -> net g u = 0).
    { intros u Nu. rewrite F. destruct (in_dec string_dec u (m_tokens m)) as [J|J].
      - rewrite R8. rewrite R9, Forall_forall in Z. apply Z, in_map, J.
      - rewrite R8. apply outside. intros c Hc. rewrite R6 in Hc. split; intros X; apply J, R5; (split; [exact Nu|exists c; auto]). }
    assert (Vt : net g target = m_value m) by (rewrite F, R8, R10; reflexivity). split; [exact Zt|]. split; [exact Vt|]. rewrite T. cbn [worth fold_right]. fold (worth P (m_tokens m) (dget (m_dtokens m))).
    rewrite (worth_zero P (m_tokens m)); [rewrite P3, <- F, Vt; ring|]. intros t Ht. rewrite <- F. apply Zt. apply R5 in Ht. apply Ht.
Qed.
(** the edges are the trade instructions *)
Lemma instr_edge cid g i n c dx dy e : shows cid g (n, (c, dx, dy)) e -> instructs i (c, dx, dy) -> ti_cid i = n ->
  e_uid e = Some (cid (ti_cid i)) /\ name g (e_in e) = Some (tknin i) /\ e_ain e = amtin i /\ name g (e_out e) = Some (tknout i) /\ e_aout e = - amtout i.
Proof.
  intros (U & _ & S) I1 <-. split; [exact U|].
  destruct S as [(A & B & C & D & E & F)|(A & B & C & D & E & F)], I1 as [(G1 & G2 & G3 & G4 & G5 & G6)|(G1 & G2 & G3 & G4 & G5 & G6)]; try lra; rewrite G3, G4, G5, G6; auto.
Qed.
Lemma margp_instructions m cs target P best cid g iz : Forall proper cs -> reports m cs target (m_p m) P best -> m_minimal m = false -> from_r cid (Converged m) iz = Ret g ->
  exists l, trade_instructions m = Ret l /\ NoDup (map ti_cid l) /\ List.length l = List.length (g_edges g) /\
    forall i, In i l -> exists e, In e (g_edges g) /\ e_uid e = Some (cid (ti_cid i)) /\ name g (e_in e) = Some (tknin i) /\ e_ain e = amtin i /\ name g (e_out e) = Some (tknout i) /\ e_aout e = - amtout i.
Proof.
  intros H Hr N E0. destruct (margp_graph m cs target P best cid H Hr N) as (g' & E & _ & _ & D & _). rewrite E in E0. injection E0 as ->.
  destruct (results_value m cs target P best H Hr N) as (_ & _ & _ & l & E1 & ND & I1 & I2). exists l. split; [exact E1|]. split; [exact ND|]. split.
  - transitivity (List.length (moving 0 best)); [|clear - D; induction D; cbn; congruence]. assert (NM : NoDup (map fst (moving 0 best))).
    { clear. generalize 0%nat. induction best as [|[[c dx] dy] l IH]; intros i; [constructor|]. cbn [moving].
      assert (X : NoDup (map fst ((i, (c, dx, dy)) :: moving (S i) l))).
      { cbn [map fst]. constructor; [|apply IH]. intros G. apply in_map_iff in G as ([n [[c' a] b]] & <- & G). cbn [fst] in G. apply moving_in in G. lia. }
      destruct (Req_EM_T dx 0); [destruct (Req_EM_T dy 0)|]; [apply IH|exact X|exact X]. }
    rewrite <- (map_length ti_cid l), <- (map_length fst (moving 0 best)). apply Permutation.Permutation_length, Permutation.NoDup_Permutation; [exact ND|exact NM|].
    intros n. split.
    + intros G. apply in_map_iff in G as (i & <- & G). destruct (I1 i G) as ([[c dx] dy] & G1 & G2). apply in_map_iff. exists (ti_cid i, (c, dx, dy)). split; [reflexivity|]. apply moving_in. split; [lia|]. rewrite Nat.sub_0_r. split; [exact G1|].
      destruct G2 as [(Q & _)|(Q & _)]; left; lra.
    + intros G. apply in_map_iff in G as ([n' [[c dx] dy]] & <- & G). cbn [fst]. apply moving_in in G as (_ & G1 & G2). rewrite Nat.sub_0_r in G1. destruct (I2 _ _ _ _ G1 G2) as (i & X & <-). apply in_map, X.
  - intros i Hi. destruct (I1 i Hi) as ([[c dx] dy] & G1 & G2). assert (M : In (ti_cid i, (c, dx, dy)) (moving 0 best)).
    { apply moving_in. split; [lia|]. rewrite Nat.sub_0_r. split; [exact G1|]. destruct G2 as [(Q & _)|(Q & _)]; left; lra. }
    assert (X : forall (l1 : list (nat * (cpc * R * R))) l2, Forall2 (shows cid g) l1 l2 -> forall a, In a l1 -> exists b, In b l2 /\ shows cid g a b).
    { clear. intros l1 l2 F. induction F as [|a b l1 l2 HH _ IH]; intros z Hz; [destruct Hz|]. destruct Hz as [<-|Hz]; [exists b; split; [left; reflexivity|exact HH]|]. destruct (IH z Hz) as (b' & U & V). exists b'. split; [right; exact U|exact V]. }
    destruct (X _ _ D _ M) as (e & He & Se). exists e. split; [exact He|]. exact (instr_edge cid g i _ c dx dy e Se G2 eq_refl).
Qed.

(** ** simple_optimizer *)
Definition side_trade (p0 : R) (s : side) : cpc * R * R := (pool_of s, gx (pool_of s) p0, gy (pool_of s) p0).
Lemma side_vec l p0 : Forall side_ok l -> 0 < p0 -> dxdy_vec l p0 = Ret (map (fun e => (snd (fst e), snd e)) (map (side_trade p0) l)).
Proof.
  intros H Hp. unfold dxdy_vec. induction H as [|s l H0 _ IH]; [reflexivity|]. cbn [rmap map]. rewrite (side_value s p0 H0 Hp). cbn [rbind]. rewrite IH. reflexivity.
Qed.
Lemma simple_graph cs l p0 cid v : Forall proper cs -> one_pair cs = Ret l -> 0 < p0 -> exists tx ty g, tx <> ty /\ (forall c, In c cs -> on_pair tx ty c) /\
  (forall iz, from_so cid (mkSO v p0 l) iz = Ret g) /\ positive g /\ Forall2 (shows cid g) (moving 0 (map (side_trade p0) l)) (g_edges g) /\
  dxdy_sum l p0 = Ret (net g tx, net g ty) /\ (forall t, t <> tx -> t <> ty -> net g t = 0).
Proof.
  intros H E Hp. destruct (one_pair_inv cs l H E) as (El & NE & SO & tx & ty & Nt & T). exists tx, ty.
  assert (SG : Forall signed (map (side_trade p0) l)).
  { apply Forall_forall. intros e He. apply in_map_iff in He as (s & <- & Hs). rewrite Forall_forall in SO. pose proof (side_pool s (SO s Hs)) as Hk. exact (proj2 (proj2 (trade_gain _ _ _ _ Hk Hp (dxdy_value _ _ Hk Hp)))). }
  destruct (trades_graph cid (map (side_trade p0) l) SG true) as (g & A & B & C & D & F & G). exists g. split; [exact Nt|]. split.
  { intros c Hc. assert (Hs : In (wrap c) l) by (rewrite El; apply in_map, Hc). destruct (T _ Hs) as [T1 T2]. revert T1 T2. pose proof (wrap_curve c) as W. unfold on_pair.
    destruct (wrap c) as [d|d]; cbn in W; subst d; cbn [side_tknx side_tkny inv_tknx inv_tkny]; unfold inv_tknx, inv_tkny; auto. }
  split; [|split; [exact B|split; [exact D|split]]].
  - intros iz. unfold from_so. cbn [so_curves so_p]. rewrite (side_vec l p0 SO Hp). cbn [rbind].
    assert (Q : map (fun s => (side_tknx s, side_tkny s)) l = map (fun e : cpc * R * R => (tknx (fst (fst e)), tkny (fst (fst e)))) (map (side_trade p0) l)).
    { rewrite map_map. apply map_ext. intros s. cbn [side_trade fst]. destruct (side_tokens s) as [-> ->]. reflexivity. }
    destruct l as [|s0 l0] eqn:Z; [destruct cs; [congruence|discriminate El]|]. rewrite <- Z in *. rewrite Q. fold (rows_of cid 0 (map (side_trade p0) l)). destruct iz; [|rewrite ignorezero_same]; rewrite A; reflexivity.
  - rewrite (sum_value l p0 SO Hp), !F. assert (K : OptSpec.net (map (side_trade p0) l) tx = GX l p0 /\ OptSpec.net (map (side_trade p0) l) ty = GY l p0); [|destruct K as [-> ->]; reflexivity].
    clear - T Nt. unfold GX, GY. induction l as [|s l IH]; [split; reflexivity|]. destruct (IH (fun s' H' => T s' (or_intror H'))) as [I1 I2]. destruct (T s (or_introl eq_refl)) as [T1 T2].
    cbn [map OptSpec.net side_trade flow total fold_right]. unfold total in *. rewrite I1, I2. destruct (side_tokens s) as [-> ->]. rewrite T1, T2.
    destruct (string_dec tx tx); [|congruence]. destruct (string_dec ty ty); [|congruence]. destruct (string_dec ty tx); [congruence|]. destruct (string_dec tx ty); [congruence|]. split; cbn [total]; unfold ContainerSpec.total in *; cbn [fold_right]; rewrite ?I1, ?I2; ring.
  - intros t N1 N2. rewrite F. apply outside. intros c Hc. unfold pools in Hc. rewrite map_map in Hc. apply in_map_iff in Hc as (s & <- & Hs). cbn [side_trade fst]. destruct (T s Hs) as [T1 T2]. destruct (side_tokens s) as [-> ->]. rewrite T1, T2. split; congruence.
Qed.
