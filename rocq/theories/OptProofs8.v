(** Results and trade instructions (C99), the problem of nofees_optimizer (C100), and a converged result that is no arbitrage (C98). *)
From Coq Require Import Reals Lra Bool List String Lia ZArith Permutation.
From Verif Require Import CurveModel CurveProofs PairModel PairSpec HelperModel CpcModel CpcSpec CpcProofs CpcProofs2
  ContainerModel ContainerSpec ContainerProofs ContainerProofs2 OptModel OptSpec OptProofs OptProofs2 OptProofs3 OptProofs5 OptProofs6 OptProofs7.
Import ListNotations.
Local Open Scope R_scope.

(** ** results *)
Lemma result_price m a b : Forall (fun v => 0 < v) (m_p m) -> m_minimal m = false ->
  m_price m a b = Ret (price_of (m_tokens m) (m_p m) a / price_of (m_tokens m) (m_p m) b).
Proof. intros P N. unfold m_price. rewrite N. apply rdiv_ok, Rgt_not_eq, price_pos, P. Qed.
Lemma result_dxdy m : Forall proper (m_curves m) -> Forall (fun v => 0 < v) (m_p m) -> m_minimal m = false ->
  dxdyvalues m = Ret (map (fun e => (snd (fst e), snd e)) (map (mtrade (price_of (m_tokens m) (m_p m))) (m_curves m))).
Proof.
  intros H P N. unfold dxdyvalues. rewrite N. rewrite map_map. cbn [mtrade fst snd]. apply rmap_ok. intros c Hc. rewrite result_price by assumption. cbn [rbind].
  rewrite Forall_forall in H. rewrite dxdy_value; [reflexivity|apply H, Hc|apply Rdiv_lt_0_compat; apply price_pos, P].
Qed.
Lemma minimal_raises m : m_minimal m = true -> (forall a b, m_price m a b = Raise AssertionError) /\ dxdyvalues m = Raise AssertionError /\ curves_new m = Raise AssertionError /\ trade_instructions m = Raise AssertionError.
Proof. intros N. unfold curves_new, trade_instructions, dxdyvalues, m_price. rewrite N. repeat split. Qed.

Lemma g_curve c p0 : pool_ok c -> 0 < p0 -> 0 < x c + gx c p0 /\ 0 < y c + gy c p0 /\ (x c + gx c p0) * (y c + gy c p0) = k c /\
  (0 < x_act c + gx c p0 -> p0 * (x c + gx c p0) <= y c + gy c p0) /\ (0 < y_act c + gy c p0 -> y c + gy c p0 <= p0 * (x c + gx c p0)).
Proof.
  intros H Hp. destruct (reach c p0 H Hp) as (X & Y & E & HX & HY & K & A & B & C & D). rewrite dxdy_value in E by assumption.
  assert (EX : gx c p0 = X - x c) by congruence. assert (EY : gy c p0 = Y - y c) by congruence. rewrite EX, EY.
  replace (x c + (X - x c)) with X by ring. replace (y c + (Y - y c)) with Y by ring. unfold x_min, y_min in *.
  split; [exact HX|]. split; [exact HY|]. split; [exact K|]. split; intros G; [apply C|apply D]; lra.
Qed.
Lemma settle c p0 : pool_ok c -> 0 < p0 -> exists c', execute c (Some (gx c p0)) None true = Ret c' /\ settled p0 c (gx c p0) (gy c p0) c'.
Proof.
  intros H Hp. destruct (g_curve c p0 H Hp) as (HX & HY & K & C & D). destruct (g_allowed c p0 H Hp) as (A1 & A2 & _). destruct H as (Hk & Hx & Hxa & Hya).
  exists (moved c (x c + gx c p0) (k c / (x c + gx c p0))). split; [apply exec_dx; split; [left; reflexivity|]; split; [lra|reflexivity]|].
  assert (EY : k c / (x c + gx c p0) = y c + gy c p0) by (rewrite <- K; field; lra). rewrite EY. unfold settled, moved, pool_ok. cbn [k x x_act y_act tknx tkny].
  assert (YY : CpcModel.y (mkCpc (k c) (x c + gx c p0) (x_act c + (x c + gx c p0) - x c) (y_act c + (y c + gy c p0) - y c) (tknx c) (tkny c)) = y c + gy c p0) by exact EY.
  rewrite YY, EY. unfold CpcModel.y in *.
  split; [split; [exact Hk|]; split; [exact HX|]; split; lra|]. do 3 (split; [reflexivity|]). do 2 (split; [reflexivity|]). split; [ring|]. split; [ring|]. split; intros G.
  - apply le_div; [exact HX|]. apply C. lra.
  - apply div_le; [exact HX|]. apply D. lra.
Qed.
Lemma result_curves m : Forall proper (m_curves m) -> Forall (fun v => 0 < v) (m_p m) -> m_minimal m = false ->
  exists cs', curves_new m = Ret (Some cs') /\
    Forall2 (fun e c' => settled (price_of (m_tokens m) (m_p m) (tknx (fst (fst e))) / price_of (m_tokens m) (m_p m) (tkny (fst (fst e)))) (fst (fst e)) (snd (fst e)) (snd e) c')
      (map (mtrade (price_of (m_tokens m) (m_p m))) (m_curves m)) cs'.
Proof.
  intros H P N. unfold curves_new. rewrite result_dxdy by assumption. cbn [rbind adjust_curves]. set (Pr := price_of (m_tokens m) (m_p m)).
  assert (PP : forall t, 0 < Pr t) by (intros t; apply price_pos, P). rewrite Forall_forall in H. set (cs := m_curves m) in *. clearbody cs.
  assert (Q : exists cs', execute_all cs (map fst (map (fun e : cpc * R * R => (snd (fst e), snd e)) (map (mtrade Pr) cs))) = Ret cs' /\
    Forall2 (fun e c' => settled (Pr (tknx (fst (fst e))) / Pr (tkny (fst (fst e)))) (fst (fst e)) (snd (fst e)) (snd e) c') (map (mtrade Pr) cs) cs').
  { induction cs as [|c cs IH]; [exists []; split; [reflexivity|constructor]|]. destruct IH as (l & E & F); [intros d Hd; apply H; right; exact Hd|].
    destruct (settle c (Pr (tknx c) / Pr (tkny c))) as (c' & E' & S'); [apply H; left; reflexivity|apply Rdiv_lt_0_compat; apply PP|].
    exists (c' :: l). cbn [map execute_all mtrade fst snd]. rewrite E'. cbn [rbind]. cbn [mtrade] in E. rewrite E. cbn [rbind]. split; [reflexivity|]. constructor; [exact S'|exact F]. }
  destruct Q as (cs' & E & F). exists cs'. rewrite E. split; [reflexivity|exact F].
Qed.
Lemma adjust_none cs : adjust_curves cs None true = Raise ValueError /\ adjust_curves cs None false = Ret None.
Proof. split; reflexivity. Qed.

(** ** trade instructions *)
Lemma instruct n c p0 : proper c -> 0 < p0 -> gx c p0 <> 0 \/ gy c p0 <> 0 ->
  exists i, new_ti n (tknx c) (gx c p0) (tkny c) (gy c p0) = Ret i /\ ti_cid i = n /\ instructs i (c, gx c p0, gy c p0).
Proof.
  intros (H & N & _) Hp Z. destruct (trade_gain c p0 _ _ H Hp (dxdy_value c p0 H Hp)) as (_ & _ & S).
  assert (L : gx c p0 * gy c p0 < 0).
  { destruct S as [[S1 S2]|[[S1 S2]|[S1 S2]]]; [destruct Z; contradiction| |].
    - pose proof (Rmult_lt_0_compat (gx c p0) (- gy c p0) S1 ltac:(lra)) as G. rewrite Ropp_mult_distr_r_reverse in G. lra.
    - pose proof (Rmult_lt_0_compat (- gx c p0) (gy c p0) ltac:(lra) S2) as G. rewrite Ropp_mult_distr_l_reverse in G. lra. }
  destruct (new_value n (tknx c) (gx c p0) (tkny c) (gy c p0) N) as (V & _). destruct (V L) as (i & E & _ & Ec & I1). exists i. split; [exact E|]. split; [exact Ec|].
  unfold instructs. cbn [fst snd]. destruct I1 as [[S1 ->]|[S1 ->]]; cbn [tknin amtin tknout amtout]; [left|right]; repeat split; lra.
Qed.
Lemma combine_nth_in {A B} (l : list A) (m : list B) a b : In (a, b) (combine l m) <-> exists i, nth_error l i = Some a /\ nth_error m i = Some b.
Proof.
  revert m. induction l as [|u l IH]; intros m; cbn [combine].
  - split; [intros []|]. intros ([|i] & E & _); discriminate.
  - destruct m as [|v m]; [split; [intros []|]; intros ([|i] & _ & E); discriminate|]. cbn [In]. rewrite IH. split.
    + intros [E|(i & E1 & E2)]; [exists O; split; cbn; congruence|exists (S i); split; assumption].
    + intros ([|i] & E1 & E2); cbn in E1, E2; [left; congruence|right; exists i; split; assumption].
Qed.
Lemma seq_nth n i v : nth_error (seq 0 n) i = Some v <-> (i < n)%nat /\ v = i.
Proof.
  split.
  - intros H. assert (L : (i < n)%nat) by (rewrite <- (seq_length n 0); apply nth_error_Some; congruence). split; [exact L|]. pose proof (nth_error_nth _ _ O H) as G. rewrite seq_nth in G by exact L. lia.
  - intros [L ->]. rewrite (nth_error_nth' _ O) by (rewrite seq_length; exact L). rewrite seq_nth by exact L. reflexivity.
Qed.
Lemma fst_combine {A B} (l : list A) (m : list B) : List.length l = List.length m -> map fst (combine l m) = l.
Proof. revert m. induction l as [|a l IH]; intros [|b m] H; cbn in *; try discriminate; [reflexivity|]. f_equal. apply IH. congruence. Qed.
Lemma nodup_filter_map {A B} (g : A -> B) f l : NoDup (map g l) -> NoDup (map g (filter f l)).
Proof.
  induction l as [|a l IH]; cbn [map filter]; intros D; [exact D|]. inversion D as [|? ? D1 D2]; subst. destruct (f a); [|apply IH, D2]. cbn [map]. constructor; [|apply IH, D2].
  intros G. apply D1. apply in_map_iff in G as (b & E & G). apply filter_In in G as [G _]. rewrite <- E. apply in_map, G.
Qed.
Lemma result_instructions m : Forall proper (m_curves m) -> Forall (fun v => 0 < v) (m_p m) -> m_minimal m = false ->
  let trades := map (mtrade (price_of (m_tokens m) (m_p m))) (m_curves m) in
  exists l, trade_instructions m = Ret l /\ NoDup (map ti_cid l) /\
    (forall i, In i l -> exists e, nth_error trades (ti_cid i) = Some e /\ instructs i e) /\
    (forall n c dx dy, nth_error trades n = Some (c, dx, dy) -> dx <> 0 \/ dy <> 0 -> exists i, In i l /\ ti_cid i = n).
Proof.
  intros H P N trades. unfold trade_instructions. rewrite result_dxdy by assumption. cbn [rbind]. fold trades. set (v := map _ trades).
  set (Pr := price_of (m_tokens m) (m_p m)) in *. assert (PP : forall t, 0 < Pr t) by (intros t; apply price_pos, P).
  set (z := combine (seq 0 (List.length v)) (combine (m_curves m) v)). set (nz := filter _ z).
  assert (Lv : List.length v = List.length (m_curves m)) by (unfold v, trades; rewrite !map_length; reflexivity).
  assert (Z : forall n c dx dy, In (n, (c, (dx, dy))) z <-> nth_error trades n = Some (c, dx, dy)).
  { intros n c dx dy. unfold z. rewrite combine_nth_in. unfold v. split.
    - intros (i & E1 & E2). apply seq_nth in E1 as [_ ->]. assert (I2 : In (c, (dx, dy)) (combine (m_curves m) (map (fun e : cpc * R * R => (snd (fst e), snd e)) trades))) by (apply nth_error_In in E2; exact E2).
      clear I2. revert E2. unfold trades. generalize (m_curves m). clear. intros cs. revert i. induction cs as [|d cs IH]; intros [|i]; cbn [map combine nth_error mtrade fst snd]; try discriminate; [|apply IH].
      intros E. unfold mtrade. congruence.
    - intros E. exists n. split.
      + apply seq_nth. split; [|reflexivity]. rewrite map_length. apply nth_error_Some. congruence.
      + revert E. unfold trades. generalize (m_curves m). clear. intros cs. revert n. induction cs as [|d cs IH]; intros [|n]; cbn [map combine nth_error mtrade fst snd]; try discriminate; [|apply IH].
        intros E. unfold mtrade in E. congruence. }
  assert (NZ : forall n c dx dy, In (n, (c, (dx, dy))) nz <-> nth_error trades n = Some (c, dx, dy) /\ (dx <> 0 \/ dy <> 0)).
  { intros n c dx dy. unfold nz. rewrite filter_In, Z. cbn [fst snd]. rewrite orb_true_iff, !negb_true_iff.
    assert (Q : forall r, req r 0 = false <-> r <> 0). { intros r. destruct (req r 0) eqn:E; [apply req_iff in E; split; [discriminate|contradiction]|]. split; [|reflexivity]. intros _ G. apply req_iff in G. congruence. }
    rewrite !Q. reflexivity. }
  assert (T : forall n c dx dy, nth_error trades n = Some (c, dx, dy) -> proper c /\ dx = gx c (Pr (tknx c) / Pr (tkny c)) /\ dy = gy c (Pr (tknx c) / Pr (tkny c))).
  { intros n c dx dy E. apply nth_error_In in E. unfold trades in E. apply in_map_iff in E as (d & E & Hd). unfold mtrade in E. rewrite Forall_forall in H.
    assert (d = c) by congruence. subst d. split; [apply H, Hd|]. split; congruence. }
  assert (M : forall n c dx dy, In (n, (c, (dx, dy))) nz -> exists i, new_ti n (tknx c) dx (tkny c) dy = Ret i /\ ti_cid i = n /\ instructs i (c, dx, dy)).
  { intros n c dx dy G. apply NZ in G as [G1 G2]. destruct (T n c dx dy G1) as (Hc & -> & ->). apply instruct; [exact Hc|apply Rdiv_lt_0_compat; apply PP|exact G2]. }
  assert (W : exists l, rmap (fun e : nat * (cpc * (R * R)) => let '(i, (c, (dx, dy))) := e in new_ti i (tknx c) dx (tkny c) dy) nz = Ret l /\ map ti_cid l = map fst nz /\
    (forall i, In i l -> exists e, In e nz /\ ti_cid i = fst e /\ instructs i (fst (snd e), fst (snd (snd e)), snd (snd (snd e))))).
  { clear NZ Z. clearbody nz. induction nz as [|[n [c [dx dy]]] nz IH]; [exists []; repeat split; intros i []|]. destruct (M n c dx dy (or_introl eq_refl)) as (i & E1 & E2 & E3).
    destruct IH as (l & L1 & L2 & L3); [intros n' c' dx' dy' G; apply M; right; exact G|]. exists (i :: l). cbn [rmap]. rewrite E1. cbn [rbind]. rewrite L1. cbn [rbind map fst]. split; [reflexivity|].
    split; [congruence|]. intros j [->|Hj]; [exists (n, (c, (dx, dy))); split; [left; reflexivity|]; split; assumption|]. destruct (L3 j Hj) as (e & F1 & F2). exists e. split; [right; exact F1|exact F2]. }
  destruct W as (l & L1 & L2 & L3). exists l. split; [exact L1|]. split; [|split].
  - rewrite L2. unfold nz. apply nodup_filter_map. unfold z. rewrite fst_combine; [apply seq_NoDup|]. rewrite seq_length, combine_length, Lv, PeanoNat.Nat.min_id. reflexivity.
  - intros i Hi. destruct (L3 i Hi) as ([n [c [dx dy]]] & G1 & G2 & G3). cbn [fst snd] in *. apply NZ in G1 as [G1 _]. exists (c, dx, dy). rewrite G2. split; [exact G1|exact G3].
  - intros n c dx dy E NN. assert (G : In n (map fst nz)) by (apply in_map_iff; exists (n, (c, (dx, dy))); split; [reflexivity|]; apply NZ; split; assumption).
    rewrite <- L2 in G. apply in_map_iff in G as (i & G1 & G2). exists i. split; assumption.
Qed.
