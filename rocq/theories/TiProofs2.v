(** Proofs that the instructions of each optimizer carry out its trades, and about the table of
    trades per curve. *)
From Coq Require Import Reals Bool List String ZArith Lra Lia Permutation.
From Verif Require Import CurveModel PairModel HelperModel CpcModel CpcSpec ContainerModel ContainerSpec ContainerProofs2 OptModel OptSpec TiModel TiSpec TiProofs.
From Verif Require CpcProofs3 OptProofs OptProofs2 OptProofs3 OptProofs4 OptProofs8 OptProofs10.
Import ListNotations.
Local Open Scope R_scope.

(** ** what instructions that implement trades move *)
Lemma total_perm l l' : Permutation l l' -> total l = total l'.
Proof. unfold total. induction 1; cbn [fold_right]; lra. Qed.
Lemma net_total es t : net es t = total (map (flow t) es).
Proof. induction es as [|e es IH]; [reflexivity|]. cbn [net map]. rewrite total_cons, IH. reflexivity. Qed.
Lemma total_filter {A} (f : A -> bool) (g : A -> R) l : (forall a, In a l -> f a = false -> g a = 0) -> total (map g (filter f l)) = total (map g l).
Proof.
  induction l as [|a l IH]; intros H; [reflexivity|]. cbn [filter map]. rewrite total_cons. rewrite <- IH by (intros b Hb; apply H; right; exact Hb).
  destruct (f a) eqn:E; [cbn [map]; rewrite total_cons; reflexivity|]. rewrite (H a (or_introl eq_refl) E). lra.
Qed.
Definition zero_entry (e : cpc * R * R) : bool := req (snd (fst e)) 0 && req (snd e) 0.
Definition dummy : cpc := mkCpc 0 0 0 0 "" "".
Lemma implements_net l es t : implements l es -> receipts l t - payouts l t = net es t.
Proof.
  intros (D & I & C). set (d0 := (dummy, 0, 0)).
  assert (P : Permutation (map ti_cid l) (filter (fun n => negb (zero_entry (nth n es d0))) (seq 0 (List.length es)))).
  { apply NoDup_Permutation; [exact D|apply NoDup_filter, seq_NoDup|]. intros n. rewrite filter_In, in_seq. split.
    - intros G. apply in_map_iff in G as (i & <- & Hi). destruct (I i Hi) as (e & E & S). assert (L : (ti_cid i < List.length es)%nat) by (apply nth_error_Some; congruence). split; [lia|].
      rewrite (nth_error_nth _ _ d0 E). apply negb_true_iff. destruct e as [[c dx] dy]. unfold zero_entry, req. cbn [fst snd]. cbn in S.
      destruct (Req_EM_T dx 0); [exfalso; destruct S as [S|S]; decompose [and] S; lra|reflexivity].
    - intros [L G]. destruct (nth_error es n) as [[[c dx] dy]|] eqn:E; [|apply nth_error_None in E; lia]. rewrite (nth_error_nth _ _ d0 E) in G. apply negb_true_iff in G. unfold zero_entry, req in G. cbn [fst snd] in G.
      destruct (C n c dx dy E) as (i & Hi & <-); [|apply in_map, Hi]. destruct (Req_EM_T dx 0); [|left; assumption]. destruct (Req_EM_T dy 0); [discriminate|right; assumption]. }
  rewrite net_total. transitivity (total (map (fun n => flow t (nth n es d0)) (map ti_cid l))).
  - clear P D C. induction l as [|i l IH]; [cbn; lra|]. cbn [map receipts payouts]. rewrite total_cons, <- IH by (intros j Hj; apply I; right; exact Hj).
    destruct (I i (or_introl eq_refl)) as (e & E & S). rewrite (nth_error_nth _ _ d0 E). destruct e as [[c dx] dy]. cbn in S. unfold flow. destruct S as [(S1 & S2 & -> & -> & -> & ->)|(S1 & S2 & -> & -> & -> & ->)];
      destruct (string_dec (tknx c) t), (string_dec (tkny c) t); lra.
  - rewrite (total_perm _ _ (Permutation_map _ P)), total_filter.
    + rewrite (map_nth_seq (flow t) es d0). reflexivity.
    + intros n Hn G. apply negb_false_iff in G. unfold zero_entry in G. apply andb_true_iff in G as [G1 G2]. unfold req in G1, G2. unfold flow. destruct (nth n es d0) as [[c dx] dy]. cbn [fst snd] in G1, G2.
      destruct (Req_EM_T dx 0) as [->|]; [|discriminate]. destruct (Req_EM_T dy 0) as [->|]; [|discriminate]. destruct (string_dec _ _), (string_dec _ _); lra.
Qed.
Lemma implements_sane l es : Forall (fun e => tknx (fst (fst e)) <> tkny (fst (fst e))) es -> implements l es -> Forall sane l.
Proof.
  intros H (_ & I & _). rewrite Forall_forall in H. apply Forall_forall. intros i Hi. destruct (I i Hi) as (e & E & S). apply nth_error_In, H in E. destruct e as [[c dx] dy]. cbn in S, E.
  unfold sane. destruct S as [(S1 & S2 & -> & -> & -> & ->)|(S1 & S2 & -> & -> & -> & ->)]; (split; [congruence|lra]).
Qed.
Lemma implements_nil es : implements [] es -> forall c dx dy, In (c, dx, dy) es -> dx = 0 /\ dy = 0.
Proof.
  intros (_ & _ & C) c dx dy Hi. apply In_nth_error in Hi as (n & E).
  destruct (Req_EM_T dx 0) as [A|A]; [destruct (Req_EM_T dy 0) as [B|B]; [split; assumption|]|]; (destruct (C n c dx dy E) as (i & [] & _); auto).
Qed.
Lemma names_dec t l : names t l \/ ~ names t l.
Proof.
  induction l as [|i l [IH|IH]]; [right; intros (i & [] & _)|left; destruct IH as (j & Hj & E); exists j; split; [right; exact Hj|exact E]|].
  destruct (string_dec (tknin i) t) as [E|E]; [left; exists i; split; [left; reflexivity|left; exact E]|]. destruct (string_dec (tknout i) t) as [E'|E']; [left; exists i; split; [left; reflexivity|right; exact E']|].
  right. intros (j & [<-|Hj] & [G|G]); try contradiction; apply IH; exists j; auto.
Qed.
Lemma unnamed t l : ~ names t l -> receipts l t = 0 /\ payouts l t = 0.
Proof.
  induction l as [|i l IH]; intros N; [split; reflexivity|]. cbn [receipts payouts]. destruct IH as [-> ->]; [intros (j & Hj & E); apply N; exists j; split; [right; exact Hj|exact E]|].
  destruct (string_dec (tknin i) t) as [E|E]; [exfalso; apply N; exists i; split; [left; reflexivity|left; exact E]|]. destruct (string_dec (tknout i) t) as [E'|E']; [exfalso; apply N; exists i; split; [left; reflexivity|right; exact E']|]. split; lra.
Qed.
(** the aggregated table of instructions that implement trades *)
Lemma implements_table info l es : Forall (fun e => tknx (fst (fst e)) <> tkny (fst (fst e))) es -> implements l es ->
  (exists c dx dy, In (c, dx, dy) es /\ (dx <> 0 \/ dy <> 0)) ->
  exists f, to_format info l (Some "dfaggr"%string) = Ret (Frame f) /\ exists total_row, label_at f total_row = Some (Txt "TOTAL NET") /\ (forall n, (total_row < n)%nat -> label_at f n = None) /\
    forall t, plain t -> (In t (f_cols f) -> cell_at f total_row t = Some (Amt (net es t))) /\ (~ In t (f_cols f) -> net es t = 0 /\ forall c dx dy, In (c, dx, dy) es -> dx <> 0 \/ dy <> 0 -> tknx c <> t /\ tkny c <> t).
Proof.
  intros H M (c & dx & dy & Hi & Z). pose proof (implements_sane l es H M) as S. rename l into l'.
  destruct (aggregate_table info l') as (f & E & D & I & L & R & _ & _ & T & V); [intros ->; destruct (implements_nil es M c dx dy Hi) as [-> ->]; destruct Z; congruence|exact S|]. exists f. split; [exact E|]. exists (List.length l' + 2)%nat. split; [exact T|]. split.
  { intros n Hn. unfold label_at. rewrite (proj2 (nth_error_None _ _)) by (rewrite L; lia). reflexivity. }
  intros t P. split.
  - intros Ht. destruct (V t Ht) as (_ & _ & ->). rewrite (implements_net l' es t M). reflexivity.
  - intros Ht. assert (N : ~ names t l') by (intros G; apply Ht, I; split; assumption). split.
    + rewrite <- (implements_net l' es t M). destruct (unnamed t l' N) as [-> ->]. lra.
    + intros c' dx' dy' Hc Z'. apply In_nth_error in Hc as (n & En). destruct M as (_ & M1 & M2). destruct (M2 n c' dx' dy' En Z') as (i & Hi' & <-). destruct (M1 i Hi') as (e & E1 & E2). rewrite En in E1. injection E1 as <-.
      cbn in E2. split; intros G; apply N; exists i; (split; [exact Hi'|]); destruct E2 as [(_ & _ & A & _ & B & _)|(_ & _ & A & _ & B & _)]; rewrite A, B; auto.
Qed.

(** ** making the instructions *)
Fixpoint instr (n : nat) (es : list (string * R * string * R)) : res (list instruction) :=
  match es with
  | [] => Ret []
  | (a, dx, b, dy) :: es => if negb (req dx 0) || negb (req dy 0) then let* i := new_ti n a dx b dy in let* l := instr (S n) es in Ret (i :: l) else instr (S n) es
  end.
Lemma instr_eq {A} (g : A -> string * R * string * R) (F : nat * A -> res instruction) (P : nat * A -> bool) (es : list A) :
  (forall n a, F (n, a) = let '(s, dx, t, dy) := g a in new_ti n s dx t dy) -> (forall n a, P (n, a) = let '(s, dx, t, dy) := g a in negb (req dx 0) || negb (req dy 0)) ->
  forall n, rmap F (filter P (combine (seq n (List.length es)) es)) = instr n (map g es).
Proof.
  intros HF HP. induction es as [|a es IH]; intros n; [reflexivity|]. cbn [List.length seq combine filter map instr]. rewrite HP. destruct (g a) as [[[s dx] t] dy] eqn:E. destruct (negb (req dx 0) || negb (req dy 0)); [|apply IH].
  cbn [rmap]. rewrite HF, E. rewrite IH. reflexivity.
Qed.
Definition orient (e : cpc * R * R) (q : string * R * string * R) : Prop :=
  let '(c, dx, dy) := e in q = (tknx c, dx, tkny c, dy) \/ q = (tkny c, dy, tknx c, dx).
Lemma new_opposite n a dx b dy : a <> b -> dx * dy < 0 -> exists i, new_ti n a dx b dy = Ret i /\ ti_cid i = n /\
  ((0 < dx /\ dy < 0 /\ tknin i = a /\ amtin i = dx /\ tknout i = b /\ amtout i = dy) \/ (dx < 0 /\ 0 < dy /\ tknin i = b /\ amtin i = dy /\ tknout i = a /\ amtout i = dx)).
Proof.
  intros N L. unfold new_ti. rewrite (proj2 (String.eqb_neq _ _) N). unfold make_ti, rlt, rle.
  assert (S : (0 < dx /\ dy < 0) \/ (dx < 0 /\ 0 < dy)) by (destruct (Rtotal_order dx 0) as [G|[->|G]]; [right; split; [exact G|nra]|lra|left; split; [exact G|nra]]).
  destruct S as [[S1 S2]|[S1 S2]].
  - destruct (Rlt_dec 0 dx); [|contradiction]. destruct (Rlt_dec (dx * dy) 0); [|contradiction]. cbn [rbind fst snd]. destruct (Rle_dec 0 dx); [|lra]. destruct (Rle_dec dy 0); [|lra]. cbn [negb].
    eexists. split; [reflexivity|]. split; [reflexivity|]. left. cbn. repeat split; assumption.
  - destruct (Rlt_dec 0 dx); [lra|]. destruct (Rlt_dec (dy * dx) 0) as [_|G]; [|exfalso; apply G; lra]. cbn [rbind fst snd]. destruct (Rle_dec 0 dy); [|lra]. destruct (Rle_dec dx 0); [|lra]. cbn [negb].
    eexists. split; [reflexivity|]. split; [reflexivity|]. right. cbn. repeat split; assumption.
Qed.
Lemma instr_implements es qs : Forall2 orient es qs -> Forall (fun e => tknx (fst (fst e)) <> tkny (fst (fst e)) /\ ((snd (fst e) = 0 /\ snd e = 0) \/ snd (fst e) * snd e < 0)) es ->
  forall k, exists l, instr k qs = Ret l /\ NoDup (map ti_cid l) /\
  (forall i, In i l -> exists n e, ti_cid i = (k + n)%nat /\ nth_error es n = Some e /\ instructs i e) /\
  (forall n c dx dy, nth_error es n = Some (c, dx, dy) -> dx <> 0 \/ dy <> 0 -> exists i, In i l /\ ti_cid i = (k + n)%nat).
Proof.
  intros F. induction F as [|[[c dx] dy] q es qs O F IH]; intros H k.
  - exists []. split; [reflexivity|]. split; [constructor|]. split; [intros i []|]. intros [|n] c dx dy E; discriminate.
  - inversion H as [|? ? (N & Z) H']; subst. cbn [fst snd] in N, Z. destruct (IH H' (S k)) as (l & E & D & I & C). destruct Z as [[-> ->]|Z].
    + exists l. split; [|split; [exact D|split]].
      * unfold orient in O. assert (R : req 0 0 = true) by (unfold req; destruct (Req_EM_T 0 0); [reflexivity|congruence]). destruct O as [->| ->]; cbn [instr]; rewrite R; exact E.
      * intros i Hi. destruct (I i Hi) as (n & e & A & B & G). exists (S n), e. split; [lia|]. split; assumption.
      * intros [|n] c' dx' dy' En Nz; [injection En as <- <- <-; destruct Nz; congruence|]. destruct (C n c' dx' dy' En Nz) as (i & Hi & Ei). exists i. split; [exact Hi|lia].
    + assert (Q : exists i, (forall r, instr (S k) qs = Ret r -> instr k (q :: qs) = Ret (i :: r)) /\ ti_cid i = k /\ instructs i (c, dx, dy)).
      { assert (R : forall v w, v * w < 0 -> negb (req v 0) || negb (req w 0) = true).
        { intros v w L. unfold req. destruct (Req_EM_T v 0) as [->|]; [rewrite Rmult_0_l in L; lra|reflexivity]. }
        unfold orient in O. destruct O as [->| ->]; cbn [instr].
        - rewrite (R dx dy Z). destruct (new_opposite k (tknx c) dx (tkny c) dy N Z) as (i & -> & Ei & Hi). exists i. split; [intros r ->; reflexivity|]. split; [exact Ei|exact Hi].
        - rewrite Rmult_comm in Z. rewrite (R dy dx Z). destruct (new_opposite k (tkny c) dy (tknx c) dx (not_eq_sym N) Z) as (i & -> & Ei & Hi). exists i. split; [intros r ->; reflexivity|]. split; [exact Ei|].
          cbn. destruct Hi as [Hi|Hi]; [right|left]; decompose [and] Hi; repeat split; assumption. }
      destruct Q as (i & Q1 & Q2 & Q3). exists (i :: l). split; [apply Q1, E|]. split; [|split].
      * cbn [map]. constructor; [|exact D]. intros G. apply in_map_iff in G as (j & Ej & Hj). destruct (I j Hj) as (n & e & A & _). lia.
      * intros j [<-|Hj]; [exists 0%nat, (c, dx, dy); split; [lia|]; split; [reflexivity|exact Q3]|]. destruct (I j Hj) as (n & e & A & B & G). exists (S n), e. split; [lia|]. split; assumption.
      * intros [|n] c' dx' dy' En Nz; [exists i; split; [left; reflexivity|lia]|]. destruct (C n c' dx' dy' En Nz) as (j & Hj & Ej). exists j. split; [right; exact Hj|lia].
Qed.

(** ** the marginal price optimizer *)
Lemma proper_distinct es : Forall proper (pools es) -> Forall (fun e => tknx (fst (fst e)) <> tkny (fst (fst e))) es.
Proof. intros H. apply Forall_forall. intros e He. rewrite Forall_forall in H. apply (H (fst (fst e))). unfold pools. apply in_map_iff. exists e. split; [reflexivity|exact He]. Qed.
Lemma margp_table name m cs target P best : Forall proper cs -> reports m cs target (m_p m) P best -> m_minimal m = false -> (exists c dx dy, In (c, dx, dy) best /\ (dx <> 0 \/ dy <> 0)) ->
  exists f total_row, m_instructions name m (Some "dfaggr"%string) = Ret (Frame f) /\ label_at f total_row = Some (Txt "TOTAL NET") /\ (forall n, (total_row < n)%nat -> label_at f n = None) /\
    (forall t, plain t -> (In t (f_cols f) -> cell_at f total_row t = Some (Amt (dget (m_dtokens m) t))) /\ (~ In t (f_cols f) -> dget (m_dtokens m) t = 0)) /\
    (plain target -> In target (f_cols f) -> cell_at f total_row target = Some (Amt (m_value m))).
Proof.
  intros H R N Z. destruct (OptProofs10.results_value m cs target P best H R N) as (_ & _ & _ & l & E & I). destruct R as (R1 & R2 & R3 & R4 & R5 & (P1 & P2 & P3 & P4) & R6 & R7 & R8 & R9 & R10).
  destruct (implements_table (fun i => match nth_error (m_curves m) i with Some c => tag_of name (tknx c) (tkny c) i | None => mkTag "" None end) l best) as (f & F & r & T1 & T2 & V); [apply proper_distinct; rewrite R6; exact H|exact I|exact Z|].
  exists f, r. split; [unfold m_instructions; rewrite E; exact F|]. split; [exact T1|]. split; [exact T2|]. split.
  - intros t Pt. rewrite R8. destruct (V t Pt) as [V1 V2]. split; [exact V1|]. intros G. apply V2, G.
  - intros Pt G. rewrite R10. apply V; assumption.
Qed.
Lemma margp_idle name m cs target P best fmt : Forall proper cs -> reports m cs target (m_p m) P best -> m_minimal m = false -> (forall c dx dy, In (c, dx, dy) best -> dx = 0 /\ dy = 0) ->
  String.prefix "df" fmt = true -> m_instructions name m (Some fmt) = Ret (Frame (mkFrame [] [])).
Proof.
  intros H R N Z F. destruct (OptProofs10.results_value m cs target P best H R N) as (_ & _ & _ & l & E & _ & I & _). unfold m_instructions. rewrite E. cbn [rbind].
  assert (l = []). { destruct l as [|i l]; [reflexivity|]. exfalso. destruct (I i (or_introl eq_refl)) as ([[c dx] dy] & E1 & E2). apply nth_error_In, Z in E1 as [-> ->]. cbn in E2. destruct E2 as [E2|E2]; decompose [and] E2; lra. }
  subst l. unfold to_format. destruct (String.eqb fmt "objects") eqn:E1; [apply String.eqb_eq in E1; subst fmt; discriminate|]. destruct (String.eqb fmt "dicts") eqn:E2; [apply String.eqb_eq in E2; subst fmt; discriminate|]. rewrite F. reflexivity.
Qed.

(** ** the convex optimizer *)
Lemma nofees_implements cs dx dy vx vy : scaled_value dx = Some vx -> scaled_value dy = Some vy -> List.length vx = List.length cs -> List.length vy = List.length cs ->
  Forall (fun c => tknx c <> tkny c) cs -> Forall2 (fun a b => (a = 0 /\ b = 0) \/ a * b < 0) vx vy ->
  exists l trades, nofees_instructions cs dx dy = Ret l /\ pools trades = cs /\ map (fun e => snd (fst e)) trades = vx /\ map snd trades = vy /\ implements l trades.
Proof.
  intros Ex Ey Lx Ly N Z. unfold nofees_instructions. rewrite Ex, Ey. set (es := zip3 cs vx vy).
  assert (S : pools es = cs /\ map (fun e => snd (fst e)) es = vx /\ map snd es = vy /\ Forall (fun e => tknx (fst (fst e)) <> tkny (fst (fst e)) /\ ((snd (fst e) = 0 /\ snd e = 0) \/ snd (fst e) * snd e < 0)) es).
  { unfold es. clear es Ex Ey. revert cs Lx Ly N. induction Z as [|a b vx vy Z0 Z IH]; intros [|c cs] Lx Ly N; try discriminate; [repeat split; constructor|]. injection Lx as Lx. injection Ly as Ly. inversion N; subst.
    destruct (IH cs Lx Ly) as (I1 & I2 & I3 & I4); [assumption|]. cbn [zip3 pools map fst snd]. unfold pools in I1. rewrite I1, I2, I3. repeat split. constructor; [|exact I4]. cbn [fst snd]. split; assumption. }
  destruct S as (S1 & S2 & S3 & S4). set (g := fun e : entry => let '(c, dx, dy) := e in (tknx c, dx, tkny c, dy)).
  assert (O : Forall2 orient es (map g es)). { clear. induction es as [|[[c a] b] es IH]; constructor; [left; reflexivity|exact IH]. }
  destruct (instr_implements es (map g es) O S4 0%nat) as (l & E & D & I & C). exists l, es. split; [|split; [exact S1|split; [exact S2|split; [exact S3|]]]].
  - rewrite <- E. apply (instr_eq g); intros n [[c a] b]; reflexivity.
  - split; [exact D|]. split; [|exact C]. intros i Hi. destruct (I i Hi) as (n & e & A & B & G). exists e. rewrite A. cbn [Nat.add]. split; assumption.
Qed.

(** ** the simple optimizer *)
Lemma simple_implements a b cs r : isprimary norm_cpc a b = true -> Forall proper cs -> Forall (on_pair a b) cs -> cs <> [] -> so_curves r = map wrap cs -> 0 < so_p r ->
  exists l trades, simple_instructions r = Ret l /\ pools trades = cs /\ all_allowed trades /\ dxdy_sum (so_curves r) (so_p r) = Ret (net trades a, net trades b) /\ implements l trades.
Proof.
  intros P H O N Ec Hp. destruct (OptProofs4.one_pair_ok a b cs P H O N) as (E & K & NE & D & T). set (p0 := so_p r) in *.
  assert (Q : forall c, In c cs -> pool_ok c /\ side_tknx (wrap c) = a /\ side_tkny (wrap c) = b).
  { intros c Hc. rewrite Forall_forall in H. split; [apply H, Hc|]. apply T. apply in_map, Hc. }
  destruct (OptProofs3.sum_attained p0 a b cs Hp D Q) as (S1 & S2 & S3 & S4). set (es := map (OptProofs3.marginal_trade p0) cs) in *.
  assert (V : dxdy_vec (map wrap cs) p0 = Ret (map (fun s => (OptProofs3.gx (OptProofs3.pool_of s) p0, OptProofs3.gy (OptProofs3.pool_of s) p0)) (map wrap cs))).
  { unfold dxdy_vec. apply rmap_value. intros s Hs. rewrite Forall_forall in K. apply OptProofs3.side_value; [apply K, Hs|exact Hp]. }
  unfold simple_instructions. rewrite Ec. fold p0. rewrite V. cbn [rbind]. destruct cs as [|c0 cs0]; [congruence|]. cbn [map]. set (cs := c0 :: cs0) in *.
  destruct (T (wrap c0)) as [-> ->]; [left; reflexivity|]. set (v := _ :: map _ _).
  set (g := fun e : R * R => (a, fst e, b, snd e)).
  assert (F : Forall2 orient es (map g v)).
  { change v with (map (fun s => (OptProofs3.gx (OptProofs3.pool_of s) p0, OptProofs3.gy (OptProofs3.pool_of s) p0)) (map wrap cs)). unfold es. clear - H O P. rewrite !map_map. clearbody cs.
    induction cs as [|c cs IH]; [constructor|]. inversion H; subst. inversion O; subst. cbn [map]. constructor; [|apply IH; assumption]. unfold g. cbn [fst snd].
    destruct (OptProofs4.oriented a b c P ltac:(assumption)) as (W1 & W2 & _). unfold OptProofs3.marginal_trade. destruct (wrap c) as [d|d] eqn:W.
    - assert (d = c) by (pose proof (OptProofs3.wrap_curve c) as G; rewrite W in G; exact G). subst d. cbn [OptProofs3.pool_of side_tknx side_tkny orient] in *. left. congruence.
    - assert (d = c) by (pose proof (OptProofs3.wrap_curve c) as G; rewrite W in G; exact G). subst d. cbn [OptProofs3.pool_of side_tknx side_tkny orient] in *. unfold inv_tknx, inv_tkny in *. right. congruence. }
  assert (G : Forall (fun e => tknx (fst (fst e)) <> tkny (fst (fst e)) /\ ((snd (fst e) = 0 /\ snd e = 0) \/ snd (fst e) * snd e < 0)) es).
  { apply Forall_forall. intros e He. assert (Hc : In (fst (fst e)) cs) by (rewrite <- S1; unfold pools; apply in_map_iff; exists e; split; [reflexivity|exact He]).
    rewrite Forall_forall in H. pose proof (H _ Hc) as (Pc & Nc & _). split; [exact Nc|]. unfold es in He. apply in_map_iff in He as (c & <- & Hc'). unfold OptProofs3.marginal_trade.
    assert (X : forall d, pool_ok d -> (OptProofs3.gx d p0 = 0 /\ OptProofs3.gy d p0 = 0) \/ OptProofs3.gx d p0 * OptProofs3.gy d p0 < 0).
    { intros d Hd. destruct (OptProofs2.trade_gain d p0 _ _ Hd Hp (OptProofs3.dxdy_value d p0 Hd Hp)) as (_ & _ & [X|[[X1 X2]|[X1 X2]]]); [left; exact X|right; nra|right; nra]. }
    pose proof (H c Hc') as (Pc' & _). destruct (wrap c); cbn [fst snd]; [apply X, Pc'|]. destruct (CpcProofs3.mirror_ok c Pc') as (Pm & _). destruct (X _ Pm) as [[X1 X2]|X1]; [left; split; assumption|right; rewrite Rmult_comm; exact X1]. }
  destruct (instr_implements es (map g v) F G 0%nat) as (l & L1 & L2 & L3 & L4). exists l, es. split; [|split; [exact S1|split; [exact S2|split]]].
  - rewrite <- L1. apply (instr_eq g); intros n [u w]; reflexivity.
  - rewrite S3, S4. change (wrap c0 :: map wrap cs0) with (map wrap cs). apply OptProofs3.sum_value; assumption.
  - split; [exact L2|]. split; [|exact L4]. intros i Hi. destruct (L3 i Hi) as (n & e & A & B & C). exists e. rewrite A. cbn [Nat.add]. split; assumption.
Qed.
Lemma simple_table name a b cs r : isprimary norm_cpc a b = true -> Forall proper cs -> Forall (on_pair a b) cs -> cs <> [] -> so_curves r = map wrap cs -> 0 < so_p r -> plain a -> plain b ->
  exists dx dy out, dxdy_sum (so_curves r) (so_p r) = Ret (dx, dy) /\ so_instructions name r (Some "dfaggr"%string) = Ret (Frame out) /\
    (out = mkFrame [] [] \/ (In a (f_cols out) /\ In b (f_cols out) /\ exists n, label_at out n = Some (Txt "TOTAL NET") /\ cell_at out n a = Some (Amt dx) /\ cell_at out n b = Some (Amt dy))).
Proof.
  intros P H O N Ec Hp Pa Pb. destruct (simple_implements a b cs r P H O N Ec Hp) as (l & es & E & S & _ & V & M). exists (net es a), (net es b). unfold so_instructions. rewrite E. cbn [rbind]. set (info := fun i : nat => match nth_error (so_curves r) i with Some s => _ | None => _ end).
  assert (Dec : (exists c dx dy, In (c, dx, dy) es /\ (dx <> 0 \/ dy <> 0)) \/ l = []).
  { destruct l as [|i l]; [right; reflexivity|left]. destruct M as (_ & M & _). destruct (M i (or_introl eq_refl)) as ([[c dx] dy] & E1 & E2). exists c, dx, dy. split; [apply (nth_error_In _ _ E1)|]. cbn in E2. destruct E2 as [E2|E2]; decompose [and] E2; left; lra. }
  destruct Dec as [Z| ->]; [|exists (mkFrame [] []); split; [exact V|]; split; [reflexivity|left; reflexivity]].
  destruct (implements_table info l es) as (f & F & n & T1 & T2 & W); [apply proper_distinct; rewrite S; exact H|exact M|exact Z|]. exists f. split; [exact V|]. split; [exact F|]. right.
  destruct Z as (c & dx & dy & Hc & Z). assert (Oc : on_pair a b c). { rewrite Forall_forall in O. apply O. rewrite <- S. unfold pools. apply in_map_iff. exists (c, dx, dy). split; [reflexivity|exact Hc]. }
  assert (A : forall t, t = a \/ t = b -> plain t -> In t (f_cols f)).
  { intros t Ht Pt. destruct (in_dec string_dec t (f_cols f)) as [I|I]; [exact I|]. exfalso. destruct (W t Pt) as [_ W2]. destruct (W2 I) as [_ W3]. destruct (W3 c dx dy Hc Z) as [X1 X2]. destruct Oc as [[A1 A2]|[A1 A2]], Ht; subst t; congruence. }
  split; [apply A; auto|]. split; [apply A; auto|]. exists n. split; [exact T1|]. split; apply W; auto.
Qed.
