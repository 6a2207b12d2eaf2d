(** The alpha router by source amount. *)
From Coq Require Import Reals Lra Lia Bool List Arith Permutation.
From Verif Require Import CurveModel CurveSpec CurveProofs OrderModel OrderProofs ExactModel ExactSpec ExactProofs ExactProofs2 ExactProofs3 ExactProofs4 ExactProofs5 ExactProofs6 ExactProofs7 AlphaModel AlphaSpec AlphaProofs AlphaProofs2.
Import ListNotations.
Local Open Scope R_scope.

Lemma view_worth o x A : tradable o -> view o = Ret x -> 0 < A ->
  exists h, hyp_source o A = Ret h /\ 0 < h /\ (xo_y x < h <-> payment x (xo_y x) < A) /\ xo_x0 x / xo_y0 x = / sqrt (o_plow o * o_phigh o) /\ xo_x0 x / xo_y0 x * xo_y x <= payment x (xo_y x) /\ (xo_y x < o_yint o -> 0 < xo_y x -> xo_x0 x / xo_y0 x * xo_y x < payment x (xo_y x)).
Proof.
  intros (H & Ha & EB & ES & Hz & Hy) Ev HA. destruct (view_sane o H Ha (proj1 Hy)) as (x' & Ex' & Sx & Ey). rewrite Ex' in Ev. injection Ev as ->.
  assert (Ez : zmax o = o_yint o) by (unfold zmax; rewrite rlt_false by lra; reflexivity).
  assert (Hp : payment x (o_y o) = cost (seen true o) (o_y o) (o_y o)).
  { apply (view_curve true o x (o_y o) H Ha Ex'); apply Rgt_not_eq; apply rate_pos; unfold valid, seen; cbn; rewrite ?Ez; try lra;
    assert (0 < sqrt (o_plow o) < sqrt (o_phigh o)) by (split; [apply sqrt_lt_R0; lra|apply sqrt_lt_1; lra]); repeat split; lra. }
  destruct (view_value o H Ha) as (s & T & Hs & HT & El & Eh & E'). rewrite E' in Ex'. assert (HE : forall a b : xorder, Ret a = Ret b -> a = b) by congruence. apply HE in Ex'.
  assert (Eg : xo_x0 x / xo_y0 x = / (s ^ 2 * T * T)) by (rewrite <- Ex'; cbn [xo_x0 xo_y0]; rewrite Ez; field; repeat split; lra).
  assert (Hs2 : 0 < s ^ 2 < 1) by (split; [apply pow_lt; lra|]; replace 1 with (1 * 1) by ring; replace (s ^ 2) with (s * s) by ring; apply Rmult_le_0_lt_compat; lra).
  rewrite Ey, Hp, Eg. unfold hyp_source, cost, rate, seen. cbn [c_B c_S c_yint]. rewrite EB, ES, Ez, El, Eh.
  set (B := s ^ 2 * T). assert (HB : 0 < B < T) by (unfold B; split; [apply Rmult_lt_0_compat; lra|]; replace T with (1 * T) at 2 by ring; apply Rmult_lt_compat_r; lra).
  set (W := T - B). assert (HW : 0 < W) by (unfold W; lra). set (y := o_y o) in *. set (z := o_yint o) in *.
  assert (Er : o_plow o * o_phigh o = (B * T) * (B * T)). { unfold B. rewrite <- El, <- Eh. replace (o_plow o * o_phigh o) with ((sqrt (o_plow o) * sqrt (o_plow o)) * (sqrt (o_phigh o) * sqrt (o_phigh o))) by (rewrite !sqrt_sqrt by lra; reflexivity). ring. }
  assert (HBT : 0 < B * T) by (apply Rmult_lt_0_compat; lra).
  rewrite Er, sqrt_square by lra.
  replace (B + W * ((y - y) / z)) with B by (field; lra).
  set (r := B + W * (y / z)). assert (Hyz : 0 <= y / z <= 1).
  { split; [apply Rmult_le_pos; [lra|left; apply Rinv_0_lt_compat; lra]|]. apply (Rmult_le_reg_r z); [lra|]. replace (y / z * z) with y by (field; lra). lra. }
  assert (HrT : B <= r <= T). { unfold r, W. split; [pose proof (Rmult_le_pos (T - B) (y / z)); lra|]. assert ((T - B) * (y / z) <= (T - B) * 1) by (apply Rmult_le_compat_l; lra). lra. }
  assert (Hr : 0 < r) by lra. replace (W * y + B * z) with (r * z) by (unfold r; field; lra).
  assert (HrB : 0 < r * B) by (apply Rmult_lt_0_compat; lra).
  assert (Ery : r * z - W * y = B * z) by (unfold r; field; lra).
  assert (HrTs : y < z -> r < T). { intros L. unfold r, W. assert (y / z < 1) by (apply (Rmult_lt_reg_r z); [lra|]; replace (y / z * z) with y by (field; lra); lra). assert ((T - B) * (y / z) < (T - B) * 1) by (apply Rmult_lt_compat_l; lra). lra. }
  clearbody r W. clear HE E' Eg Hp Ez El Eh Er.
  assert (HWA : 0 < W * A) by (apply Rmult_lt_0_compat; lra). assert (Hrz : 0 < r * z) by (apply Rmult_lt_0_compat; lra).
  assert (0 < W * A * (r * z)) by (apply Rmult_lt_0_compat; lra). assert (Hz2 : 0 < z ^ 2) by (apply pow_lt; lra).
  exists (A * (r * z) ^ 2 / (W * A * (r * z) + z ^ 2)). split; [apply rdiv_ok; lra|].
  assert (Hden : 0 < W * A * (r * z) + z ^ 2) by lra.
  split; [apply Rdiv_lt_0_compat; [apply Rmult_lt_0_compat; [lra|apply pow_lt; assumption]|assumption]|].
  assert (Hkey : A * (r * z) ^ 2 - y * (W * A * (r * z) + z ^ 2) = z ^ 2 * (A * (r * B) - y)). { replace (A * (r * z) ^ 2 - y * (W * A * (r * z) + z ^ 2)) with (A * (r * z) * (r * z - W * y) - y * z ^ 2) by ring. rewrite Ery. ring. }
  split; [split; intros L|].
  - apply (Rmult_lt_reg_r (r * B)); [assumption|]. replace (y / (r * B) * (r * B)) with y by (field; split; lra).
    assert (L' : y * (W * A * (r * z) + z ^ 2) < A * (r * z) ^ 2). { apply (Rmult_lt_compat_r (W * A * (r * z) + z ^ 2)) in L; [|assumption]. replace (A * (r * z) ^ 2 / (W * A * (r * z) + z ^ 2) * (W * A * (r * z) + z ^ 2)) with (A * (r * z) ^ 2) in L by (field; lra). assumption. }
    assert (Hp : 0 < z ^ 2 * (A * (r * B) - y)) by lra. apply Rnot_le_lt. intro Hc. assert (z ^ 2 * (A * (r * B) - y) <= z ^ 2 * 0) by (apply Rmult_le_compat_l; lra). lra.
  - apply (Rmult_lt_reg_r (W * A * (r * z) + z ^ 2)); [assumption|]. replace (A * (r * z) ^ 2 / (W * A * (r * z) + z ^ 2) * (W * A * (r * z) + z ^ 2)) with (A * (r * z) ^ 2) by (field; lra).
    assert (L' : y < A * (r * B)). { apply (Rmult_lt_compat_r (r * B)) in L; [|assumption]. replace (y / (r * B) * (r * B)) with y in L by (field; split; lra). assumption. }
    assert (0 < z ^ 2 * (A * (r * B) - y)) by (apply Rmult_lt_0_compat; lra). lra.
  - split; [reflexivity|]. split.
    + replace (y / (r * B)) with (/ (r * B) * y) by (field; split; lra). apply Rmult_le_compat_r; [lra|]. apply Rinv_le_contravar; [assumption|]. rewrite (Rmult_comm r B). apply Rmult_le_compat_l; lra.
    + intros L Hy0. specialize (HrTs L). replace (y / (r * B)) with (/ (r * B) * y) by (field; split; lra). apply Rmult_lt_compat_r; [assumption|]. apply Rinv_lt_contravar; [apply Rmult_lt_0_compat; assumption|]. rewrite (Rmult_comm r B). apply Rmult_lt_compat_l; lra.
Qed.
Lemma worth_bounds ords os A i : (forall o, In o ords -> tradable o) -> rmap view ords = Ret os -> 0 < A -> (i < length os)%nat -> 0 <= worth os A i <= absorbs os i /\ worth os A i <= A.
Proof.
  intros T E HA Hi. destruct (book_sane ords os T E) as [L H]. destruct (H i Hi) as (o & Eo & To & Ev & Sx & Ey). destruct (view_worth o (getx os i) A To Ev HA) as (h & _ & _ & _ & _ & Hg & _).
  unfold worth. fold (getx os i). assert (Ea : absorbs os i = payment (getx os i) (xo_y (getx os i))) by reflexivity. destruct Sx as (_ & H1 & H2 & H3).
  assert (Hq : 0 < xo_x0 (getx os i) / xo_y0 (getx os i)) by (apply Rdiv_lt_0_compat; assumption).
  destruct (Rlt_dec (absorbs os i) A) as [Hl|Hl]; [|lra]. split; [split; [apply Rmult_le_pos; lra|rewrite Ea; assumption]|lra].
Qed.
Lemma source_values ords os A : (forall o, In o ords -> tradable o) -> rmap view ords = Ret os -> 0 < A ->
  exists hs vs, rmap (fun o => hyp_source o A) ords = Ret hs /\ rmap (fun i => available_value (getx os i) (nth i hs 0) A) (indexes os) = Ret vs /\ forall i, (i < length os)%nat -> nth i vs 0 = worth os A i.
Proof.
  intros T E HA. destruct (book_sane ords os T E) as [L H].
  destruct (rmap_total (fun o => hyp_source o A) ords) as (hs & Eh).
  { intros o Ho. apply In_nth_error in Ho. destruct Ho as (i & Hi). assert (Hl : (i < length ords)%nat) by (apply nth_error_Some; congruence). rewrite <- L in Hl.
    destruct (H i Hl) as (o' & Eo & To & Ev & _). assert (o' = o) by congruence. subst o'. destruct (view_worth o (getx os i) A To Ev HA) as (h & Hh & _). exists h. assumption. }
  assert (Hh : forall i, (i < length os)%nat -> 0 < nth i hs 0 /\ (xo_y (getx os i) < nth i hs 0 <-> absorbs os i < A)).
  { intros i Hi. destruct (H i Hi) as (o & Eo & To & Ev & _). destruct (view_worth o (getx os i) A To Ev HA) as (h & Ehh & Hp & Hiff & _).
    assert (nth i hs 0 = h); [|subst h; split; assumption]. apply rmap_inv in Eh. clear - Eh Eo Ehh. revert i Eo. induction Eh as [|a b l l' Eb _ IH]; intros [|i] Eo; cbn in Eo; try discriminate; [injection Eo as ->; cbn; congruence|cbn; apply IH; assumption]. }
  assert (Hv : forall i, (i < length os)%nat -> available_value (getx os i) (nth i hs 0) A = Ret (worth os A i)).
  { intros i Hi. destruct (Hh i Hi) as [Hp Hiff]. destruct (H i Hi) as (o & _ & _ & _ & (_ & _ & Hy0 & _) & _). unfold available_value, worth. fold (getx os i). destruct (Rlt_dec (absorbs os i) A) as [Hl|Hl].
    - rewrite rlt_true by (apply Hiff; assumption). rewrite rdiv_ok by lra. reflexivity.
    - rewrite rlt_false by (apply Rnot_lt_le; rewrite Hiff; assumption). rewrite rdiv_ok by lra. cbn [rbind]. f_equal. field. lra. }
  exists hs, (map (worth os A) (indexes os)). split; [assumption|]. split.
  - assert (HI : forall i, In i (indexes os) -> (i < length os)%nat) by (intros i Hi; apply in_seq in Hi; lia). revert HI. generalize (indexes os). induction l as [|i l IH]; intros HI; [reflexivity|]. cbn [rmap]. rewrite Hv by (apply HI; left; reflexivity). cbn [rbind]. rewrite IH by (intros; apply HI; right; assumption). reflexivity.
  - intros i Hi. rewrite (nth_map_total (worth os A) (indexes os) O) by (unfold indexes; rewrite seq_length; assumption). unfold indexes. rewrite seq_nth by assumption. reflexivity.
Qed.
Lemma alpha_source_route fuel infuel rank ords os A check k sp : (forall o, In o ords -> tradable o) -> ords <> [] -> rmap view ords = Ret os -> (forall f l, Permutation (rank f l) l) -> (1 <= k)%nat -> 0 < A ->
  let T := total (worth os A) (seq 0 (length os)) in
  let A' := if sp && rlt T A then T - dust else A in 0 < A' ->
  exists level, alpha_by_source fuel infuel rank ords A check (Some k) sp = exact_match fuel infuel os A' false check level sp /\ choice (length os) k level /\ level <> [] /\
    ((A' <= total (worth os A) level /\ exists l, choice (length os) k l /\ A' <= total (worth os A) l) \/ ((forall l, choice (length os) k l -> total (worth os A) l <= total (worth os A) level) /\ total (worth os A) level < A')).
Proof.
  intros T Hne E P Hk HA Tt A' HA'. destruct (book_sane ords os T E) as [L H].
  assert (Hlen : (1 <= length os)%nat) by (rewrite L; destruct ords; [congruence|cbn; lia]).
  destruct (source_values ords os A T E HA) as (hs & vs & Eh & Ev & Hv).
  unfold alpha_by_source. rewrite E. cbn [rbind]. rewrite Eh. cbn [rbind]. rewrite Ev. cbn [rbind]. set (ranked := rank (fun i => nth i hs 0) (indexes os)).
  assert (Pr : Permutation ranked (seq 0 (length os))) by apply P.
  assert (Hpos : forall i, (i < length os)%nat -> 0 <= worth os A i) by (intros i Hi; apply (worth_bounds ords); assumption).
  destruct (chosen (length os) k ranked (worth os A) A' Hlen Hk Pr Hpos) as (level & (ps & Es & El) & C & Hl & Hd).
  exists level. split; [|repeat split; try assumption; apply C].
  assert (Em : map (fun i => nth i vs 0) ranked = map (worth os A) ranked). { apply map_ext_in. intros i Hi. apply Hv. assert (Hin : In i (seq 0 (length os))) by (rewrite <- Pr; assumption). apply in_seq in Hin. lia. }
  rewrite Em. rewrite (total_seq (worth os A) ranked (length os) Pr). fold Tt.
  assert (Ex : clamp_request sp Tt A = A'). { unfold clamp_request, A'. rewrite Rabs_right by lra. destruct (sp && rlt Tt A); [|reflexivity]. rewrite (rlt_false A) by lra. reflexivity. }
  rewrite Ex. unfold route. rewrite Rabs_right by lra. rewrite Es, El. reflexivity.
Qed.
(** what happens next depends on what the chosen orders can absorb *)
Lemma level_outcome fuel infuel os level A check sp : (forall i, (i < length os)%nat -> sane (getx os i)) -> level <> [] -> NoDup level -> (forall i, In i level -> (i < length os)%nat) -> (length os < fuel)%nat -> (length os + 1 < infuel)%nat -> 0 < A ->
  (exists i, In i level /\ balance os i <> 0) -> total (absorbs os) level < A ->
  (sp = false -> exact_match fuel infuel os A false check level sp = Some (Raise AssertionError)) /\
  (sp = true -> exists acts, exact_match fuel infuel os A false check level sp = Some (Ret acts) /\ forall i, In i level -> balance os i <> 0 -> exists a, In a acts /\ ac_index a = i /\ ac_output a = - balance os i).
Proof.
  intros Hs Hne N V Hf Hi HA (i0 & Hi0 & Hb0) Hlt.
  assert (Hex : exists i, usable os level i) by (exists i0; apply chosen_usable; [assumption|]; split; [apply V; assumption|]; split; assumption).
  assert (Hs' : forall i, usable os level i -> sane (nth i os (mkX 0 0 0 0))) by (intros i (Hi' & _); apply Hs; assumption).
  assert (Hinf : forall l t, NoDup l -> (forall i, In i l -> usable os level i /\ 0 <= t i <= xo_y (nth i os (mkX 0 0 0 0))) -> total (fun i => payment (nth i os (mkX 0 0 0 0)) (t i)) l < A).
  { intros l t Nl U. apply Rle_lt_trans with (total (absorbs os) level); [|assumption]. apply Rle_trans with (total (absorbs os) l).
    - apply total_le. intros i Hi'. destruct (U i Hi') as [Hu Ht]. unfold absorbs, balance. apply payment_mono; [apply Hs'; assumption|apply Ht|lra].
    - apply total_incl_le; [assumption| |].
      + intros i Hi'. destruct (U i Hi') as [Hu _]. apply chosen_usable in Hu; [tauto|assumption].
      + intros i Hi'. specialize (Hs i (V i Hi')). unfold absorbs, balance. fold (getx os i). pose proof Hs as (_ & _ & _ & Hy). apply Rle_trans with (payment (getx os i) 0); [rewrite payment_zero; lra|]. apply payment_mono; [exact Hs|lra|lra]. }
  split; intros ->.
  - apply src_rejected; assumption.
  - destruct (partial_fill false fuel infuel os level A check) as (acts & Em & Hdr); try assumption; [intros; discriminate| |].
    + intros l t Nl U. unfold serves. rewrite (total_ext _ (fun i => payment (nth i os (mkX 0 0 0 0)) (t i))) by (intros; rewrite Ropp_involutive; reflexivity). apply Hinf; assumption.
    + exists acts. split; [exact Em|]. intros i Hi' Hb. apply Hdr. apply chosen_usable; [assumption|]. split; [apply V; assumption|]. split; assumption.
Qed.

Lemma worth_total ords os A l : (forall o, In o ords -> tradable o) -> rmap view ords = Ret os -> 0 < A -> (forall i, In i l -> (i < length os)%nat) -> total (worth os A) l <= total (absorbs os) l.
Proof. intros T E HA V. apply total_le. intros i Hi. apply (worth_bounds ords); try assumption. apply V. assumption. Qed.
(** if k orders are worth the request, it is served exactly and as well as the chosen orders allow *)
Lemma alpha_source_served fuel infuel rank ords os A check k sp : (forall o, In o ords -> tradable o) -> rmap view ords = Ret os -> (forall f l, Permutation (rank f l) l) -> (1 <= k)%nat -> (length os < fuel)%nat -> (length os + 1 < infuel)%nat -> 0 < A ->
  (exists l, choice (length os) k l /\ A <= total (worth os A) l) ->
  exists level acts, choice (length os) k level /\ alpha_by_source fuel infuel rank ords A check (Some k) sp = Some (Ret acts) /\ served_source os level A acts.
Proof.
  intros T E P Hk Hf Hi HA (l & C & HT). destruct (book_sane ords os T E) as [L H].
  assert (Hpos : forall i, (i < length os)%nat -> 0 <= worth os A i) by (intros i Hi'; apply (worth_bounds ords); assumption).
  assert (Hne : ords <> []). { intros ->. destruct l as [|i l]; [unfold total in HT; cbn in HT; lra|]. destruct C as (_ & V & _). specialize (V i (or_introl eq_refl)). cbn in L. lia. }
  pose proof (choice_total (worth os A) _ k l Hpos C) as Hall.
  destruct (alpha_source_route fuel infuel rank ords os A check k sp T Hne E P Hk HA) as (level & Ea & Cl & Hl & Hd).
  { rewrite (rlt_false _ A) by lra. rewrite andb_false_r. assumption. }
  rewrite (rlt_false _ A) in Ea, Hd by lra. rewrite andb_false_r in Ea, Hd.
  assert (HTl : A <= total (worth os A) level). { destruct Hd as [[Hd _]|[Hd Hlt]]; [assumption|]. specialize (Hd l C). lra. }
  pose proof (worth_total ords os A level T E HA (proj1 (proj2 Cl))) as Hw.
  destruct (level_served_source fuel infuel os level A check sp) as (acts & Em & Hserved); try assumption; [|apply Cl|apply Cl|lra|].
  { intros i Hi'. destruct (H i Hi') as (o & _ & _ & _ & Hs & _). exact Hs. }
  exists level, acts. split; [assumption|]. split; [rewrite Ea; assumption|assumption].
Qed.
(** otherwise *)
Lemma level_nonzero (f g : nat -> R) n k level : (1 <= k)%nat -> (forall i, (i < n)%nat -> 0 <= f i) -> (forall i, (i < n)%nat -> g i = 0 -> f i = 0) -> (forall l, choice n k l -> total f l <= total f level) -> choice n k level -> (exists i, (i < n)%nat /\ f i <> 0) ->
  exists i, In i level /\ g i <> 0.
Proof.
  intros Hk Hpos Hg Hbest C (i & Hi & Hf). destruct (Exists_dec (fun i => g i <> 0) level) as [Hex|Hex]; [intros j; destruct (Req_EM_T (g j) 0); [right|left]; tauto|apply Exists_exists in Hex; exact Hex|].
  exfalso. assert (E0 : total f level = 0). { apply total_const0. intros j Hj. apply Hg; [apply C; assumption|]. destruct (Req_EM_T (g j) 0); [assumption|]. exfalso. apply Hex. apply Exists_exists. exists j. split; assumption. }
  assert (C1 : choice n k [i]) by (split; [repeat constructor; intros []|]; split; [intros j [<-|[]]; assumption|cbn; lia]). specialize (Hbest _ C1). rewrite total_cons in Hbest. change (total f []) with 0 in Hbest. specialize (Hpos i Hi). lra.
Qed.
Lemma worth_zero ords os A i : (forall o, In o ords -> tradable o) -> rmap view ords = Ret os -> 0 < A -> (i < length os)%nat -> balance os i = 0 <-> worth os A i = 0.
Proof.
  intros T E HA Hi. destruct (book_sane ords os T E) as [L H]. destruct (H i Hi) as (o & _ & _ & _ & (_ & H1 & H2 & H3) & _).
  unfold worth. fold (getx os i). assert (Ea : absorbs os i = payment (getx os i) (xo_y (getx os i))) by reflexivity. change (balance os i) with (xo_y (getx os i)).
  assert (Hq : 0 < xo_x0 (getx os i) / xo_y0 (getx os i)) by (apply Rdiv_lt_0_compat; assumption). split; intros E0.
  - destruct (Rlt_dec (absorbs os i) A) as [Hl|Hl]; [rewrite E0; ring|]. exfalso. apply Hl. rewrite Ea, E0, payment_zero. assumption.
  - destruct (Rlt_dec (absorbs os i) A) as [Hl|Hl]; [|lra]. apply Rmult_integral in E0. destruct E0; [lra|assumption].
Qed.
Lemma alpha_source_short fuel infuel rank ords os A check k : (forall o, In o ords -> tradable o) -> rmap view ords = Ret os -> (forall f l, Permutation (rank f l) l) -> (1 <= k)%nat -> (length os < fuel)%nat -> (length os + 1 < infuel)%nat -> 0 < A ->
  (exists i, (i < length os)%nat /\ balance os i <> 0) -> (forall l, choice (length os) k l -> total (worth os A) l < A) ->
  exists level, choice (length os) k level /\ (forall l, choice (length os) k l -> total (worth os A) l <= total (worth os A) level) /\
    (total (absorbs os) level < A -> alpha_by_source fuel infuel rank ords A check (Some k) false = Some (Raise AssertionError)) /\
    (A <= total (absorbs os) level -> exists acts, alpha_by_source fuel infuel rank ords A check (Some k) false = Some (Ret acts) /\ served_source os level A acts).
Proof.
  intros T E P Hk Hf Hi HA (i0 & Hi0 & Hb0) Hno. destruct (book_sane ords os T E) as [L H].
  assert (Hs : forall i, (i < length os)%nat -> sane (getx os i)) by (intros i Hi'; destruct (H i Hi') as (o & _ & _ & _ & Hs & _); exact Hs).
  assert (Hne : ords <> []) by (intros ->; cbn in L; lia).
  assert (Hpos : forall i, (i < length os)%nat -> 0 <= worth os A i) by (intros i Hi'; apply (worth_bounds ords); assumption).
  destruct (alpha_source_route fuel infuel rank ords os A check k false T Hne E P Hk HA HA) as (level & Ea & Cl & Hl & Hd). cbn [andb] in Ea, Hd.
  destruct Hd as [[_ (l0 & C0 & H0)]|[Hbest Hlt]]; [exfalso; specialize (Hno l0 C0); lra|].
  exists level. split; [assumption|]. split; [assumption|]. rewrite Ea. split; intros Habs.
  - apply (level_outcome fuel infuel os level A check false); try assumption; try apply Cl; [|reflexivity].
    apply (level_nonzero (worth os A) (balance os) (length os) k); try assumption.
    + intros i Hi' Hb. apply (worth_zero ords); assumption.
    + exists i0. split; [assumption|]. rewrite <- (worth_zero ords) by assumption. assumption.
  - apply level_served_source; try assumption; apply Cl.
Qed.
(** with partial support the request is cut to what the orders are worth, not to what they can absorb *)
Lemma alpha_source_partial fuel infuel rank ords os A check k : (forall o, In o ords -> tradable o) -> rmap view ords = Ret os -> (forall f l, Permutation (rank f l) l) -> (1 <= k)%nat -> (length os < fuel)%nat -> (length os + 1 < infuel)%nat -> 0 < A ->
  let T := total (worth os A) (seq 0 (length os)) in
  / 10 ^ 10 < T -> T < A ->
  exists level acts, choice (length os) k level /\ alpha_by_source fuel infuel rank ords A check (Some k) true = Some (Ret acts) /\
    (T - / 10 ^ 10 <= total (absorbs os) level -> served_source os level (T - / 10 ^ 10) acts) /\
    (total (absorbs os) level < T - / 10 ^ 10 -> (forall l, choice (length os) k l -> total (worth os A) l <= total (worth os A) level) /\
       forall i, In i level -> balance os i <> 0 -> exists a, In a acts /\ ac_index a = i /\ ac_output a = - balance os i) /\
    ((length os <= k)%nat -> T - / 10 ^ 10 <= total (absorbs os) level).
Proof.
  intros T E P Hk Hf Hi HA Tt Hdust Hlt. destruct (book_sane ords os T E) as [L H].
  assert (Hd10 : 0 < / 10 ^ 10) by (apply Rinv_0_lt_compat; apply pow_lt; lra).
  assert (Hs : forall i, (i < length os)%nat -> sane (getx os i)) by (intros i Hi'; destruct (H i Hi') as (o & _ & _ & _ & Hs & _); exact Hs).
  assert (Hpos : forall i, (i < length os)%nat -> 0 <= worth os A i) by (intros i Hi'; apply (worth_bounds ords); assumption).
  assert (Hne : ords <> []). { intros ->. unfold Tt in Hdust. rewrite L in Hdust. cbn [length seq] in Hdust. change (total (worth os A) []) with 0 in Hdust. lra. }
  assert (Hnz : exists i, (i < length os)%nat /\ worth os A i <> 0).
  { destruct (Exists_dec (fun i => worth os A i <> 0) (seq 0 (length os))) as [Hex|Hex]; [intros j; destruct (Req_EM_T (worth os A j) 0); [right|left]; tauto| |].
    - apply Exists_exists in Hex. destruct Hex as (i & Hi1 & Hi2). exists i. apply in_seq in Hi1. split; [lia|assumption].
    - exfalso. assert (Tt = 0); [|lra]. apply total_const0. intros j Hj. destruct (Req_EM_T (worth os A j) 0); [assumption|]. exfalso. apply Hex. apply Exists_exists. exists j. split; assumption. }
  destruct (alpha_source_route fuel infuel rank ords os A check k true T Hne E P Hk HA) as (level & Ea & Cl & Hl & Hd); [fold Tt; rewrite rlt_true by assumption; cbn [andb]; change dust with (/ 10 ^ 10); lra|].
  fold Tt in Ea, Hd. rewrite rlt_true in Ea, Hd by assumption. cbn [andb] in Ea, Hd. change dust with (/ 10 ^ 10) in Ea, Hd.
  pose proof (worth_total ords os A level T E HA (proj1 (proj2 Cl))) as Hw.
  assert (Hall : (length os <= k)%nat -> Tt - / 10 ^ 10 <= total (absorbs os) level).
  { intros Hle. destruct Hd as [[Hd _]|[Hd Hl']]; [lra|]. assert (C : choice (length os) k (seq 0 (length os))) by (split; [apply seq_NoDup|]; split; [intros i Hi'; apply in_seq in Hi'; lia|rewrite seq_length; assumption]). specialize (Hd _ C). fold Tt in Hd. lra. }
  destruct (Rle_dec (Tt - / 10 ^ 10) (total (absorbs os) level)) as [Habs|Habs].
  - destruct (level_served_source fuel infuel os level (Tt - / 10 ^ 10) check true) as (acts & Em & Hserved); try assumption; [apply Cl|apply Cl|lra|].
    exists level, acts. split; [assumption|]. split; [rewrite Ea; assumption|]. split; [intros _; assumption|]. split; [intros; lra|assumption].
  - apply Rnot_le_lt in Habs. destruct Hd as [[Hd _]|[Hbest Hl']]; [lra|].
    destruct (level_outcome fuel infuel os level (Tt - / 10 ^ 10) check true) as [_ Ho]; try assumption; try apply Cl; [lra| |].
    { apply (level_nonzero (worth os A) (balance os) (length os) k); try assumption. intros i Hi' Hb. apply (worth_zero ords); assumption. }
    destruct (Ho eq_refl) as (acts & Em & Hdr). exists level, acts. split; [assumption|]. split; [rewrite Ea; assumption|]. split; [intros; lra|]. split; [intros _; split; assumption|assumption].
Qed.

(** ** the value of an order in terms of its prices *)
Lemma absorbs_value ords os i o : (forall o, In o ords -> tradable o) -> rmap view ords = Ret os -> nth_error ords i = Some o ->
  balance os i = o_y o /\ absorbs os i = o_y o / ((sqrt (o_plow o) + (sqrt (o_phigh o) - sqrt (o_plow o)) * (o_y o / o_yint o)) * sqrt (o_plow o)) /\
  forall A, 0 < A -> worth os A i = if Rlt_dec (absorbs os i) A then o_y o / sqrt (o_plow o * o_phigh o) else A.
Proof.
  intros T E Eo. destruct (book_sane ords os T E) as [L H]. assert (Hi : (i < length os)%nat) by (rewrite L; apply nth_error_Some; congruence).
  destruct (H i Hi) as (o' & Eo' & To & Ev & Sx & Ey). assert (o' = o) by congruence. subst o'. split; [exact Ey|]. split.
  - destruct To as (Hp & Ha & EB & ES & Hz & Hy). assert (Ez : zmax o = o_yint o) by (unfold zmax; rewrite rlt_false by lra; reflexivity).
    unfold absorbs, balance. fold (getx os i). rewrite Ey.
    destruct (view_curve true o (getx os i) (o_y o) Hp Ha Ev) as [_ ->]; try (apply Rgt_not_eq; apply rate_pos; unfold valid, seen; cbn; rewrite ?Ez; try lra;
    assert (0 < sqrt (o_plow o) < sqrt (o_phigh o)) by (split; [apply sqrt_lt_R0; lra|apply sqrt_lt_1; lra]); repeat split; lra).
    unfold cost, rate, seen. cbn [c_B c_S c_yint]. rewrite Ez. f_equal. f_equal. field. lra.
  - intros A HA. destruct (view_worth o (getx os i) A To Ev HA) as (_ & _ & _ & _ & Hg & _). unfold worth. fold (getx os i). rewrite Hg, Ey. unfold Rdiv. rewrite Rmult_comm. reflexivity.
Qed.
(** ** a request that two orders can absorb but the router, restricted to two orders, rejects *)
Definition an_order (l h z y : R) : order := mkOrder (Some (sqrt l)) (Some (sqrt h - sqrt l)) z h l y false.
Definition three_orders : list order := [an_order 1 4 10 10; an_order 1 4 10 10; an_order 1 100 100 40].
Lemma three_tradable o : In o three_orders -> tradable o.
Proof. intros [<-|[<-|[<-|[]]]]; unfold tradable, an_order; cbn [o_plow o_phigh o_adj o_B o_S o_yint o_y]; repeat split; lra. Qed.
Lemma three_os : exists os, rmap view three_orders = Ret os /\ length os = 3%nat /\ absorbs os 0 = 5 /\ absorbs os 1 = 5 /\ absorbs os 2 = 200 / 23 /\ worth os 13 0 = 5 /\ worth os 13 1 = 5 /\ worth os 13 2 = 4 /\ balance os 0 = 10.
Proof.
  destruct (rmap_total view three_orders) as (os & E).
  { intros o Ho. pose proof (three_tradable o Ho) as (H1 & H2 & _ & _ & _ & H3 & _). destruct (view_sane o H1 H2 H3) as (x & Ex & _). exists x. assumption. }
  exists os. split; [assumption|]. destruct (book_sane three_orders os three_tradable E) as [L _]. split; [exact L|].
  destruct (absorbs_value three_orders os 0 _ three_tradable E eq_refl) as (B0 & A0 & W0). destruct (absorbs_value three_orders os 1 _ three_tradable E eq_refl) as (B1 & A1 & W1). destruct (absorbs_value three_orders os 2 _ three_tradable E eq_refl) as (B2 & A2 & W2).
  cbn [an_order o_plow o_phigh o_y o_yint] in *. specialize (W0 13 ltac:(lra)). specialize (W1 13 ltac:(lra)). specialize (W2 13 ltac:(lra)).
  replace (1 * 4) with (2 * 2) in W0, W1 by ring. replace (1 * 100) with (10 * 10) in W2 by ring. rewrite sqrt_square in W0, W1, W2 by lra.
  assert (S4 : sqrt 4 = 2) by (replace 4 with (2 * 2) by ring; apply sqrt_square; lra). assert (S100 : sqrt 100 = 10) by (replace 100 with (10 * 10) by ring; apply sqrt_square; lra).
  rewrite S4, sqrt_1 in A0, A1. rewrite S100, sqrt_1 in A2.
  assert (E0 : absorbs os 0 = 5) by (rewrite A0; field). assert (E1 : absorbs os 1 = 5) by (rewrite A1; field). assert (E2 : absorbs os 2 = 200 / 23) by (rewrite A2; field).
  rewrite E0 in W0. rewrite E1 in W1. rewrite E2 in W2. destruct (Rlt_dec 5 13) as [_|n]; [|lra]. destruct (Rlt_dec (200 / 23) 13) as [_|n]; [|lra].
  repeat split; try assumption; [rewrite W0; field|rewrite W1; field|rewrite W2; field].
Qed.
Lemma source_underestimates rank check : (forall f l, Permutation (rank f l) l) ->
  exists ords os A k l, (forall o, In o ords -> tradable o) /\ rmap view ords = Ret os /\ 0 < A /\ choice (length os) k l /\ A < total (absorbs os) l /\
    alpha_by_source 10 10 rank ords A check (Some k) false = Some (Raise AssertionError).
Proof.
  intros P. destruct three_os as (os & E & L & A0 & A1 & A2 & W0 & W1 & W2 & B0).
  exists three_orders, os, 13, 2%nat, [0; 2]%nat. split; [exact three_tradable|]. split; [assumption|]. split; [lra|].
  split; [split; [repeat constructor; cbn; intuition lia|]; split; [intros i [<-|[<-|[]]]; lia|cbn; lia]|].
  split; [rewrite !total_cons; change (total (absorbs os) []) with 0; rewrite A0, A2; lra|].
  assert (Hbound : forall l, choice (length os) 2 l -> total (worth os 13) l <= 10 /\ (In 2%nat l -> total (worth os 13) l <= 9) /\ (~ In 2%nat l -> total (absorbs os) l <= 10)).
  { intros l (N & V & Len). rewrite L in V. destruct l as [|a [|b [|c l]]]; [| | |cbn in Len; lia].
    - change (total (worth os 13) []) with 0. change (total (absorbs os) []) with 0. repeat split; intros; lra.
    - rewrite !total_cons. change (total (worth os 13) []) with 0. change (total (absorbs os) []) with 0. specialize (V a (or_introl eq_refl)). destruct a as [|[|[|a]]]; [| | |lia]; rewrite ?W0, ?W1, ?W2, ?A0, ?A1; repeat split; try intros Hc; try lra; exfalso; apply Hc; left; reflexivity.
    - rewrite !total_cons. change (total (worth os 13) []) with 0. change (total (absorbs os) []) with 0. pose proof (V a (or_introl eq_refl)) as Va. pose proof (V b (or_intror (or_introl eq_refl))) as Vb.
      assert (a <> b) by (inversion N as [|x y Hx Hy]; subst; cbn in Hx; intuition). destruct a as [|[|[|a]]]; [| | |lia]; (destruct b as [|[|[|b]]]; [| | |lia]); try congruence; rewrite ?W0, ?W1, ?W2, ?A0, ?A1; repeat split; try intros Hc; try lra; exfalso; first [apply Hc; cbn; tauto|cbn in Hc; intuition lia]. }
  destruct (alpha_source_short 10 10 rank three_orders os 13 check 2 three_tradable E P) as (level & C & Hbest & Hrej & _); try lia; try (rewrite L; lia); [lra| | |].
  - exists 0%nat. split; [lia|]. rewrite B0. lra.
  - intros l C. destruct (Hbound l C). lra.
  - apply Hrej. destruct (Hbound level C) as (_ & H2 & H3). assert (C01 : choice (length os) 2 [0; 1]%nat) by (split; [repeat constructor; cbn; intuition lia|]; split; [intros i [<-|[<-|[]]]; lia|cbn; lia]).
    specialize (Hbest _ C01). rewrite !total_cons in Hbest. change (total (worth os 13) []) with 0 in Hbest. rewrite W0, W1 in Hbest.
    destruct (in_dec Nat.eq_dec 2%nat level) as [Hin|Hin]; [specialize (H2 Hin); lra|specialize (H3 Hin); lra].
Qed.

(** ** no threshold *)
Lemma alpha_target_zero fuel infuel rank ords os A check sp : (forall o, In o ords -> tradable o) -> ords <> [] -> rmap view ords = Ret os -> (forall f l, Permutation (rank f l) l) -> 0 < A ->
  (sp = true -> A <= total (balance os) (seq 0 (length os))) ->
  alpha_by_target fuel infuel rank ords (- A) check (Some 0%nat) sp = exact_match fuel infuel os (- A) true check [] sp.
Proof.
  intros T Hne E P HA Hsp. destruct (book_sane ords os T E) as [L H].
  destruct (rmap_total (fun o => hyp_target o (- A)) ords) as (hs & Eh); [intros o Ho; apply hyp_target_ok; [apply T|]; assumption|].
  unfold alpha_by_target. rewrite E. cbn [rbind]. rewrite Eh. cbn [rbind]. set (ranked := rank (fun i => nth i hs 0) (indexes os)).
  assert (Pr : Permutation ranked (seq 0 (length os))) by apply P.
  change (fun i => xo_y (getx os i)) with (balance os). rewrite (total_seq (balance os) ranked (length os) Pr).
  unfold clamp_request. rewrite Rabs_Ropp, Rabs_right by lra.
  assert (Eb : sp && rlt (total (balance os) (seq 0 (length os))) A = false). { destruct sp; [|reflexivity]. rewrite rlt_false by (apply Hsp; reflexivity). reflexivity. }
  rewrite Eb. unfold route. rewrite select_zero; [reflexivity|]. intro Hc. apply map_eq_nil in Hc. rewrite Hc in Pr. apply Permutation_length in Pr. rewrite seq_length in Pr. cbn in Pr. destruct ords; [congruence|cbn in L; lia].
Qed.
Lemma alpha_source_none fuel infuel rank ords os A check sp : (forall o, In o ords -> tradable o) -> ords <> [] -> rmap view ords = Ret os -> (forall f l, Permutation (rank f l) l) -> 0 < A ->
  alpha_by_source fuel infuel rank ords A check None sp = Some (Raise TypeError).
Proof.
  intros T Hne E P HA. destruct (book_sane ords os T E) as [L H]. destruct (source_values ords os A T E HA) as (hs & vs & Eh & Ev & Hv).
  unfold alpha_by_source. rewrite E. cbn [rbind]. rewrite Eh. cbn [rbind]. rewrite Ev. cbn [rbind].
  destruct (map (fun i => nth i vs 0) (rank (fun i => nth i hs 0) (indexes os))) eqn:Em; [|reflexivity]. exfalso. apply map_eq_nil in Em. pose proof (P (fun i => nth i hs 0) (indexes os)) as Pr. rewrite Em in Pr. apply Permutation_length in Pr. unfold indexes in Pr. rewrite seq_length in Pr. cbn in Pr. destruct ords; [congruence|cbn in L; lia].
Qed.
