(** Theorems about constant product curves: trades (C49), price queries and constructors
    (C50), Carbon orders as constant product curves (C51), the inverter (C74). *)
From Coq Require Import Reals Lra Bool String ZArith.
From Verif Require Import CurveModel CurveSpec CurveProofs CpcModel CpcSpec CpcProofs CpcProofs2 CpcProofs3.
From Verif Require Univ3Model Univ3Spec Univ3Proofs.
Local Open Scope R_scope.

(** a pool with virtual reserves 10 and 10 of which 5 and 8 are actual *)
Definition ex_pool : cpc := mkCpc 100 10 5 8 "A" "B".
Example ex_pool_ok : pool_ok ex_pool. Proof. unfold pool_ok, ex_pool. cbn [k x x_act y_act]. lra. Qed.

(** ** C49 *)
(** trading an amount of one token moves virtual and actual reserves by the same amounts and
    keeps the product of the virtual reserves *)
Theorem C49_trade_dx : forall c dx ib c', execute c (Some dx) None ib = Ret c' ->
  k c' = k c /\ x c' = x c + dx /\ x c' * y c' = k c /\ x_act c' - x_act c = dx /\ y_act c' - y_act c = y c' - y c /\
  tknx c' = tknx c /\ tkny c' = tkny c.
Proof. exact trade_dx. Qed.
Theorem C49_trade_dy : forall c dy ib c', execute c None (Some dy) ib = Ret c' ->
  k c' = k c /\ y c' = y c + dy /\ x c' * y c' = k c /\ y_act c' - y_act c = dy /\ x_act c' - x_act c = x c' - x c /\
  tknx c' = tknx c /\ tkny c' = tkny c.
Proof. exact trade_dy. Qed.
(** when trades are accepted *)
Theorem C49_accepted : forall c d ib,
  ((exists c', execute c (Some d) None ib = Ret c') <-> (ib = true \/ - x_act c <= d) /\ x c + d <> 0) /\
  ((exists c', execute c None (Some d) ib = Ret c') <-> (ib = true \/ - y_act c <= d) /\ k c <> 0 /\ y c + d <> 0) /\
  (forall e, execute c (Some d) (Some e) ib = Raise ValueError).
Proof.
  intros c d ib. split; [|split; [|reflexivity]]; split.
  - intros [c' H]. apply exec_dx in H as (A & B & _). split; assumption.
  - intros [A B]. eexists. apply exec_dx. split; [exact A|]. split; [exact B|reflexivity].
  - intros [c' H]. apply exec_dy in H as (A & B & C & _). repeat split; assumption.
  - intros (A & B & C). eexists. apply exec_dy. split; [exact A|]. split; [exact B|]. split; [exact C|reflexivity].
Qed.
Theorem C49_no_trade : forall c ib, pool_ok c -> execute c None None ib = Ret c.
Proof.
  intros c ib H. rewrite exec_none. destruct (pool_pos c H) as (_ & _ & Hx & _). apply exec_dx. rewrite Rplus_0_r.
  destruct H as (_ & _ & Ha & _). split; [right; lra|]. split; [lra|]. symmetry. apply moved_self.
Qed.
(** the opposite trade restores the curve, in either token *)
Theorem C49_round_trip : forall c d ib c', pool_ok c ->
  (execute c (Some d) None ib = Ret c' -> execute c' (Some (- d)) None ib = Ret c) /\
  (execute c None (Some d) ib = Ret c' -> execute c' None (Some (- d)) ib = Ret c).
Proof. intros c d ib c' H. split; [apply back_dx|apply back_dy]; exact H. Qed.
(** a trade given in one token is the trade of the resulting amount of the other token *)
Theorem C49_both_ways : forall c dx ib c', pool_ok c -> execute c (Some dx) None ib = Ret c' ->
  execute c None (Some (y c' - y c)) true = Ret c' /\ (0 <= y_act c' -> execute c None (Some (y c' - y c)) false = Ret c').
Proof. exact both_ways. Qed.
(** two trades in a row are one trade of the total *)
Theorem C49_split : forall c d1 d2 ib c1 c2,
  (execute c (Some d1) None ib = Ret c1 -> execute c1 (Some d2) None ib = Ret c2 -> execute c (Some (d1 + d2)) None ib = Ret c2) /\
  (execute c None (Some d1) ib = Ret c1 -> execute c1 None (Some d2) ib = Ret c2 -> execute c None (Some (d1 + d2)) ib = Ret c2).
Proof. intros. split; [apply split_dx|apply split_dy]. Qed.
(** the side named in the call is never overdrawn unless bounds are ignored ... *)
Theorem C49_paid_side : forall c d c',
  (execute c (Some d) None false = Ret c' -> 0 <= x_act c') /\ (execute c None (Some d) false = Ret c' -> 0 <= y_act c').
Proof.
  intros c d c'. split; intros H.
  - apply exec_dx in H as ([H|H] & _ & ->); [discriminate|]. cbn [moved x_act]. lra.
  - apply exec_dy in H as ([H|H] & _ & _ & ->); [discriminate|]. cbn [moved y_act]. lra.
Qed.
(** ... but the other side is, exactly if x is pushed beyond x_max *)
Theorem C49_other_side : forall c dx c', pool_ok c -> 0 < x c + dx -> execute c (Some dx) None false = Ret c' ->
  y_act c' < 0 <-> above (x_max c) (x c').
Proof. exact other_side. Qed.
(** so "a trade within bounds leaves non-negative actual reserves" is false *)
Theorem C49_other_side_refuted : exists c dx c', pool_ok c /\ 0 < dx /\ execute c (Some dx) None false = Ret c' /\ y_act c' < 0.
Proof.
  exists ex_pool, 90. eexists. split; [exact ex_pool_ok|]. split; [lra|].
  split; [apply exec_dx; cbn [ex_pool x x_act]; split; [right; lra|]; split; [lra|reflexivity]|].
  unfold moved, ex_pool, y. cbn [k x y_act]. lra.
Qed.
(** the quote functions do check both sides: they return the traded amount exactly if both
    actual reserves stay non-negative *)
Theorem C49_quote_dx : forall c dx c', pool_ok c -> execute c (Some dx) None true = Ret c' ->
  (0 <= x_act c' /\ 0 <= y_act c' -> CpcModel.dyfromdx_f c dx false = Ret (Some (y c' - y c))) /\
  (x_act c' < 0 \/ y_act c' < 0 -> CpcModel.dyfromdx_f c dx false = Ret None).
Proof. exact quote_dx. Qed.
Theorem C49_quote_dy : forall c dy c', pool_ok c -> execute c None (Some dy) true = Ret c' ->
  (0 <= x_act c' /\ 0 <= y_act c' -> CpcModel.dxfromdy_f c dy false = Ret (Some (x c' - x c))) /\
  (x_act c' < 0 \/ y_act c' < 0 -> CpcModel.dxfromdy_f c dy false = Ret None).
Proof. exact quote_dy. Qed.
(** dx_max and dy_max drain the other side exactly *)
Theorem C49_dx_max : forall c, pool_ok c ->
  (y_act c < y c -> exists m, dx_max c = Ret (Some m) /\ 0 <= m /\ x_max c = Some (x c + m) /\ exists c', execute c (Some m) None false = Ret c' /\ y_act c' = 0) /\
  (y c <= y_act c -> dx_max c = Ret None /\ x_max c = None).
Proof.
  intros c H. split; [apply dxmax_value; exact H|]. intros L. unfold dx_max, x_max, y_min. rewrite !rlt_false by lra. split; reflexivity.
Qed.
Theorem C49_dy_max : forall c, pool_ok c ->
  (x_act c < x c -> exists m, dy_max c = Ret (Some m) /\ 0 <= m /\ y_max c = Some (y c + m) /\ exists c', execute c None (Some m) false = Ret c' /\ x_act c' = 0) /\
  (x c <= x_act c -> dy_max c = Ret None /\ y_max c = None).
Proof.
  intros c H. split; [apply dymax_value; exact H|]. intros L. unfold dy_max, y_max, x_min. rewrite !rlt_false by lra. split; reflexivity.
Qed.
(** total value locked, in either token *)
Theorem C49_tvl : forall c m re, pool_ok c -> tknx c <> tkny c -> exists q b,
  tvl c None m re = Ret (Some q) /\ tvl c (Some (tkny c)) m re = Ret (Some q) /\ tvl c (Some (tknx c)) m re = Ret (Some b) /\
  q = (CpcModel.p c * x_act c + y_act c) * m /\ q = b * CpcModel.p c /\
  (forall t, t <> tknx c -> t <> tkny c -> tvl c (Some t) m re = if re then Raise ValueError else Ret None).
Proof.
  intros c m re H Ht. destruct (current_inside c H) as [Hp _]. unfold tvl. rewrite !String.eqb_refl, orb_true_r. cbn [negb orb].
  assert (N : String.eqb (tknx c) (tkny c) = false) by (apply String.eqb_neq; exact Ht). rewrite N, rdiv_ok by lra. cbn [rbind].
  do 2 eexists. do 3 (split; [reflexivity|]). split; [reflexivity|]. split; [field; lra|]. intros t H1 H2.
  apply String.eqb_neq in H1. apply String.eqb_neq in H2. rewrite H1, H2. reflexivity.
Qed.
Example C49_ex : exists c', execute ex_pool (Some 10) None false = Ret c' /\ x c' = 20 /\ y c' = 5 /\ x_act c' = 15 /\ y_act c' = 3 /\
  above (x_max ex_pool) 60 /\ y_act ex_pool < y ex_pool /\ x_act ex_pool < x ex_pool.
Proof.
  eexists. split; [apply exec_dx; cbn [ex_pool x x_act]; split; [right; lra|]; split; [lra|reflexivity]|].
  unfold y, ex_pool. cbn [moved k x x_act y_act y]. repeat split; try lra; try (unfold y; cbn [k x]; lra).
  eexists. split; [unfold x_max, y_min, y; cbn [k x y_act]; rewrite rlt_true by lra; reflexivity|]. unfold y_min, y. cbn [k x y_act]. lra.
Qed.

(** ** C50 *)
(** ignoring bounds: the reserves with product k and price p *)
Theorem C50_unbounded : forall c p0, 0 < k c -> 0 < p0 -> exists X Y, xyfromp_f c (Some p0) true = Ret (X, Y, p0) /\ 0 < X /\ X * Y = k c /\ Y / X = p0.
Proof.
  intros c p0 Hk Hp. destruct (root_exists c p0 Hk Hp) as (X & HX & E & F). exists X, (X * p0). split; [exact (F true)|].
  split; [exact HX|]. split; [rewrite <- E; ring|field; lra].
Qed.
(** with bounds: the same reserves inside [p_min, p_max], the end points outside *)
Theorem C50_clamped : forall c p0, pool_ok c -> 0 < p0 -> exists X Y, xyfromp_f c (Some p0) false = Ret (X, Y, p0) /\ 0 < X /\ X * Y = k c /\
  (above (p_max c) p0 -> X = x_min c /\ y_max c = Some Y /\ p_max c = Some (Y / X)) /\
  (below (p_min c) p0 -> x_max c = Some X /\ Y = y_min c /\ p_min c = Some (Y / X)) /\
  (~ above (p_max c) p0 -> ~ below (p_min c) p0 -> Y / X = p0 /\ xyfromp_f c (Some p0) true = Ret (X, Y, p0)).
Proof.
  intros c p0 H Hp. destruct (root_exists c p0 (proj1 H) Hp) as (X & HX & E & F).
  pose proof (clamped c p0 X H Hp HX E) as (C1 & C2 & C3). cbv zeta in *. rewrite (F false), (F true). do 2 eexists. split; [reflexivity|].
  assert (G : 0 < atmost (x_max c) (atleast (Some (x_min c)) X) /\ atmost (x_max c) (atleast (Some (x_min c)) X) * atmost (y_max c) (atleast (Some (y_min c)) (X * p0)) = k c).
  { destruct (Rlt_dec X (x_min c)) as [A|A]; [|destruct (Rlt_dec (X * p0) (y_min c)) as [B|B]].
    - apply (above_iff c p0 X H Hp HX E) in A. apply C1 in A. tauto.
    - apply (below_iff c p0 X H Hp HX E) in B. apply C2 in B. tauto.
    - destruct C3 as [C31 C32]; [rewrite (above_iff c p0 X H Hp HX E); exact A|rewrite (below_iff c p0 X H Hp HX E); exact B|]. rewrite C31, C32.
      split; [exact HX|]. rewrite <- E. ring. }
  destruct G as [G1 G2]. split; [exact G1|]. split; [exact G2|]. split; [|split].
  - intros A. apply C1 in A. tauto.
  - intros A. apply C2 in A. tauto.
  - intros A B. destruct (C3 A B) as [C31 C32]. rewrite C31, C32. split; [field; lra|reflexivity].
Qed.
(** p_min <= p <= p_max for every pool, the three cases above exclude each other, and asking
    for the reserves at no particular price returns the current ones *)
Theorem C50_current : forall c ib, pool_ok c -> ~ above (p_max c) (CpcModel.p c) /\ ~ below (p_min c) (CpcModel.p c) /\
  xyfromp_f c None ib = Ret (x c, y c, CpcModel.p c) /\ (forall p0, 0 < p0 -> above (p_max c) p0 -> below (p_min c) p0 -> False).
Proof.
  intros c ib H. destruct (current_inside c H) as (Hp & A & B). split; [exact A|]. split; [exact B|].
  split; [|intros p0; apply excl; exact H].
  destruct (pool_pos c H) as (Hy & Hk & Hx & Hxy & _). rewrite xyfromp_none. destruct (root_exists c (CpcModel.p c) Hk Hp) as (X & HX & E & F).
  pose proof (clamped c _ X H Hp HX E) as (_ & _ & C3). cbv zeta in C3. destruct (C3 A B) as [C31 C32].
  assert (EX : X = x c).
  { apply (root_unique (CpcModel.p c)); try assumption. rewrite E. rewrite <- Hxy. unfold CpcModel.p. field. lra. }
  assert (EY : X * CpcModel.p c = y c) by (rewrite EX; unfold CpcModel.p; field; lra).
  rewrite F. destruct ib; [|rewrite C31, C32]; rewrite EY, EX; reflexivity.
Qed.
(** trading by the amounts of dxdyfromp_f moves the pool to that price, or to the end of the
    range, and leaves non-negative actual reserves *)
Theorem C50_trade_to_price : forall c p0, pool_ok c -> 0 < p0 -> exists dx dy c', dxdyfromp_f c (Some p0) false = Ret (dx, dy, p0) /\
  execute c (Some dx) None false = Ret c' /\ y c' = y c + dy /\ 0 <= x_act c' /\ 0 <= y_act c' /\
  (above (p_max c) p0 -> p_max c = Some (CpcModel.p c') /\ x_act c' = 0) /\ (below (p_min c) p0 -> p_min c = Some (CpcModel.p c') /\ y_act c' = 0) /\
  (~ above (p_max c) p0 -> ~ below (p_min c) p0 -> CpcModel.p c' = p0).
Proof. exact trade_to. Qed.
(** yfromx_f and xfromy_f are inverse in range *)
Theorem C50_inverse : forall c X Y, pool_ok c -> CpcModel.yfromx_f c X false = Ret (Some Y) <-> CpcModel.xfromy_f c Y false = Ret (Some X).
Proof. intros c X Y H. split; intros E; [apply inverse_x in E|apply inverse_y in E]; tauto. Qed.
(** from_pkpp reproduces k, the price and the bounds (default: the price itself) *)
Theorem C50_pkpp : forall P K pm pM tx ty, 0 < K -> 0 < P -> 0 < dflt pm P <= P -> P <= dflt pM P ->
  exists c, from_pkpp P K pm pM tx ty = Ret c /\ pool_ok c /\ k c = K /\ CpcModel.p c = P /\ p_min c = Some (dflt pm P) /\ p_max c = Some (dflt pM P) /\
    (pm = None -> y_act c = 0) /\ (pM = None -> x_act c = 0) /\ tknx c = tx /\ tkny c = ty.
Proof.
  intros P K pm pM tx ty HK HP Hm HM. destruct (pkpp_value P K pm pM tx ty HK HP ltac:(lra) HM) as (c & E & OK & Ek & Ep & _ & _ & Exa & Eya & EM & Em & Et).
  exists c. rewrite rlt_true in Em by lra. repeat (split; [assumption|]). split; [intros ->|split; [intros ->|exact Et]]; cbn [dflt] in *; lra.
Qed.
(** from_univ3 in addition: k = L^2, virtual reserves L/sqrt(p) and L*sqrt(p), and it accepts
    only prices strictly inside the range *)
Theorem C50_univ3 : forall P L Pa Pb tx ty, 0 < Pa < P -> P < Pb -> 0 < L -> exists c, from_univ3 P L Pa Pb tx ty = Ret c /\ pool_ok c /\
  k c = L ^ 2 /\ CpcModel.p c = P /\ p_min c = Some Pa /\ p_max c = Some Pb /\ x c = L / sqrt P /\ y c = L * sqrt P /\
  x_act c = L * (1 / sqrt P - 1 / sqrt Pb) /\ y_act c = L * (sqrt P - sqrt Pa).
Proof.
  intros P L Pa Pb tx ty H1 H2 HL. destruct (univ3_value P L Pa Pb tx ty ltac:(lra) H2 HL) as (c & E & OK & Ek & Ep & Ex & Ey & Exa & Eya & EM & Em).
  assert (0 < sqrt P) by (apply sqrt_lt_R0; lra). assert (0 < sqrt Pb) by (apply sqrt_lt_R0; lra).
  exists c. rewrite rlt_true in Em by lra. repeat (split; [first [assumption|rewrite Ek; ring]|]). split; [rewrite Exa; field; lra|rewrite Eya; ring].
Qed.
Theorem C50_univ3_rejects : forall P L Pa Pb tx ty, P <= Pa \/ Pb <= P -> from_univ3 P L Pa Pb tx ty = Raise AssertionError.
Proof.
  intros P L Pa Pb tx ty H. unfold from_univ3. destruct (negb (rlt Pa Pb)); [reflexivity|].
  destruct H; [rewrite (rlt_false Pa P) by lra|rewrite (rlt_false P Pb), andb_false_r by lra]; reflexivity.
Qed.
(** the pool built from a Uniswap v3 position holds exactly what the position holds (which
    the position's own reserve functions do not report, see C73) *)
Theorem C50_univ3_reserves : forall u t0 t1 ra rb, (0 < Univ3Model.sp96 u)%Z -> (0 < Univ3Model.liquidity u)%Z -> Univ3Model.papb_raw u = Some (ra, rb) ->
  let s := IZR (Univ3Model.sp96 u) / 2 ^ 96 in sqrt ra < s < sqrt rb ->
  exists c, univ3_as_cpc u t0 t1 = Ret c /\ pool_ok c /\
    x_act c = Univ3Spec.in_tokens (Univ3Spec.real_wei0 (IZR (Univ3Model.liquidity u)) s (sqrt rb)) (Univ3Model.tkn0dec u) /\
    y_act c = Univ3Spec.in_tokens (Univ3Spec.real_wei1 (IZR (Univ3Model.liquidity u)) s (sqrt ra)) (Univ3Model.tkn1dec u).
Proof. exact univ3_reserves. Qed.
(** the range test: a bound that is None is no bound *)
Theorem C50_inrange : forall v mi ma, inrange v mi ma = true <-> (forall m, mi = Some m -> m <= v) /\ (forall m, ma = Some m -> v <= m).
Proof.
  intros v mi ma. destruct mi as [m|].
  - rewrite inrange_iff. split; (intros [A B]; split; [|exact B]); [intros ? [= <-]; exact A|apply A; reflexivity].
  - unfold inrange. destruct ma as [b|].
    + rewrite negb_true_iff, nrlt_iff. split; [intros H; split; [discriminate|intros ? [= <-]; exact H]|intros [_ H]; apply H; reflexivity].
    + split; [intros _; split; discriminate|reflexivity].
Qed.
(** a position with a fee that Uniswap does not have gives no pool *)
Theorem C50_univ3_fee : forall u t0 t1, Univ3Model.fee_const u <> 100%Z -> Univ3Model.fee_const u <> 500%Z -> Univ3Model.fee_const u <> 3000%Z -> Univ3Model.fee_const u <> 10000%Z ->
  univ3_as_cpc u t0 t1 = Raise AssertionError.
Proof.
  intros u t0 t1 A B C D. apply Z.eqb_neq in A, B, C, D. unfold univ3_as_cpc, Univ3Model.papb, Univ3Model.papb_raw, HelperModel.tickab, HelperModel.ticksize. rewrite A, B, C, D. reflexivity.
Qed.
(** the other constructors give an unlevered pool with the two given quantities *)
Theorem C50_constructors : forall a b tx ty, 0 < a -> 0 < b ->
  (exists c, from_kx a b None None tx ty = Ret c /\ pool_ok c /\ k c = a /\ x c = b /\ x_act c = x c /\ y_act c = y c) /\
  (exists c, from_ky a b None None tx ty = Ret c /\ pool_ok c /\ k c = a /\ y c = b /\ x_act c = x c /\ y_act c = y c) /\
  (exists c, from_xy a b None None tx ty = Ret c /\ pool_ok c /\ x c = a /\ y c = b /\ x_act c = x c /\ y_act c = y c) /\
  (exists c, from_pk a b None None tx ty = Ret c /\ pool_ok c /\ CpcModel.p c = a /\ k c = b /\ x_act c = x c /\ y_act c = y c) /\
  (exists c, from_px a b None None tx ty = Ret c /\ pool_ok c /\ CpcModel.p c = a /\ x c = b /\ x_act c = x c /\ y_act c = y c) /\
  (exists c, from_py a b None None tx ty = Ret c /\ pool_ok c /\ CpcModel.p c = a /\ y c = b /\ x_act c = x c /\ y_act c = y c).
Proof.
  intros a b tx ty Ha Hb. assert (AB : 0 < a * b) by (apply Rmult_lt_0_compat; assumption).
  assert (D : 0 < a / b) by (apply Rdiv_lt_0_compat; assumption). assert (D' : 0 < b / a) by (apply Rdiv_lt_0_compat; assumption).
  destruct (sqrt_div_pos b a Hb Ha) as [S1 S2].
  assert (PO : forall K X, 0 < K -> 0 < X -> pool_ok (mkCpc K X X (K / X) tx ty)).
  { intros K X HK HX. assert (0 < K / X) by (apply Rdiv_lt_0_compat; assumption). unfold pool_ok. cbn [k x x_act y_act]. lra. }
  split; [|split; [|split; [|split; [|split]]]].
  - unfold from_kx. rewrite make_ok by lra. eexists. split; [reflexivity|]. cbn [dflt]. split; [apply PO; lra|]. repeat split.
  - unfold from_ky. rewrite rdiv_ok by lra. cbn [rbind]. rewrite make_ok by lra. eexists. split; [reflexivity|]. cbn [dflt]. split; [apply PO; lra|].
    unfold y. cbn [k x x_act y_act]. repeat split. field. lra.
  - unfold from_xy. rewrite make_ok by lra. eexists. split; [reflexivity|]. cbn [dflt]. split; [apply PO; lra|].
    unfold y. cbn [k x x_act y_act]. repeat split. field. lra.
  - unfold from_pk. rewrite rdiv_ok by lra. cbn [rbind]. rewrite rsqrt_ok by lra. cbn [rbind]. rewrite make_ok by lra. eexists. split; [reflexivity|].
    cbn [dflt]. split; [apply PO; lra|]. unfold CpcModel.p, y. cbn [k x x_act y_act]. repeat split.
    set (s := sqrt (b / a)) in *. clearbody s. rewrite <- S2. field. lra.
  - assert (0 < b * b * a) by (repeat apply Rmult_lt_0_compat; lra).
    unfold from_px. rewrite make_ok by lra. eexists. split; [reflexivity|]. cbn [dflt]. split; [apply PO; lra|].
    unfold CpcModel.p, y. cbn [k x x_act y_act]. repeat split. field. lra.
  - assert (0 < b * b / a) by (apply Rdiv_lt_0_compat; [apply Rmult_lt_0_compat; lra|lra]).
    unfold from_py. rewrite rdiv_ok by lra. cbn [rbind]. rewrite rdiv_ok by lra. cbn [rbind]. rewrite make_ok by lra. eexists. split; [reflexivity|].
    cbn [dflt]. split; [apply PO; lra|]. unfold CpcModel.p, y. cbn [k x x_act y_act]. repeat split; field; lra.
Qed.
(** from_univ2 completes the missing one of x, y and k *)
Theorem C50_univ2 : forall a b tx ty, 0 < a -> 0 < b ->
  (exists c, from_univ2 (Some a) (Some b) None tx ty = Ret c /\ pool_ok c /\ x c = a /\ y c = b /\ x_act c = a /\ y_act c = b /\
     from_univ2 None (Some b) (Some (a * b)) tx ty = Ret c /\ from_univ2 (Some a) None (Some (a * b)) tx ty = Ret c) /\
  (forall z, from_univ2 (Some a) (Some b) (Some z) tx ty = Raise AssertionError) /\
  (forall o, from_univ2 None None o tx ty = Raise AssertionError /\ from_univ2 o None None tx ty = Raise AssertionError /\ from_univ2 None o None tx ty = Raise AssertionError).
Proof.
  intros a b tx ty Ha Hb. assert (AB : 0 < a * b) by (apply Rmult_lt_0_compat; assumption). split; [|split; [reflexivity|]].
  - unfold from_univ2. rewrite !rdiv_ok by lra. cbn [rbind]. replace (a * b / b) with a by (field; lra). replace (a * b / a) with b by (field; lra).
    rewrite make_ok by lra. eexists. split; [reflexivity|]. cbn [dflt]. unfold pool_ok, y. cbn [k x x_act y_act].
    replace (a * b / a) with b by (field; lra). repeat split; lra.
  - intros o. split; [destruct o; reflexivity|]. split; destruct o; reflexivity.
Qed.
Example C50_ex : exists c, from_pkpp 4 100 (Some 1) (Some 9) "A" "B" = Ret c /\ pool_ok c /\ above (p_max c) 16 /\ below (p_min c) (/ 2) /\
  ~ above (p_max c) 2 /\ ~ below (p_min c) 2.
Proof.
  destruct (C50_pkpp 4 100 (Some 1) (Some 9) "A" "B") as (c & E & OK & _ & _ & Em & EM & _); try (cbn [dflt]; lra). cbn [dflt] in *.
  exists c. split; [exact E|]. split; [exact OK|]. unfold above, below. rewrite Em, EM.
  split; [eexists; split; [reflexivity|lra]|]. split; [eexists; split; [reflexivity|lra]|].
  split; intros (m & [= <-] & H); lra.
Qed.
(* a Uniswap v3 position strictly inside its range *)
Example C50_ex_univ3 : exists ra rb, Univ3Model.papb_raw (Univ3Model.mkUniv3 (2 ^ 96 + 2 ^ 76) 0 1000000 500 18 18) = Some (ra, rb) /\
  sqrt ra < IZR (2 ^ 96 + 2 ^ 76) / 2 ^ 96 < sqrt rb.
Proof.
  exists (Univ3Model.tick_price 0), (Univ3Model.tick_price 10). split; [reflexivity|].
  assert (HI : forall n, IZR (2 ^ Z.of_nat n) = 2 ^ n) by (intros n; rewrite <- pow_IZR; reflexivity).
  assert (E : IZR (2 ^ 96 + 2 ^ 76) / 2 ^ 96 = 1 + / 2 ^ 20).
  { rewrite plus_IZR. change (2 ^ 96)%Z with (2 ^ Z.of_nat 96)%Z. change (2 ^ 76)%Z with (2 ^ Z.of_nat 76)%Z. rewrite !HI.
    replace (2 ^ 96) with (2 ^ 76 * 2 ^ 20) by (rewrite <- pow_add; f_equal).
    assert (0 < 2 ^ 76) by (apply pow_lt; lra). assert (0 < 2 ^ 20) by (apply pow_lt; lra).
    set (a := 2 ^ 76) in *. set (b := 2 ^ 20) in *. clearbody a b. field. lra. }
  rewrite E. assert (H20 : 2 ^ 20 = 1048576) by lra. rewrite H20.
  assert (E0 : Univ3Model.tick_price 0 = 1) by reflexivity. rewrite E0, sqrt_1. split; [lra|].
  rewrite <- (sqrt_square (1 + / 1048576)) by lra. apply sqrt_lt_1; [|left; apply Univ3Proofs.tick_price_pos|].
  - apply Rmult_le_pos; lra.
  - apply Rlt_le_trans with (Univ3Model.tick_price 1); [unfold Univ3Model.tick_price; rewrite powerRZ_1; lra|].
    apply Univ3Proofs.powerRZ_le_mono; [lra|]. discriminate.
Qed.

(** ** C51 *)
(** the pool built from an order: amounts and prices (in units of the token received) *)
Theorem C51_pool : forall c tknb tknq tkn, valid c -> 0 < c_S c -> tkn = tknb \/ tkn = tknq -> exists cp,
  from_carbon (c_yint c) (c_y c) None None (Some (c_S c)) (Some (c_B c)) tknb tknq tkn true = Ret cp /\ pool_ok cp /\
  x_act cp = 0 /\ y_act cp = c_y c /\ CpcModel.p cp = raw_price c (c_y c) /\ p_max cp = Some (raw_price c (c_y c)) /\ p_min cp = Some (raw_price c 0) /\
  tkny cp = tkn /\ (tknb <> tknq -> tknx cp <> tkn /\ (tknx cp = tknb \/ tknx cp = tknq)).
Proof.
  intros c tknb tknq tkn V HS Ht. rewrite carbon_value by assumption. eexists. split; [reflexivity|].
  destruct (built_ok c (if String.eqb tkn tknq then tknb else tknq) tkn V HS) as [OK _].
  destruct (built_prices c (if String.eqb tkn tknq then tknb else tknq) tkn V HS) as (P1 & P2 & P3).
  split; [exact OK|]. repeat (split; [first [assumption|reflexivity]|]). intros N. cbn [built tknx].
  destruct (String.eqb tkn tknq) eqn:E; [apply String.eqb_eq in E; subst; split; [exact N|left; reflexivity]|].
  apply String.eqb_neq in E. split; [intros ->; apply E; reflexivity|right; reflexivity].
Qed.
(** it quotes what the order quotes, and nothing where the order would be overdrawn *)
Theorem C51_quotes : forall c tknb tknq tkn cp dx dy re, valid c -> 0 < c_S c -> tkn = tknb \/ tkn = tknq ->
  from_carbon (c_yint c) (c_y c) None None (Some (c_S c)) (Some (c_B c)) tknb tknq tkn true = Ret cp -> 0 <= dx ->
  CurveModel.dyfromdx_f c dx true re = Ret (Some dy) ->
  (dy <= c_y c -> CpcModel.dyfromdx_f cp dx false = Ret (Some (- dy))) /\ (c_y c < dy -> CpcModel.dyfromdx_f cp dx false = Ret None).
Proof.
  intros c tknb tknq tkn cp dx dy re V HS Ht E. rewrite carbon_value in E by assumption. assert (E' := E). 
  replace cp with (built c (if String.eqb tkn tknq then tknb else tknq) tkn) by congruence. intros Hd Q. exact (quote_equal c _ _ dx dy re V HS Hd Q).
Qed.
Theorem C51_quotes_dy : forall c tknb tknq tkn cp dx dy re, valid c -> 0 < c_S c -> tkn = tknb \/ tkn = tknq ->
  from_carbon (c_yint c) (c_y c) None None (Some (c_S c)) (Some (c_B c)) tknb tknq tkn true = Ret cp -> 0 <= dy <= c_y c ->
  CurveModel.dxfromdy_f c dy true re = Ret (Some dx) -> CpcModel.dxfromdy_f cp (- dy) false = Ret (Some dx).
Proof.
  intros c tknb tknq tkn cp dx dy re V HS Ht E. rewrite carbon_value in E by assumption. 
  replace cp with (built c (if String.eqb tkn tknq then tknb else tknq) tkn) by congruence. intros Hd Q. exact (quote_equal_dy c _ _ dy dx re V HS Hd Q).
Qed.
(** trading on it is trading on the order: the pool left behind is the pool of the order
    after the trade, except that it keeps what it received as actual reserve *)
Theorem C51_trade : forall c tknb tknq tkn cp dy, valid c -> 0 < c_S c -> tkn = tknb \/ tkn = tknq ->
  from_carbon (c_yint c) (c_y c) None None (Some (c_S c)) (Some (c_B c)) tknb tknq tkn true = Ret cp -> 0 <= dy <= c_y c ->
  exists c' cq, execute cp None (Some (- dy)) false = Ret c' /\
  from_carbon (c_yint c) (c_y c - dy) None None (Some (c_S c)) (Some (c_B c)) tknb tknq tkn true = Ret cq /\
  k c' = k cq /\ x c' = x cq /\ y_act c' = c_y c - dy /\ y_act cq = c_y c - dy /\
  CurveModel.dxfromdy_f c dy true true = Ret (Some (x_act c')) /\ x_act cq = 0.
Proof.
  intros c tknb tknq tkn cp dy V HS Ht E Hd. rewrite carbon_value in E by assumption. 
  replace cp with (built c (if String.eqb tkn tknq then tknb else tknq) tkn) by congruence. 
  destruct (carbon_execute c (if String.eqb tkn tknq then tknb else tknq) tkn dy V HS Hd) as (c' & E1 & E2 & E3 & E4 & E5 & _).
  pose proof V as (HB & _ & HZ & HY).
  assert (V' : valid (with_y c (c_y c - dy))) by (unfold valid, with_y; cbn [c_B c_S c_yint c_y]; lra).
  exists c', (built (with_y c (c_y c - dy)) (if String.eqb tkn tknq then tknb else tknq) tkn). split; [exact E1|].
  split; [exact (carbon_value (with_y c (c_y c - dy)) tknb tknq tkn V' HS Ht)|]. repeat (split; [first [assumption|reflexivity]|]). reflexivity.
Qed.
(** prices instead of A and B, as accepted by from_carbon and by the order's constructor *)
Theorem C51_from_prices : forall (base : bool) lo hi yint y0 c tb tq, 0 < lo < hi -> tb <> tq ->
  CurveModel.from_prices base lo hi yint y0 = Ret c ->
  from_carbon yint y0 (Some (if base then lo else hi)) (Some (if base then hi else lo)) None None tb tq (if base then tb else tq) false =
  from_carbon yint y0 None None (Some (c_S c)) (Some (c_B c)) tb tq (if base then tb else tq) true.
Proof. exact carbon_from_prices. Qed.
(** the order of the prices matters, a zero-width range is widened, and A = 0 is rejected *)
Theorem C51_range : forall yint y0 pa pb tknb tknq tkn,
  (pa < pb -> from_carbon yint y0 (Some pa) (Some pb) None None tknb tknq tkn true = Raise AssertionError) /\
  (0 < pb -> from_carbon yint y0 (Some pb) (Some pb) None None tknb tknq tkn true =
             from_carbon yint y0 (Some (pb * WIDEN)) (Some (pb / WIDEN)) None None tknb tknq tkn true) /\
  (0 <= y0 <= yint -> from_carbon yint y0 None None (Some 0) (Some pb) tknb tknq tknb true = Raise ZeroDivision).
Proof.
  intros. split; [apply carbon_order|]. split; [apply carbon_zero_width|]. intros H. unfold from_carbon. rewrite !rlt_false by lra.
  rewrite String.eqb_refl. cbn [orb negb carbon_AB]. rewrite rlt_false by lra. cbn [rbind]. unfold rdiv at 1. rewrite req_true by reflexivity. reflexivity.
Qed.
(** as_cpc is the same pool, in the orientation of the pair *)
Theorem C51_as_cpc : forall c tb tq, valid c -> 0 < c_S c -> tb <> tq -> exists cp,
  from_carbon (c_yint c) (c_y c) None None (Some (c_S c)) (Some (c_B c)) tb tq (if c_base c then tb else tq) true = Ret cp /\
  as_cpc c tb tq = Ret (if c_base c then mirror cp else cp).
Proof.
  intros c tb tq V HS Ht. rewrite carbon_value by (try assumption; destruct (c_base c); auto). eexists. split; [reflexivity|].
  rewrite as_cpc_value by assumption. destruct (c_base c); [|rewrite String.eqb_refl; reflexivity].
  assert (N : String.eqb tb tq = false) by (apply String.eqb_neq; exact Ht). rewrite N. reflexivity.
Qed.
Definition ex_order : curve := mkCurve true 1 1 2 2.
Example C51_ex : valid ex_order /\ 0 < c_S ex_order /\ CurveModel.dxfromdy_f ex_order 1 true true = Ret (Some (/ 3)) /\
  (exists c, CurveModel.from_prices true (/ 4) 1 2 2 = Ret c).
Proof.
  assert (V : valid ex_order) by (unfold valid, ex_order; cbn; lra). split; [exact V|]. split; [cbn; lra|]. split.
  - rewrite dx_value by (try exact V; cbn; lra). do 2 f_equal. unfold cost, rate. cbn. field.
  - destruct (CurveProofs4.from_prices_ok true (/ 4) 1 2 2 ltac:(lra) ltac:(lra) ltac:(lra)) as (c & E & _). exists c. exact E.
Qed.

(** ** C74 *)
(** an inverted curve is the pool with the two tokens exchanged *)
Theorem C74_mirror : forall c, pool_ok c -> pool_ok (mirror c) /\ mirror (mirror c) = c /\
  inv_tknx c = tknx (mirror c) /\ inv_tkny c = tkny (mirror c) /\ inv_k c = k (mirror c) /\ inv_x c = x (mirror c) /\ inv_y c = y (mirror c) /\
  inv_x_act c = x_act (mirror c) /\ inv_y_act c = y_act (mirror c) /\ inv_p c = Ret (CpcModel.p (mirror c)) /\
  inv_x_min c = x_min (mirror c) /\ inv_y_min c = y_min (mirror c) /\ inv_x_max c = x_max (mirror c) /\ inv_y_max c = y_max (mirror c).
Proof.
  intros c H. destruct (mirror_ok c H) as (OK & MM & EY & EX). destruct (mirror_bounds c H) as (A & B & C & D).
  split; [exact OK|]. split; [exact MM|]. repeat (split; [first [reflexivity|symmetry; assumption]|]).
  destruct (current_inside c H) as [Hp _]. 
  split; [unfold inv_p; rewrite rdiv_ok by lra; f_equal; rewrite mirror_p by exact H; unfold Rdiv; ring|].
  repeat (split; [symmetry; assumption|]). symmetry; assumption.
Qed.
Theorem C74_quotes : forall c v ib, pool_ok c ->
  inv_yfromx_f c v ib = CpcModel.yfromx_f (mirror c) v ib /\ inv_xfromy_f c v ib = CpcModel.xfromy_f (mirror c) v ib /\
  inv_dyfromdx_f c v ib = CpcModel.dyfromdx_f (mirror c) v ib /\ inv_dxfromdy_f c v ib = CpcModel.dxfromdy_f (mirror c) v ib.
Proof. exact mirror_yfromx. Qed.
Theorem C74_prices : forall c p0 ib, pool_ok c -> 0 < p0 ->
  inv_xyfromp_f c (Some p0) ib = CpcModel.xyfromp_f (mirror c) (Some p0) ib /\ inv_dxdyfromp_f c (Some p0) ib = CpcModel.dxdyfromp_f (mirror c) (Some p0) ib.
Proof. exact mirror_xyfromp. Qed.
(** without a price: at the current one *)
Theorem C74_current : forall c ib, pool_ok c -> inv_xyfromp_f c None ib = CpcModel.xyfromp_f (mirror c) None ib /\ inv_dxdyfromp_f c None ib = CpcModel.dxdyfromp_f (mirror c) None ib.
Proof.
  intros c ib H. destruct (current_inside c H) as [Hp _]. assert (Hq : 0 < CpcModel.p (mirror c)) by (rewrite mirror_p by exact H; apply Rinv_0_lt_compat, Hp).
  destruct (mirror_xyfromp c (CpcModel.p (mirror c)) ib H Hq) as [A B]. unfold inv_xyfromp_f, inv_dxdyfromp_f in *. cbn [inv_arg] in *. rewrite rdiv_ok in A, B by lra. cbn [rbind] in *.
  replace (1 / CpcModel.p (mirror c)) with (CpcModel.p c) in A, B by (rewrite mirror_p by exact H; field; lra). exact (conj A B).
Qed.
Theorem C74_execute : forall c dx dy ib, pool_ok c ->
  execute (mirror c) dx dy ib = match inv_execute c dx dy ib with Ret c' => Ret (mirror c') | Raise e => Raise e end.
Proof. exact mirror_execute. Qed.
(** the price bounds agree as well where the pool has them; where it has none the inverter
    raises instead of returning None *)
Theorem C74_price_bounds : forall c, pool_ok c ->
  inv_p_min c = match p_min (mirror c) with Some m => Ret m | None => Raise TypeError end /\
  inv_p_max c = match p_max (mirror c) with Some m => Ret m | None => Raise TypeError end.
Proof.
  intros c H. destruct (mirror_pbounds c H) as (A & B & C & D). rewrite A, B. unfold inv_p_min, inv_p_max. split.
  - destruct (p_max c) as [m|] eqn:E; [|reflexivity]. specialize (D m eq_refl). rewrite rdiv_ok by lra. f_equal. unfold Rdiv. ring.
  - destruct (p_min c) as [m|] eqn:E; [|reflexivity]. specialize (C m eq_refl). rewrite rdiv_ok by lra. f_equal. unfold Rdiv. ring.
Qed.
Theorem C74_price_bounds_refuted : exists c, pool_ok c /\ p_min (mirror c) = None /\ inv_p_min c = Raise TypeError.
Proof.
  exists (mkCpc 100 10 10 10 "A" "B"). assert (OK : pool_ok (mkCpc 100 10 10 10 "A" "B")) by (unfold pool_ok; cbn [k x x_act y_act]; lra).
  split; [exact OK|]. destruct (mirror_pbounds _ OK) as (_ & B & _). rewrite B. unfold inv_p_min. rewrite p_max_value.
  unfold x_min. cbn [x x_act]. rewrite rlt_false by lra. split; reflexivity.
Qed.
Example C74_ex : pool_ok ex_pool /\ p_min (mirror ex_pool) <> None /\ p_max (mirror ex_pool) <> None.
Proof.
  split; [exact ex_pool_ok|]. destruct (mirror_pbounds _ ex_pool_ok) as (A & B & _). rewrite A, B. rewrite p_max_value, p_min_value by exact ex_pool_ok.
  unfold x_min, y_min, y, ex_pool. cbn [k x x_act y_act]. rewrite !rlt_true by lra. split; discriminate.
Qed.

Print Assumptions C49_trade_dx. Print Assumptions C49_trade_dy. Print Assumptions C49_accepted. Print Assumptions C49_no_trade.
Print Assumptions C49_round_trip. Print Assumptions C49_both_ways. Print Assumptions C49_split. Print Assumptions C49_paid_side.
Print Assumptions C49_other_side. Print Assumptions C49_other_side_refuted. Print Assumptions C49_quote_dx. Print Assumptions C49_quote_dy.
Print Assumptions C49_dx_max. Print Assumptions C49_dy_max. Print Assumptions C49_tvl.
Print Assumptions C50_unbounded. Print Assumptions C50_clamped. Print Assumptions C50_current. Print Assumptions C50_trade_to_price.
Print Assumptions C50_inverse. Print Assumptions C50_pkpp. Print Assumptions C50_univ3. Print Assumptions C50_univ3_rejects.
Print Assumptions C50_inrange. Print Assumptions C50_univ3_fee. Print Assumptions C50_univ3_reserves. Print Assumptions C50_constructors. Print Assumptions C50_univ2.
Print Assumptions C51_pool. Print Assumptions C51_quotes. Print Assumptions C51_quotes_dy. Print Assumptions C51_trade.
Print Assumptions C51_from_prices. Print Assumptions C51_range. Print Assumptions C51_as_cpc.
Print Assumptions C74_mirror. Print Assumptions C74_quotes. Print Assumptions C74_prices. Print Assumptions C74_current. Print Assumptions C74_execute.
Print Assumptions C74_price_bounds. Print Assumptions C74_price_bounds_refuted.
