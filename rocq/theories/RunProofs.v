(** One trade of a curve to a price, and one time step of a strategy. *)
From Coq Require Import Reals Lra Bool List.
From Verif Require Import CurveModel CurveSpec CurveProofs CurveProofs2 CurveProofs3 OrderModel StrategyModel RunModel.
Import ListNotations.
Local Open Scope R_scope.

Definition capped (c : curve) : curve := if req (c_yint c) 0 then with_yint c TINY else c.
Lemma capped_same c : c_base (capped c) = c_base c /\ c_B (capped c) = c_B c /\ c_S (capped c) = c_S c /\ c_y (capped c) = c_y c.
Proof. unfold capped. destruct (req (c_yint c) 0); repeat split. Qed.
Lemma capped_valid c : sound c -> valid (capped c).
Proof.
  intros (HB & HS & HY). unfold capped, req. pose proof TINY_pos. destruct (Req_EM_T (c_yint c) 0) as [E|E]; repeat split; cbn; lra.
Qed.
Lemma tradeto_capped c o p ex : tradeto (mkLinked c o) p ex = tradeto (mkLinked (capped c) o) p ex.
Proof.
  unfold capped. destruct (req (c_yint c) 0) eqn:E; [|reflexivity]. unfold tradeto. cbn [l_me]. rewrite E. cbn [set_me l_me l_other].
  assert (T : req (c_yint (with_yint c TINY)) 0 = false) by (apply req_false; cbn; pose proof TINY_pos; lra). rewrite T. reflexivity.
Qed.

(** the amount sold is nothing or at least EPS, at prices not worse than the target, and less
    than EPS could still be sold *)
Definition deal (c : curve) (p d : R) : Prop :=
  0 <= d <= c_y c /\ (d = 0 \/ EPS <= d) /\ (0 < d -> in_quote c p <= raw_price c (c_y c - d)) /\ (forall e, EPS <= e <= c_y c - d -> raw_price c (c_y c - d - e) < in_quote c p).
Lemma mk_deal c p d : 0 <= d <= c_y c -> d = 0 \/ EPS <= d -> (0 < d -> in_quote c p <= raw_price c (c_y c - d)) -> (forall e, EPS <= e <= c_y c - d -> raw_price c (c_y c - d - e) < in_quote c p) -> deal c p d.
Proof. intros. unfold deal. auto. Qed.
Lemma deal_valid c o p : valid c -> 0 < c_S c -> sound o -> 0 < p ->
  exists d r, deal c p d /\ tradeto (mkLinked c (Some o)) p true = (mkLinked (with_y c (c_y c - d)) (Some (received (cost c (c_y c) d) o)), Ret (Some r)).
Proof.
  intros V HS VO Hp. set (s := mkLinked c (Some o)). pose proof V as (HB & _ & HZ & HY). pose proof EPS_pos as HE.
  assert (Q : 0 < in_quote c p) by (apply in_quote_pos; exact Hp).
  assert (K : forall dy, 0 <= dy <= c_y c -> exists r, selly s dy true false false true = (mkLinked (with_y c (c_y c - settled dy)) (Some (received (cost c (c_y c) (settled dy)) o)), Ret (Some r))).
  { intros dy H. rewrite selly_value by (cbn [l_me l_other sound_opt]; assumption). cbn [l_me l_other s option_map]. eexists. f_equal. f_equal.
    unfold settled. destruct (rlt dy EPS); [|reflexivity]. rewrite with_y_same by ring. reflexivity. }
  destruct (price_cases c p V Hp) as [H|[H|H]].
  - destruct (K 0 ltac:(lra)) as [r E]. rewrite settled_0 in E. exists 0, r. split.
    + apply moves_start in H; try assumption. apply mk_deal; [lra|lra|intros; try lra|intros e He]. rewrite Rminus_0_r. eapply Rle_lt_trans; [|exact H]. apply raw_mono_le; [assumption|lra|lra].
    + rewrite (tradeto_before s p true V HS VO Hp H). exact E.
  - destruct (between_price c p V HS Hp H) as (y & Hy & E). destruct (K (c_y c - y) ltac:(lra)) as [r E2]. exists (settled (c_y c - y)), r. split.
    + assert (Q2 : in_quote c p = raw_price c y) by (rewrite E; unfold price_at; apply in_quote_invol). unfold settled, rlt. destruct (Rlt_dec (c_y c - y) EPS) as [L|L].
      * apply mk_deal; [lra|lra|intros; try lra|intros e He]. rewrite Rminus_0_r in *. rewrite Q2. apply raw_mono; try assumption; lra.
      * assert (Z : c_y c - (c_y c - y) = y) by ring. apply mk_deal; [lra|lra|intros; rewrite Q2, Z; lra|intros e He]. rewrite Q2, Z in *. apply raw_mono; try assumption; lra.
    + replace p with (price_at (l_me s) y) by (symmetry; exact E). fold s. rewrite (tradeto_between s y true V HS VO Hy). exact E2.
  - destruct (K (c_y c) ltac:(lra)) as [r E]. exists (settled (c_y c)), r. split.
    + pose proof (moves_end c p V Hp H) as L. rewrite <- raw_empty in L by exact V. unfold settled, rlt. destruct (Rlt_dec (c_y c) EPS) as [L2|L2].
      * apply mk_deal; [lra|lra|intros; lra|intros; lra].
      * assert (Z : c_y c - c_y c = 0) by ring. apply mk_deal; [lra|lra|intros; rewrite Z; lra|intros e He; lra].
    + rewrite (tradeto_beyond s p true V HS VO Hp H). exact E.
Qed.
Lemma deal_sound c o p : sound c -> 0 < c_S c -> sound o -> 0 < p ->
  exists d, deal (capped c) p d /\ trade_curve c o p = Ret (with_y (capped c) (c_y c - d), received (cost (capped c) (c_y c) d) o).
Proof.
  intros V HS VO Hp. destruct (capped_same c) as (E1 & E2 & E3 & E4). destruct (deal_valid (capped c) o p) as (d & r & D & E); [apply capped_valid; exact V|lra|exact VO|exact Hp|].
  exists d. split; [exact D|]. unfold trade_curve. rewrite tradeto_capped, E, E4. reflexivity.
Qed.
(** what is received for a deal *)
Lemma deal_price c p d : valid c -> 0 < p -> deal c p d ->
  let x := cost c (c_y c) d in 0 <= x /\ in_quote c p * x <= d /\ d <= (c_B c + c_S c) ^ 2 * x /\ d <= raw_price c (c_y c) * x /\ raw_price c (c_y c - d) * x <= d.
Proof.
  intros V Hp (Hd & _ & Hq & _). cbv zeta. pose proof V as (HB & HS & HZ & HY). pose proof (in_quote_pos c p Hp) as Q.
  pose proof (rate_pos c (c_y c) V ltac:(lra)) as R1. pose proof (rate_pos c (c_y c - d) V ltac:(lra)) as R2.
  assert (X : 0 <= cost c (c_y c) d) by (apply cost_nonneg; assumption). assert (E : d = rate c (c_y c) * rate c (c_y c - d) * cost c (c_y c) d) by (unfold cost; field; split; lra).
  assert (M : rate c (c_y c - d) <= rate c (c_y c)). { rewrite rate_sub by lra. assert (0 <= c_S c / c_yint c * d); [|lra]. apply Rmult_le_pos; [|lra]. apply Rmult_le_pos; [lra|]. left. apply Rinv_0_lt_compat. exact HZ. }
  assert (F : rate c (c_y c) <= c_B c + c_S c). { unfold rate. apply Rplus_le_compat_l. rewrite <- (Rmult_1_r (c_S c)) at 2. apply Rmult_le_compat_l; [exact HS|]. apply (Rmult_le_reg_r (c_yint c)); [exact HZ|]. unfold Rdiv. rewrite Rmult_assoc, Rinv_l by lra. lra. }
  set (x := cost c (c_y c) d) in *. clearbody x. rewrite !raw_rate in *. set (a := rate c (c_y c)) in *. set (b := rate c (c_y c - d)) in *. clearbody a b.
  assert (P1 : b ^ 2 * x <= d). { rewrite E. apply Rmult_le_compat_r; [exact X|]. replace (b ^ 2) with (b * b) by ring. apply Rmult_le_compat_r; lra. }
  assert (P2 : d <= a ^ 2 * x). { rewrite E at 1. apply Rmult_le_compat_r; [exact X|]. replace (a ^ 2) with (a * a) by ring. apply Rmult_le_compat_l; lra. }
  split; [exact X|]. split.
  - destruct (Rle_lt_or_eq_dec 0 d ltac:(lra)) as [D|D].
    + eapply Rle_trans; [|exact P1]. apply Rmult_le_compat_r; [exact X|apply Hq; exact D].
    + assert (x = 0). { rewrite <- D in E. assert (0 < a * b) by (apply Rmult_lt_0_compat; assumption). destruct (Rmult_integral (a * b) x); [congruence|lra|assumption]. } subst x. lra.
  - split; [|split; assumption]. eapply Rle_trans; [exact P2|]. apply Rmult_le_compat_r; [exact X|]. apply pow_incr. lra.
Qed.

(** ** One time step of a strategy *)
Definition good_book (b : book) : Prop :=
  sound (b_rsk b) /\ sound (b_csh b) /\ 0 < c_S (b_rsk b) /\ 0 < c_S (b_csh b) /\ c_base (b_rsk b) = true /\ c_base (b_csh b) = false.
Definition same_shape (c c' : curve) : Prop := c_base c' = c_base c /\ c_B c' = c_B c /\ c_S c' = c_S c.
(** the end of the range where selling starts, quoted *)
Definition top (c : curve) : R := (c_B c + c_S c) ^ 2.
Lemma same_shape_trans a b c : same_shape a b -> same_shape b c -> same_shape a c.
Proof. intros (A & B & C) (D & E & F). repeat split; congruence. Qed.
Lemma top_same a b : same_shape a b -> top b = top a. Proof. intros (_ & A & B). unfold top. rewrite A, B. reflexivity. Qed.
Lemma top_pos c : sound c -> 0 < top c. Proof. intros (A & B & _). unfold top. apply pow_lt. lra. Qed.
Lemma sold_shape c y : same_shape c (with_y (capped c) y). Proof. destruct (capped_same c) as (A & B & C & _). repeat split; cbn; assumption. Qed.
Lemma received_shape c x : same_shape c (received x c). Proof. repeat split. Qed.
Lemma sold_sound c y : sound c -> 0 <= y <= c_y c -> sound (with_y (capped c) y).
Proof. intros V H. destruct (capped_valid c V) as (A & B & C & D). destruct (capped_same c) as (_ & _ & _ & E). repeat split; cbn; lra. Qed.
Lemma raw_below_top c y : valid c -> 0 < c_S c -> 0 <= y -> y < c_yint c -> raw_price c y < top c.
Proof. intros V HS H0 H. unfold top. replace (c_B c + c_S c) with (rate c (c_yint c)) by (apply rate_full; exact V). rewrite <- raw_rate. apply raw_mono; assumption. Qed.

Lemma book_step p b : 0 < p -> good_book b ->
  exists d x e z, trade_book p b = Ret (mkBook (received z (with_y (capped (b_rsk b)) (c_y (b_rsk b) - d))) (with_y (capped (received x (b_csh b))) (c_y (b_csh b) + x - e))) /\
    deal (capped (b_rsk b)) p d /\ x = cost (capped (b_rsk b)) (c_y (b_rsk b)) d /\ deal (capped (received x (b_csh b))) p e /\ z = cost (capped (received x (b_csh b))) (c_y (b_csh b) + x) e /\
    0 <= d <= c_y (b_rsk b) /\ 0 <= e <= c_y (b_csh b) + x /\ 0 <= x /\ 0 <= z /\
    x <= p * d /\ d <= top (b_rsk b) * x /\ p * z <= e /\ e <= top (b_csh b) * z /\ (0 < d -> / p < top (b_rsk b)) /\ (0 < e -> p < top (b_csh b)).
Proof.
  intros Hp (Sa & Sb & HSa & HSb & Ba & Bb). destruct (deal_sound (b_rsk b) (b_csh b) p Sa HSa Sb Hp) as (d & D & E).
  pose proof (capped_valid _ Sa) as Va. destruct (capped_same (b_rsk b)) as (Ca1 & Ca2 & Ca3 & Ca4).
  destruct (deal_price _ p d Va Hp D) as (X0 & X1 & X2 & _). rewrite Ca4 in *. set (x := cost (capped (b_rsk b)) (c_y (b_rsk b)) d) in *.
  assert (Hd : 0 <= d <= c_y (b_rsk b)) by (destruct D as (D & _); rewrite Ca4 in D; exact D).
  set (b1 := received x (b_csh b)) in *. assert (Sb1 : sound b1) by (apply received_sound; assumption).
  set (a1 := with_y (capped (b_rsk b)) (c_y (b_rsk b) - d)) in *. assert (Sa1 : sound a1) by (apply sold_sound; [assumption|lra]).
  destruct (deal_sound b1 a1 p Sb1 HSb Sa1 Hp) as (e & D2 & E2). pose proof (capped_valid _ Sb1) as Vb. destruct (capped_same b1) as (Cb1 & Cb2 & Cb3 & Cb4).
  destruct (deal_price _ p e Vb Hp D2) as (Z0 & Z1 & Z2 & _). rewrite Cb4 in *. assert (Yb : c_y b1 = c_y (b_csh b) + x) by reflexivity. rewrite Yb in *.
  set (z := cost (capped b1) (c_y (b_csh b) + x) e) in *. exists d, x, e, z.
  assert (He : 0 <= e <= c_y (b_csh b) + x) by (destruct D2 as (D2 & _); rewrite Cb4 in D2; exact D2).
  assert (Q1 : in_quote (capped (b_rsk b)) p = / p) by (unfold in_quote; rewrite Ca1, Ba; reflexivity). assert (Q2 : in_quote (capped b1) p = p) by (unfold in_quote; rewrite Cb1; cbn; rewrite Bb; reflexivity).
  split. { unfold trade_book. rewrite E. cbn [rbind fst snd]. rewrite E2. cbn [rbind fst snd]. reflexivity. }
  split; [exact D|]. split; [reflexivity|]. split; [exact D2|]. split; [reflexivity|]. split; [exact Hd|]. split; [exact He|]. split; [exact X0|]. split; [exact Z0|].
  split. { rewrite Q1 in X1. apply (Rmult_le_reg_l (/ p)); [apply Rinv_0_lt_compat; exact Hp|]. rewrite <- (Rmult_assoc (/ p) p), Rinv_l by lra. lra. }
  split. { rewrite Ca2, Ca3 in X2. exact X2. } split. { rewrite Q2 in Z1. exact Z1. } split. { rewrite Cb2, Cb3 in Z2. exact Z2. }
  split.
  - intros P. destruct D as (_ & _ & D & _). specialize (D P). rewrite Q1, Ca4 in D. assert (T : top (b_rsk b) = top (capped (b_rsk b))) by (unfold top; rewrite Ca2, Ca3; reflexivity). rewrite T.
    eapply Rle_lt_trans; [exact D|]. destruct Va as (A1 & A2 & A3 & A4). rewrite Ca4 in A4. apply raw_below_top; [apply capped_valid; exact Sa|lra|lra|lra].
  - intros P. destruct D2 as (_ & _ & D2 & _). specialize (D2 P). rewrite Q2, Cb4 in D2. assert (T : top (b_csh b) = top (capped b1)) by (unfold top; rewrite Cb2, Cb3; reflexivity). rewrite T.
    eapply Rle_lt_trans; [exact D2|]. destruct Vb as (A1 & A2 & A3 & A4). rewrite Cb4 in A4. apply raw_below_top; [apply capped_valid; exact Sb1|rewrite Cb3; exact HSb|lra|lra].
Qed.
(** in terms of the amounts held *)
Lemma book_amounts p b : 0 < p -> good_book b -> exists b', trade_book p b = Ret b' /\ good_book b' /\ same_shape (b_rsk b) (b_rsk b') /\ same_shape (b_csh b) (b_csh b') /\
  exists d x e z, c_y (b_rsk b') = c_y (b_rsk b) - d + z /\ c_y (b_csh b') = c_y (b_csh b) + x - e /\
    0 <= d <= c_y (b_rsk b) /\ 0 <= e <= c_y (b_csh b) + x /\ 0 <= x /\ 0 <= z /\
    x <= p * d /\ d <= top (b_rsk b) * x /\ p * z <= e /\ e <= top (b_csh b) * z /\ (0 < d -> / p < top (b_rsk b)) /\ (0 < e -> p < top (b_csh b)).
Proof.
  intros Hp G. destruct (book_step p b Hp G) as (d & x & e & z & E & _ & _ & _ & _ & H). pose proof H as (Hd & He & Hx & Hz & _). destruct G as (Sa & Sb & HSa & HSb & Ba & Bb).
  eexists. split; [exact E|]. assert (Sb1 : sound (received x (b_csh b))) by (apply received_sound; assumption).
  assert (S1 : same_shape (b_rsk b) (received z (with_y (capped (b_rsk b)) (c_y (b_rsk b) - d)))) by (eapply same_shape_trans; [apply sold_shape|apply received_shape]).
  assert (S2 : same_shape (b_csh b) (with_y (capped (received x (b_csh b))) (c_y (b_csh b) + x - e))) by (eapply same_shape_trans; [apply (received_shape _ x)|apply sold_shape]).
  cbn [b_rsk b_csh]. split.
  - pose proof S1 as (A1 & A2 & A3). pose proof S2 as (B1 & B2 & B3). split; [apply received_sound; [apply sold_sound; [assumption|lra]|assumption]|]. split; [apply sold_sound; [assumption|cbn [c_y received]; lra]|].
    cbn [b_rsk b_csh]. rewrite A1, A3, B1, B3. auto.
  - split; [exact S1|]. split; [exact S2|]. exists d, x, e, z. cbn [c_y received with_y]. split; [ring|]. split; [ring|]. exact H.
Qed.
