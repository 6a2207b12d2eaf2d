(** Properties C119-C122: liquidity charts, strategies read from the SDK, rounding, contract parameters. *)
From Coq Require Import Reals ZArith List Bool String Lra Lia.
From Verif Require Import PairModel PairSpec PairProofs CurveModel CurveSpec CurveProofs UiModel UiSpec UiProofs UiProofs2.
From Verif Require SdkModel.
Import ListNotations.
Local Open Scope R_scope.

(** ** C119: the liquidity chart of a set of curves *)
(** the chart adds up to what the curves hold in the price range of the chart *)
Theorem C119_total us a b ps p (reverse pz : bool) : (forall u, In u us -> fits u) -> rises (a :: b :: ps) -> let t := if reverse then tknq p else tknb p in
  exists q, calc_liquidity_approx us (a :: b :: ps) p reverse pz = Ret q /\ q_tkn q = t /\ q_prices q = map (fun c => (fst c + snd c) / 2) (combine (a :: b :: ps) (b :: ps)) /\
   List.length (q_bid q) = S (List.length ps) /\ List.length (q_ask q) = S (List.length ps) /\
   weighted (if reverse then q_bid q else q_ask q) (a :: b :: ps) = total_of (fun u => c_y (u_curve u) * share (u_curve u) a (last (b :: ps) 0)) (filter (sells_on p t) us).
Proof. exact (calc_spec us a b ps p reverse pz). Qed.
Theorem C119_cover us a b ps p (reverse pz : bool) : (forall u, In u us -> fits u) -> rises (a :: b :: ps) -> (forall u, In u us -> a <= lowest (u_curve u) /\ highest (u_curve u) < last (b :: ps) 0) ->
  exists q, calc_liquidity_approx us (a :: b :: ps) p reverse pz = Ret q /\
   weighted (if reverse then q_bid q else q_ask q) (a :: b :: ps) = total_of (fun u => c_y (u_curve u)) (filter (sells_on p (if reverse then tknq p else tknb p)) us).
Proof. exact (calc_cover us a b ps p reverse pz). Qed.
(** every bar, on both sides *)
Theorem C119_cells us ps p (reverse pz : bool) q : (forall u, In u us -> fits u) -> rises ps -> calc_liquidity_approx us ps p reverse pz = Ret q -> forall i, (S i < List.length ps)%nat ->
  let a := nth i ps 0 in let b := nth (S i) ps 0 in let value t := total_of (fun u => worth (u_curve u) (has_basetoken (u_pair u) (q_tkn q)) a b) (filter (sells_on p t) us) in
  known (nth i (q_ask q) None) * (b - a) = value (tknb p) /\ known (nth i (q_bid q) None) * (b - a) = value (tknq p).
Proof. exact (calc_cells us ps p reverse pz q). Qed.
Theorem C119_missing us ps p reverse pz q : calc_liquidity_approx us ps p reverse pz = Ret q -> forall x, In x (q_bid q ++ q_ask q) -> if pz then x <> Some 0 else x <> None.
Proof. exact (calc_missing us ps p reverse pz q). Qed.
Theorem C119_flat us a ps p reverse pz u : In u us -> sells_on p (tknb p) u = true -> fits u -> exists e, calc_liquidity_approx us (a :: a :: ps) p reverse pz = Raise e.
Proof. exact (calc_flat us a ps p reverse pz u). Qed.
Definition ex_p : pair := mkPair "ETH" "USDC" "ETH" "USDC" false (Some 18%Z) (Some 6%Z).
Definition ex_buy : ui := mkUi ex_p "USDC" (mkCurve false 1 1 12 6).
Definition ex_sell : ui := mkUi ex_p "ETH" (mkCurve true (/ 4) (/ 4) 3 1).
Example C119_ex : let us := [ex_buy; ex_sell] in (forall u, In u us -> fits u) /\ rises [1; 2; 10; 20] /\ (forall u, In u us -> 1 <= lowest (u_curve u) /\ highest (u_curve u) < 20) /\
  filter (sells_on ex_p "USDC") us = [ex_buy] /\ filter (sells_on ex_p "ETH") us = [ex_sell].
Proof.
  cbv zeta. split; [intros u [<-|[<-|[]]]; split; try reflexivity; repeat split; cbn; lra|]. split; [intros i Hi; destruct i as [|[|[|i]]]; cbn in *; try lra; lia|]. split; [|split; reflexivity].
  intros u [<-|[<-|[]]]; unfold lowest, highest, price_at, raw_price, in_quote; cbn [u_curve ex_buy ex_sell c_base c_B c_S c_yint].
  - replace ((1 + 1 * (0 / 12)) ^ 2) with 1 by field. replace ((1 + 1 * (12 / 12)) ^ 2) with 4 by field. rewrite Rmin_left, Rmax_right by lra. lra.
  - replace (/ (/ 4 + / 4 * (0 / 3)) ^ 2) with 16 by field. replace (/ (/ 4 + / 4 * (3 / 3)) ^ 2) with 4 by field. rewrite Rmin_right, Rmax_left by lra. lra.
Qed.
Print Assumptions C119_total.
Print Assumptions C119_cover.
Print Assumptions C119_cells.
Print Assumptions C119_missing.
Print Assumptions C119_flat.

(** ** C120: strategies read from the SDK *)
Theorem C120_curves tokens k nsd nb nq yb zb yq zq : let r v := roundsd v nsd in
  k_base k <> k_quote k ->
  (k_token0 k = k_base k /\ k_token1 k = k_quote k /\ (yb, zb, yq, zq) = (k_y0 k, k_z0 k, k_y1 k, k_z1 k) \/
   k_token1 k = k_base k /\ k_token0 k = k_quote k /\ (yb, zb, yq, zq) = (k_y1 k, k_z1 k, k_y0 k, k_z0 k)) ->
  names_as tokens (k_base k) "TKNB" nb -> names_as tokens (k_quote k) "TKNQ" nq -> plain nb -> plain nq -> nb <> nq ->
  0 < r (k_buyLow k) -> 0 < r (k_buyHigh k) -> 0 < r (k_sellLow k) -> 0 < r (k_sellHigh k) -> 0 <= r (k_buyBudget k) -> 0 <= r (k_sellBudget k) ->
  (0 <= yb <= zb)%Z -> (0 < zb)%Z -> (0 <= yq <= zq)%Z -> (0 < zq)%Z ->
  exists buy sell, from_SDK tokens k nsd = Ret (buy, sell) /\
   u_tkn sell = nb /\ u_tkn buy = nq /\ (tknb (u_pair sell) = nb /\ tknq (u_pair sell) = nq) /\ (tknb (u_pair buy) = nb /\ tknq (u_pair buy) = nq) /\
   (c_base (u_curve sell) = true /\ c_yint (u_curve sell) = r (k_sellBudget k) /\ c_y (u_curve sell) = r (k_sellBudget k) * (IZR yb / IZR zb) /\
    pminmax (u_curve sell) = Ret (Some (Rmin (r (k_sellLow k)) (r (k_sellHigh k)), Rmax (r (k_sellLow k)) (r (k_sellHigh k))))) /\
   (c_base (u_curve buy) = false /\ c_yint (u_curve buy) = r (k_buyBudget k) /\ c_y (u_curve buy) = r (k_buyBudget k) * (IZR yq / IZR zq) /\
    pminmax (u_curve buy) = Ret (Some (Rmin (r (k_buyLow k)) (r (k_buyHigh k)), Rmax (r (k_buyLow k)) (r (k_buyHigh k))))).
Proof. exact (from_sdk tokens k nsd nb nq yb zb yq zq). Qed.
Theorem C120_errors tokens k nsd : let same := forall t, (t = k_base k \/ t = k_quote k) <-> (t = k_token0 k \/ t = k_token1 k) in
  (~ same -> from_SDK tokens k nsd = Raise ValueError) /\ (same -> k_z0 k = 0%Z \/ k_z1 k = 0%Z -> from_SDK tokens k nsd = Raise ZeroDivision).
Proof. exact (from_sdk_errors tokens k nsd). Qed.
Definition ex_tokens : SdkModel.container :=
  let t := SdkModel.mkToken "ETH" "0xe" (Some 18%Z) "Ether" in SdkModel.mkContainer true [("ETH"%string, t)] [("0xe"%string, t)].
Definition ex_sdk : sdk_strategy := mkSdk 1400 1600 300 1800 2000 2 "0xe" "0xf" "0xf" "0xe" 250 300 1 4.
Lemma ex_read : exists buy sell, from_SDK ex_tokens ex_sdk None = Ret (buy, sell) /\ u_tkn sell = "TKNB"%string /\ c_yint (u_curve sell) = 2 /\ c_y (u_curve sell) = / 2 /\ c_y (u_curve buy) = 250 /\
  pminmax (u_curve sell) = Ret (Some (1800, 2000)) /\ pminmax (u_curve buy) = Ret (Some (1400, 1600)).
Proof.
  destruct (from_sdk ex_tokens ex_sdk None "TKNB" "TKNQ" 1 4 250 300) as (buy & sell & E & T1 & T2 & _ & _ & (_ & S2 & S3 & S4) & (_ & B2 & B3 & B4)); cbn [ex_sdk k_base k_quote k_token0 k_token1 k_y0 k_z0 k_y1 k_z1 k_buyLow k_buyHigh k_buyBudget k_sellLow k_sellHigh k_sellBudget roundsd] in *.
  1: discriminate. 1: right; repeat split. 1,2: reflexivity. 1,2: split; [reflexivity|apply no_slash_free; reflexivity]. 1: discriminate. 1-6: lra. 1-4: lia.
  exists buy, sell. rewrite Rmin_left, Rmax_right in S4, B4 by lra. repeat split; try assumption; [rewrite S3; field|rewrite B3; field].
Qed.
Example C120_ex : exists buy sell, from_SDK ex_tokens ex_sdk None = Ret (buy, sell) /\ c_yint (u_curve sell) = 2 /\ c_y (u_curve sell) = / 2 /\ c_y (u_curve buy) = 250 /\
  pminmax (u_curve sell) = Ret (Some (1800, 2000)) /\ pminmax (u_curve buy) = Ret (Some (1400, 1600)).
Proof. destruct ex_read as (b & s & E & _ & H). exists b, s. tauto. Qed.
(** "a token in the container is shown with its ticker" is false: the address is looked up among the tickers *)
Theorem C120_ticker_refuted : exists tokens k t buy sell, SdkModel.byaddr tokens (k_base k) None false = Ret (Some t) /\ from_SDK tokens k None = Ret (buy, sell) /\ u_tkn sell <> SdkModel.t_T t.
Proof. destruct ex_read as (buy & sell & E & T & _). do 3 eexists. exists buy, sell. split; [|split; [exact E|rewrite T]]; [reflexivity|discriminate]. Qed.
Print Assumptions C120_curves.
Print Assumptions C120_errors.
Print Assumptions C120_ticker_refuted.

(** ** C121: rounding to significant digits *)
Theorem C121_nearest x n m : 0 < x -> powerRZ 10 m <= x < powerRZ 10 (m + 1) -> let u := powerRZ 10 (if Z.leb m n then m + 1 - n else m - n) in
  Rabs (roundsd x (Some n) - x) <= u / 2 /\ exists k, roundsd x (Some n) = IZR k * u.
Proof. exact (roundsd_spec x n m). Qed.
Theorem C121_tie x n m k : 0 < x -> powerRZ 10 m <= x < powerRZ 10 (m + 1) -> let u := powerRZ 10 (if Z.leb m n then m + 1 - n else m - n) in
  x = (IZR k + / 2) * u -> roundsd x (Some n) = IZR (if Z.even k then k else k + 1) * u.
Proof. exact (roundsd_tie x n m k). Qed.
Theorem C121_twice x n : (1 <= n)%Z -> roundsd (roundsd x (Some n)) (Some n) = roundsd x (Some n).
Proof. exact (roundsd_idem x n). Qed.
Theorem C121_kept x n : roundsd x None = x /\ (x <= 0 -> roundsd x (Some n) = x).
Proof. split; [reflexivity|]. intros H. unfold roundsd. rewrite rle_true by exact H. reflexivity. Qed.
Example C121_ex : 0 < 12345 /\ powerRZ 10 4 <= 12345 < powerRZ 10 (4 + 1) /\ powerRZ 10 (if Z.leb 4 2 then 4 + 1 - 2 else 4 - 2) = 100.
Proof. repeat split; simpl; lra. Qed.
(** "n digits are left" is false for numbers with more than n + 1 digits: one more is kept *)
Theorem C121_digits_refuted : exists x n m, 0 < x /\ (1 <= n)%Z /\ powerRZ 10 m <= x < powerRZ 10 (m + 1) /\ ~ exists k, roundsd x (Some n) = IZR k * powerRZ 10 (m + 1 - n).
Proof.
  exists 120, 1%Z, 2%Z. split; [lra|]. split; [lia|]. split; [simpl; lra|]. intros (k & K).
  rewrite (roundsd_exact 12 1 1 120) in K; [|lra|simpl; lra|rewrite (mag_unique 120 2) by (simpl; lra); vm_compute; discriminate].
  replace (powerRZ 10 (2 + 1 - 1)) with 100 in K by (simpl; lra). assert (L : IZR 1 < IZR k < IZR 2) by lra. destruct L as [L1 L2]. apply lt_IZR in L1, L2. lia.
Qed.
Print Assumptions C121_nearest.
Print Assumptions C121_tie.
Print Assumptions C121_twice.
Print Assumptions C121_kept.
Print Assumptions C121_digits_refuted.

(** ** C122: parameters for the contract *)
Theorem C122_parameters u sx db dq : tknb_decimals (u_pair u) = Some db -> tknq_decimals (u_pair u) = Some dq -> 0 <= c_B (u_curve u) -> 0 <= c_S (u_curve u) ->
  let c := u_curve u in let decy := if c_base c then db else dq in let decx := if c_base c then dq else db in
  exists d, yzABS u sx = Ret d /\ z_y d = c_y c * powerRZ 10 decy /\ z_z d = c_yint c * powerRZ 10 decy /\ z_S d = (2 ^ Z.of_nat sx)%Z /\
   (IZR (z_A d) <= c_S c * sqrt (powerRZ 10 (decy - decx)) * 2 ^ sx < IZR (z_A d) + 1) /\ (IZR (z_B d) <= c_B c * sqrt (powerRZ 10 (decy - decx)) * 2 ^ sx < IZR (z_B d) + 1).
Proof. exact (yz_spec u sx db dq). Qed.
(** the contract quotes the price of the curve in the smallest units, never more, and less by at most the resolution *)
Theorem C122_price u sx db dq d : tknb_decimals (u_pair u) = Some db -> tknq_decimals (u_pair u) = Some dq -> valid (u_curve u) -> yzABS u sx = Ret d ->
  let c := u_curve u in let decy := if c_base c then db else dq in let decx := if c_base c then dq else db in
  let q := B_unscaled d + A_unscaled d * (z_y d / z_z d) in let exact := sqrt (raw_price c (c_y c) * powerRZ 10 (decy - decx)) in
  exact - 2 / 2 ^ sx < q <= exact.
Proof. exact (yz_price u sx db dq d). Qed.
Theorem C122_decimals u sx : tknb_decimals (u_pair u) = None \/ tknq_decimals (u_pair u) = None -> yzABS u sx = Raise ValueError.
Proof. exact (yz_error u sx). Qed.
Example C122_ex : tknb_decimals (u_pair ex_sell) = Some 18%Z /\ tknq_decimals (u_pair ex_sell) = Some 6%Z /\ valid (u_curve ex_sell) /\ exists d, yzABS ex_sell 48 = Ret d /\ z_A d = (250000 * 2 ^ 48)%Z.
Proof.
  split; [reflexivity|]. split; [reflexivity|]. split; [repeat split; simpl; lra|]. destruct (yz_spec ex_sell 48 18 6 eq_refl eq_refl) as (d & E & _ & _ & _ & [A1 A2] & _); [simpl; lra|simpl; lra|]. exists d. split; [exact E|].
  cbn [ex_sell u_curve c_base c_S] in A1, A2. replace (powerRZ 10 (18 - 6)) with (1000000 * 1000000) in A1, A2 by (simpl; lra). rewrite sqrt_square in A1, A2 by lra.
  assert (P : 2 ^ 48 = IZR (2 ^ 48)) by exact (pow_IZR 2 48). rewrite P in A1, A2. assert (Q : / 4 * 1000000 * IZR (2 ^ 48) = IZR (250000 * 2 ^ 48)) by (rewrite mult_IZR; lra). rewrite Q in A1, A2.
  rewrite <- plus_IZR in A2. apply le_IZR in A1. apply lt_IZR in A2. lia.
Qed.
Print Assumptions C122_parameters.
Print Assumptions C122_price.
Print Assumptions C122_decimals.
