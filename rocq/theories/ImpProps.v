(** Properties C146-C148 of carbon/pair.py, carbon/simulators/carbon_simulator.py and
    carbon/carbon_order_ui.py. *)
From Coq Require Import Reals ZArith List Bool String Lra Lia.
From Verif Require Import PairModel PairSpec PairProofs CurveModel OrderModel UiModel UiSpec UiProofs UiProps ImpModel ImpSpec ImpProofs.
From Verif Require SdkModel SdkProofs3.
Import ListNotations.
Local Open Scope R_scope.

(** ** C146: decimals of a pair *)
Theorem C146_set p db dq dct t : let q := set_decimals p db dq dct in let known t v := exists d, dct = Some d /\ SdkModel.dget t d = Some v in
  d_pair q = d_pair p /\ (db = Some t -> d_b q = Some t) /\ (dq = Some t -> d_q q = Some t) /\
  (db = None -> (forall v, known (tknb (d_pair p)) v -> d_b q = Some (DInt v)) /\ ((forall v, ~ known (tknb (d_pair p)) v) -> d_b q = None)) /\
  (dq = None -> (forall v, known (tknq (d_pair p)) v -> d_q q = Some (DInt v)) /\ ((forall v, ~ known (tknq (d_pair p)) v) -> d_q q = None)).
Proof. exact (set_spec p db dq dct t). Qed.
Theorem C146_table p : let b := tknb (d_pair p) in let q := tknq (d_pair p) in b <> q -> ~ reserved b -> ~ reserved q ->
  decimals p = [(b, d_b p); (q, d_q p); ("_TKNB"%string, d_b p); ("_TKNQ"%string, d_q p); ("_DIFFQB"%string, decdiffqb p)].
Proof. exact (dec_table p). Qed.
Theorem C146_difference p v : decdiffqb p = Some v <-> exists b q, d_b p = Some (DInt b) /\ d_q p = Some (DInt q) /\ v = DInt (q - b).
Proof. exact (diff_spec p v). Qed.
Theorem C146_has p : has_decimals p = true <-> d_b p <> None /\ d_q p <> None.
Proof. exact (has_spec p). Qed.
(** a copy keeps the decimals and forgets the spelling, the reversed pair has none *)
Theorem C146_copy p d : plain (tknb p) -> plain (tknq p) ->
  mk_pair (SlashPair p) None None d = Some (mkPair (tknb p) (tknq p) (tknb p) (tknq p) d (tknb_decimals p) (tknq_decimals p)) /\ has_decimals (dpair_of (reverse p)) = false.
Proof. intros B Q. split; [exact (copy_spec p d B Q)|reflexivity]. Qed.
(** from_slashpair reads the two tokens without the blanks around them; the tuple of decimals ends up with the base token, the quote token never has any *)
Theorem C146_slashpair b q decs : slash_free b -> slash_free q ->
  exists p, from_slashpair (b ++ "/" ++ q) decs = Some p /\ tknb (d_pair p) = upper (SdkModel.strip b) /\ tknq (d_pair p) = upper (SdkModel.strip q) /\
    d_b p = match decs with Some (x, y) => Some (DTup x y) | None => None end /\ d_q p = None.
Proof. exact (slashpair_spec b q decs). Qed.
(** prices are per base token, in units of the quote token *)
Theorem C146_convention b q d : slash_free b -> slash_free q -> exists p, mk_pair (SlashStr (b ++ "/" ++ q)) None None d = Some p /\ price_convention p = (upper q ++ " per " ++ upper b)%string.
Proof.
  intros Hb Hq. destruct (slash_construction b q d Hb Hq) as (E & p & P & B & Q & _). exists p. split; [congruence|]. unfold price_convention. rewrite B, Q. reflexivity.
Qed.
Theorem C146_refused s decs : (forall b q, slash_free b -> slash_free q -> s <> (b ++ "/" ++ q)%string) -> from_slashpair s decs = None.
Proof. exact (slashpair_refused s decs). Qed.
Theorem C146_never s decs p : from_slashpair s decs = Some p -> has_decimals p = false /\ decdiffqb p = None.
Proof.
  unfold from_slashpair. destruct (split_slash (upper s)) as [|b [|q [|x l]]]; try discriminate. destruct (mk_pair _ _ _ _) as [r|]; [|discriminate]. intros [= <-]. destruct decs as [[x y]|]; split; reflexivity.
Qed.
Example C146_ex : let p := dpair_of (mkPair "ETH" "USDC" "eth" "usdc" false None None) in
  decimals (set_decimals p (Some (DInt 18)) None (Some DECDICT)) = [("ETH", Some (DInt 18)); ("USDC", Some (DInt 6)); ("_TKNB", Some (DInt 18)); ("_TKNQ", Some (DInt 6)); ("_DIFFQB", Some (DInt (-12)))]%string /\
  has_decimals p = false /\ option_map (fun p => tknb (d_pair p)) (from_slashpair " eth / usdc" None) = Some "ETH"%string /\ from_slashpair "eth usdc" None = None.
Proof. repeat split. Qed.
(** "the decimals given to from_slashpair are those of the pair" is false *)
Theorem C146_decimals_refuted : exists s x y p, from_slashpair s (Some (x, y)) = Some p /\ (d_b p <> Some (DInt x) /\ d_q p <> Some (DInt y)).
Proof. exists "ETH/USDC"%string, 18%Z, 6%Z. eexists. split; [reflexivity|]. split; discriminate. Qed.
(** "the table gives the decimals of the base token" is false if both tokens are the same *)
Theorem C146_same_refuted : exists p, SdkModel.dget (tknb (d_pair p)) (decimals p) <> Some (d_b p).
Proof. exists (mkDp (mkPair "ETH" "ETH" "ETH" "ETH" false None None) (Some (DInt 18)) (Some (DInt 6))). discriminate. Qed.
Print Assumptions C146_set.
Print Assumptions C146_table.
Print Assumptions C146_difference.
Print Assumptions C146_has.
Print Assumptions C146_copy.
Print Assumptions C146_slashpair.
Print Assumptions C146_refused.
Print Assumptions C146_convention.
Print Assumptions C146_never.
Print Assumptions C146_decimals_refuted.
Print Assumptions C146_same_refuted.

(** ** C147: adding a strategy of the SDK to the simulator *)
Theorem C147_added tokens s k id nsd nb nq buy sell : names_as tokens (k_base k) "TKNB" nb -> names_as tokens (k_quote k) "TKNQ" nq -> plain nb -> plain nq -> nb <> nq ->
  from_SDK tokens k nsd = Ret (buy, sell) -> ~ (roundsd (k_buyLow k) nsd = 0 /\ roundsd (k_buyHigh k) nsd = 0) -> orderly s ->
  let n := s_next s in exists o1 o2,
    add_fromsdk tokens s k id nsd = (mkSim (S (S n)) (s_orders s ++ [(n, o1); (S n, o2)]), Ret [(n, (sell, buy)); (S n, (buy, sell))]) /\
    (so_tkn o1 = nb /\ so_id o1 = n /\ so_lid o1 = S n /\ so_cid o1 = id /\ so_pair o1 = u_pair sell /\ o_y (so_order o1) = c_y (u_curve sell) /\ o_yint (so_order o1) = c_yint (u_curve sell)) /\
    (so_tkn o2 = nq /\ so_id o2 = S n /\ so_lid o2 = n /\ so_cid o2 = id /\ so_pair o2 = u_pair sell /\ o_y (so_order o2) = c_y (u_curve buy) /\ o_yint (so_order o2) = c_yint (u_curve buy)).
Proof. exact (added tokens s k id nsd nb nq buy sell). Qed.
Theorem C147_refused tokens s k id nsd : (forall e, from_SDK tokens k nsd = Raise e -> add_fromsdk tokens s k id nsd = (s, Raise e)) /\
  (forall nb nq bs, names_as tokens (k_base k) "TKNB" nb -> names_as tokens (k_quote k) "TKNQ" nq -> plain nb -> plain nq -> nb <> nq -> from_SDK tokens k nsd = Ret bs -> roundsd (k_buyLow k) nsd = 0 -> roundsd (k_buyHigh k) nsd = 0 -> add_fromsdk tokens s k id nsd = (s, Raise AttributeError)).
Proof. exact (added_fail tokens s k id nsd). Qed.
Theorem C147_kept tokens s k id nsd : orderly s -> let s' := fst (add_fromsdk tokens s k id nsd) in orderly s' /\ (s_next s <= s_next s' <= S (S (s_next s)))%nat /\ exists l, s_orders s' = s_orders s ++ l /\ (List.length l <= 2)%nat.
Proof. exact (kept tokens s k id nsd). Qed.
Lemma none_orderly : orderly (mkSim 0 []).
Proof. intros i o []. Qed.
Lemma ex_added tokens k : names_as tokens (k_base k) "TKNB" "TKNB" -> names_as tokens (k_quote k) "TKNQ" "TKNQ" -> k_base k <> k_quote k -> k_token0 k = k_quote k -> k_token1 k = k_base k ->
  (k_buyLow k, k_buyHigh k, k_buyBudget k, k_sellLow k, k_sellHigh k, k_sellBudget k) = (1400, 1600, 300, 1800, 2000, 2) -> (k_y0 k, k_z0 k, k_y1 k, k_z1 k) = (250, 300, 1, 4)%Z ->
  forall s id, orderly s -> exists o1 o2 r, add_fromsdk tokens s k id None = (mkSim (S (S (s_next s))) (s_orders s ++ [(s_next s, o1); (S (s_next s), o2)]), Ret r) /\
    pair_iso (so_pair o1) = "TKNBTKNQ"%string /\ pair_iso (so_pair o2) = "TKNBTKNQ"%string /\ o_y (so_order o1) = / 2 /\ o_yint (so_order o2) = 300.
Proof.
  intros Nb Nq N T0 T1 Ep Ey s id Or. injection Ep as E1 E2 E3 E4 E5 E6. injection Ey as Y1 Y2 Y3 Y4.
  assert (P : forall n, n = "TKNB"%string \/ n = "TKNQ"%string -> plain n) by (intros n [->| ->]; (split; [reflexivity|apply no_slash_free; reflexivity])).
  destruct (from_sdk tokens k None "TKNB" "TKNQ" 1 4 250 300) as (buy & sell & E & X1 & X2 & (X3 & X4) & _ & (_ & S2 & S3 & S4) & (_ & B2 & B3 & B4)); cbn [roundsd]; try assumption; try lra; try lia.
  1: right; rewrite Y1, Y2, Y3, Y4; auto. 1,2: apply P; auto. 1: discriminate.
  destruct (added tokens s k id None "TKNB" "TKNQ" buy sell Nb Nq (P _ (or_introl eq_refl)) (P _ (or_intror eq_refl)) ltac:(discriminate) E) as (o1 & o2 & A & (_ & _ & _ & _ & P1 & Q1 & _) & (_ & _ & _ & _ & P2 & _ & Q2)); [cbn [roundsd]; lra|exact Or|].
  exists o1, o2. eexists. split; [exact A|]. unfold pair_iso. rewrite P1, P2, X3, X4, Q1, Q2, S3, B2. cbn [roundsd]. rewrite E6, E3. repeat split. field.
Qed.
Example C147_ex : exists o1 o2 r, add_fromsdk ex_tokens (mkSim 0 []) ex_sdk "7" None = (mkSim 2 [(0%nat, o1); (1%nat, o2)], Ret r) /\ o_y (so_order o1) = / 2 /\ o_yint (so_order o2) = 300.
Proof. destruct (ex_added ex_tokens ex_sdk eq_refl eq_refl ltac:(discriminate) eq_refl eq_refl eq_refl eq_refl _ "7" none_orderly) as (o1 & o2 & r & A & _ & _ & B & C). exists o1, o2, r. auto. Qed.
(** "strategies on different tokens end up on different pairs" is false: tokens are named by their roles when their addresses are not tickers *)
Theorem C147_pairs_refuted : exists tokens k1 k2 s1 s2 o1 o2 r1 r2, k_base k1 <> k_base k2 /\ k_quote k1 <> k_quote k2 /\
  add_fromsdk tokens (mkSim 0 []) k1 "1" None = (s1, Ret r1) /\ add_fromsdk tokens s1 k2 "2" None = (s2, Ret r2) /\
  In o1 (map snd (s_orders s2)) /\ In o2 (map snd (s_orders s2)) /\ so_id o1 = 0%nat /\ so_id o2 = 2%nat /\ pair_iso (so_pair o1) = pair_iso (so_pair o2).
Proof.
  set (k2 := mkSdk 1400 1600 300 1800 2000 2 "0xa" "0xb" "0xb" "0xa" 250 300 1 4).
  destruct (ex_added ex_tokens ex_sdk eq_refl eq_refl ltac:(discriminate) eq_refl eq_refl eq_refl eq_refl _ "1" none_orderly) as (o1 & o2 & r & A & P1 & _).
  pose proof (kept ex_tokens (mkSim 0 []) ex_sdk "1" None none_orderly) as (Or & _). rewrite A in Or. cbn [fst] in Or.
  destruct (ex_added ex_tokens k2 eq_refl eq_refl ltac:(discriminate) eq_refl eq_refl eq_refl eq_refl _ "2" Or) as (o3 & o4 & r2 & A2 & P3 & _).
  pose proof (kept ex_tokens _ k2 "2" None Or) as (Or2 & _). rewrite A2 in Or2. cbn [fst] in Or2.
  exists ex_tokens, ex_sdk, k2. do 2 eexists. exists o1, o3, r, r2. split; [discriminate|]. split; [discriminate|]. split; [exact A|]. split; [exact A2|]. cbn [s_orders app map snd s_next In] in *.
  split; [auto|]. split; [auto|]. split; [destruct (Or2 0%nat o1) as [_ ->]; [cbn; auto|reflexivity]|]. split; [destruct (Or2 2%nat o3) as [_ ->]; [cbn; auto|reflexivity]|]. congruence.
Qed.
Print Assumptions C147_added.
Print Assumptions C147_refused.
Print Assumptions C147_kept.
Print Assumptions C147_pairs_refuted.

(** ** C148: groups of curves, links and single encoded orders *)
Theorem C148_groups {I} (curves : list (I * ui)) : let r := curves_by_pair_bidask curves in
  NoDup (map fst r) /\ (forall p, In p (map fst r) <-> exists u, In u (map snd curves) /\ slashpair_of (u_pair u) = p) /\
  forall p g, In (p, g) r -> forall u,
    (In u (g_all g) <-> In u (map snd curves) /\ slashpair_of (u_pair u) = p) /\ (In u (g_ask g) <-> In u (g_all g) /\ u_tkn u = tknb (u_pair u)) /\ (In u (g_bid g) <-> In u (g_all g) /\ u_tkn u <> tknb (u_pair u)).
Proof. exact (groups_spec curves). Qed.
Theorem C148_complete {I} (curves : list (I * ui)) p g : In (p, g) (curves_by_pair_bidask curves) -> g_all g = filter (fun u => String.eqb (slashpair_of (u_pair u)) p) (map snd curves) /\
  (List.length (g_ask g) + List.length (g_bid g) = List.length (g_all g))%nat.
Proof. exact (groups_order curves p g). Qed.
(** the label of a curve is the opposite of the list it is put into *)
Theorem C148_label {I} (curves : list (I * ui)) p g u : In (p, g) (curves_by_pair_bidask curves) -> (In u (g_ask g) -> bidask u = "BID"%string) /\ (In u (g_bid g) -> bidask u = "ASK"%string).
Proof.
  intros H. destruct (groups_spec curves) as (_ & _ & G). destruct (G p g H u) as (_ & Ga & Gb). split; intros Hu; unfold bidask.
  - apply Ga in Hu. destruct Hu as [_ ->]. rewrite String.eqb_refl. reflexivity.
  - apply Gb in Hu. destruct Hu as [_ N]. rewrite (proj2 (String.eqb_neq _ _) N). reflexivity.
Qed.
Theorem C148_link {A} (linked : option A) new : (linked = None -> set_linked linked new = Ret (Some new)) /\ (linked <> None -> set_linked linked new = Raise ValueError).
Proof. destruct linked; split; intros H; try reflexivity; congruence. Qed.
Theorem C148_numbers d : (forall e, Forall (fun kv => exists v, bn2int (snd kv) = Ret v) d -> bn2intd d <> Raise e) /\ forall r, bn2intd d = Ret r -> map fst r = map fst d /\ Forall2 (fun kv kz => bn2int (snd kv) = Ret (snd kz)) d r.
Proof. exact (bn_spec d). Qed.
(** a number is read as it is, and the hexadecimal text of a number as that number *)
Theorem C148_value z : bn2int (BInt z) = Ret z /\ bn2int (BHex (SdkModel.hex z)) = Ret z.
Proof. split; [reflexivity|]. cbn. rewrite SdkProofs3.hex_round. reflexivity. Qed.
(** the reader of a single encoded order never succeeds *)
Theorem C148_never d enc dec sx : exists e, from_SDK0 d enc dec sx = Raise e.
Proof. exact (sdk0_never d enc dec sx). Qed.
Theorem C148_type d enc dec sx : let e := match enc with Some e => e | None => d end in Forall (fun kv => exists v, bn2int (snd kv) = Ret v) e -> (forall k, In k ["A"; "B"; "y"; "z"]%string -> In k (map fst e)) -> from_SDK0 d enc dec sx = Raise TypeError.
Proof. exact (sdk0_complete d enc dec sx). Qed.
Definition ex_ui (t : string) : ui := mkUi (mkPair "ETH" "USDC" "ETH" "USDC" false None None) t (mkCurve (String.eqb t "ETH") 1 1 1 1).
Example C148_ex : curves_by_pair_bidask [(0%nat, ex_ui "ETH"); (1%nat, ex_ui "USDC")] = [("ETH/USDC"%string, mkGroup [ex_ui "ETH"; ex_ui "USDC"] [ex_ui "ETH"] [ex_ui "USDC"])] /\
  bn2intd [("A", BHex "0x1f"); ("B", BInt 3)]%string = Ret [("A", 31%Z); ("B", 3%Z)]%string /\
  from_SDK0 [("A", BInt 1); ("B", BInt 2); ("y", BInt 3); ("z", BHex "0x4")]%string None 18 None = Raise TypeError.
Proof. repeat split. Qed.
Print Assumptions C148_groups.
Print Assumptions C148_complete.
Print Assumptions C148_label.
Print Assumptions C148_link.
Print Assumptions C148_numbers.
Print Assumptions C148_never.
Print Assumptions C148_value.
Print Assumptions C148_type.
