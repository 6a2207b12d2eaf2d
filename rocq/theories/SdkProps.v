(** The SDK layer: encoded orders, tokens, conversions, market data, trades and strategies (C108-C114). *)
From Coq Require Import ZArith QArith Qminmax List Bool Ascii String Lia Lqa.
From Verif Require Import TradeModel TradeSpec PairModel PairSpec CurveModel SdkModel SdkSpec.
From Verif Require Import SdkProofs SdkProofs2 SdkProofs3 SdkProofs4.
Import ListNotations.
Local Open Scope string_scope.

(** ** C108: encoding an order keeps the amounts and the price range *)
Theorem C108_encode y hi lo z t : (0 <= y)%Q -> (0 <= lo)%Q -> (lo <= hi)%Q -> (0 <= match z with Some z => z | None => y end)%Q ->
  exists o, eo_encode y hi lo None z t = Ret o /\ eo_token o = match t with Some t => t | None => "TKN" end /\ is_floor y (eo_y o) /\ is_floor (match z with Some z => z | None => y end) (eo_z o) /\
  exists a b, eo_A_ o = Ret a /\ eo_B_ o = Ret b /\ eo_p_end o = Ret (b * b)%Q /\ eo_p_start o = Ret ((b + a) * (b + a))%Q /\ (0 <= a)%Q /\ (0 <= b)%Q /\
   root_near b lo (two_to (-47)) (two_to (-48)) /\ root_near (b + a) hi (two_to (-45)) (two_to (-47)).
Proof. exact (encode_plain y hi lo z t). Qed.
Example C108_ex : exists o, eo_encode 1000 2000 1500 None (Some 1200%Q) (Some "USDC") = Ret o /\ eo_y o = 1000%Z /\ eo_z o = 1200%Z /\ eo_B o = 1859185469197450%Z. Proof. eexists. split; [vm_compute; reflexivity|]. repeat split. Qed.
(** the encoding is the one of the reference implementation of the contract *)
Theorem C108_benchmark y hi lo t : (0 <= y)%Q -> (0 <= lo)%Q -> (lo <= hi)%Q -> exists o e, eo_encode y hi lo None None t = Ret o /\ encodeOrder y lo hi hi = Some e /\
  eo_y o = o_y e /\ eo_z o = o_z e /\ eo_A o = o_A e /\ eo_B o = o_B e.
Proof. exact (encode_benchmark y hi lo t). Qed.
(** prices must not be negative; swapped prices are accepted but the order cannot be read *)
Theorem C108_negative y hi lo pm z t : (hi < 0)%Q \/ (lo < 0)%Q -> eo_encode y hi lo pm z t = Raise ValueError.
Proof. exact (encode_negative y hi lo pm z t). Qed.
Theorem C108_swapped y hi lo z t h l : encodeRate hi = Some h -> encodeRate lo = Some l -> (h < l)%Z -> exists o, eo_encode y hi lo None z t = Ret o /\ eo_A_ o = Raise ValueError /\ eo_p_start o = Raise ValueError.
Proof. exact (encode_swapped y hi lo z t h l). Qed.
Example C108_swapped_ex : exists h l, encodeRate 1500 = Some h /\ encodeRate 2000 = Some l /\ (h < l)%Z. Proof. do 2 eexists. split; [vm_compute; reflexivity|]. split; [vm_compute; reflexivity|reflexivity]. Qed.
(** an order whose price range ends at zero cannot be described *)
Theorem C108_descr o : (exists e, eo_p_end o = Ret e /\ (e == 0)%Q) -> forall r, eo_descr o <> Ret r.
Proof. intros H. exact (descr_zero o (or_intror H)). Qed.
Theorem C108_descr_refuted : exists o, eo_encode 1 1 0 None None None = Ret o /\ eo_descr o = Raise ZeroDivision.
Proof. eexists. split; [vm_compute; reflexivity|]. vm_compute. reflexivity. Qed.

(** ** C109: the marginal price of an encoded order *)
Theorem C109_both y hi lo pm z t : eo_encode y hi lo (Some pm) (Some z) t = Raise ValueError.
Proof. exact (encode_both y hi lo pm z t). Qed.
Theorem C109_full y hi lo pm t : (hi <= pm)%Q -> eo_encode y hi lo (Some pm) None t = eo_encode y hi lo None None t.
Proof. exact (encode_full y hi lo pm t). Qed.
Theorem C109_marg y hi lo pm t : (0 < y)%Q -> (0 <= lo)%Q -> (lo < hi)%Q -> (pm < hi)%Q ->
  exists o, eo_encode y hi lo (Some pm) None t = Ret o /\ is_floor y (eo_y o) /\ is_floor (- (y * (hi - lo) / (hi - pm))) (eo_z o) /\ (eo_z o < 0)%Z /\ ((1 <= y)%Q -> eo_p_marg o = Raise RuntimeError).
Proof. exact (encode_marg y hi lo pm t). Qed.
Example C109_ex : (0 < 1000)%Q /\ (0 <= 1500)%Q /\ (1500 < 2000)%Q /\ (1750 < 2000)%Q. Proof. repeat split; discriminate. Qed.
(** so an order given by its marginal price is not an order within its capacity *)
Theorem C109_capacity_refuted : exists y hi lo pm o, (0 < y /\ 0 < lo /\ lo < pm /\ pm < hi)%Q /\ eo_encode y hi lo (Some pm) None None = Ret o /\ ~ (eo_y o <= eo_z o)%Z.
Proof. exists 1000%Q, 2000%Q, 1500%Q, 1750%Q. eexists. split; [repeat split; reflexivity|]. split; [vm_compute; reflexivity|]. vm_compute. intros H. apply H. reflexivity. Qed.
Theorem C109_cases o : (eo_y o = eo_z o -> eo_p_marg o = eo_p_start o) /\ (eo_y o = 0%Z -> eo_z o <> 0%Z -> eo_p_marg o = eo_p_end o) /\ (eo_y o <> eo_z o -> eo_y o <> 0%Z -> eo_p_marg o = Raise RuntimeError).
Proof. exact (p_marg_cases o). Qed.
Example C109_cases_ex : (exists p, eo_p_marg (mkEorder "TKN" 5 5 0 140737488355328) = Ret p /\ (p == 1 # 4)%Q) /\ (exists p, eo_p_marg (mkEorder "TKN" 0 5 7 140737488355328) = Ret p /\ (p == 1 # 4)%Q). Proof. split; eexists; (split; [vm_compute; reflexivity|vm_compute; reflexivity]). Qed.
(** the encoder for unencoded curve constants rejects floats and takes integers unscaled *)
Theorem C109_yzAB_float y z A B t : (exists q, A = FloatN q) \/ (exists q, B = FloatN q) -> eo_encode_yzAB y z A B t = Raise TypeError.
Proof. exact (yzAB_float y z A B t). Qed.
Theorem C109_yzAB_int y z A B t : (0 <= A)%Z -> (0 <= B)%Z -> exists o, eo_encode_yzAB (IntN y) (IntN z) (IntN A) (IntN B) (Some t) = Ret o /\ eo_token o = t /\ eo_y o = y /\ eo_z o = z /\
  exists a b, eo_A_ o = Ret a /\ eo_B_ o = Ret b /\ (a <= inject_Z A / inject_Z (2 ^ 48))%Q /\ (b <= inject_Z B / inject_Z (2 ^ 48))%Q /\
   ((A < 2 ^ 48)%Z -> (a == inject_Z A / inject_Z (2 ^ 48))%Q) /\ ((B < 2 ^ 48)%Z -> (b == inject_Z B / inject_Z (2 ^ 48))%Q).
Proof. exact (yzAB_int y z A B t). Qed.
(** a missing token becomes the text None *)
Theorem C109_yzAB_token y z A B : eo_encode_yzAB y z A B None = eo_encode_yzAB y z A B (Some "None") /\ forall t o, eo_encode_yzAB y z A B (Some t) = Ret o -> eo_token o = t.
Proof. split; [reflexivity|]. intros t o. unfold eo_encode_yzAB. destruct (eo_encodeFloat A); [|discriminate]. destruct (eo_encodeFloat B); [|discriminate]. intros [= <-]. reflexivity. Qed.
Theorem C109_yzAB_refuted : exists A B o a, eo_encode_yzAB (IntN 1) (IntN 1) (IntN A) (IntN B) None = Ret o /\ eo_A_ o = Ret a /\ ~ (a == inject_Z A)%Q.
Proof. exists 3%Z, 2%Z. do 2 eexists. split; [vm_compute; reflexivity|]. split; [vm_compute; reflexivity|]. vm_compute. discriminate. Qed.

(** ** C110: tokens and token containers *)
Theorem C110_token t a d n : (int16 (lower (strip a)) = None -> sdk_token t a d n = Raise ValueError) /\
  forall x, int16 (lower (strip a)) = Some x -> exists tk, sdk_token t a d n = Ret tk /\ t_T tk = upper (strip t) /\ t_a tk = lower (strip a) /\ t_d tk = d /\ t_name tk = match n with Some n => n | None => upper (strip t) end /\ normal tk.
Proof. exact (token_spec t a d n). Qed.
Example C110_token_ex : sdk_token " eth" "0xAbC " (Some 18%Z) None = Ret (mkToken "ETH" "0xabc" (Some 18%Z) "ETH") /\ sdk_token "ETH" "0xyz" None None = Raise ValueError. Proof. split; vm_compute; reflexivity. Qed.
Theorem C110_accept l r : (distinct t_T l = distinct t_a l -> exists c, new_container l r = Ret c) /\ (distinct t_T l <> distinct t_a l -> new_container l r = Raise ValueError).
Proof. destruct (new_spec l r) as [H1 H2]. split; [intros H; eexists; exact (H1 H)|exact H2]. Qed.
(** lookups are insensitive to case and give the last token added *)
Theorem C110_byticker l r c s ro nul : new_container l r = Ret c ->
  byticker c s ro nul = match last_with t_T (upper s) l with Some t => Ret (Some t) | None => if match ro with Some b => b | None => match r with Some b => b | None => true end end then Raise KeyError else Ret (if nul then Some NULTKN else None) end.
Proof. intros H. rewrite (byticker_spec l r c s ro nul H). destruct (new_inv _ _ _ H) as [-> _]. reflexivity. Qed.
Theorem C110_byaddr l r c s ro nul : new_container l r = Ret c ->
  byaddr c s ro nul = match last_with t_a (lower s) l with Some t => Ret (Some t) | None => if match ro with Some b => b | None => match r with Some b => b | None => true end end then Raise KeyError else Ret (if nul then Some NULTKN else None) end.
Proof. intros H. rewrite (byaddr_spec l r c s ro nul H). destruct (new_inv _ _ _ H) as [-> _]. reflexivity. Qed.
Theorem C110_name l r c s : new_container l r = Ret c -> byaddr1_name c s = match last_with t_a (lower s) l with Some t => t_T t | None => lower s end.
Proof. intros H. exact (proj2 (byaddr1_spec l r c s H)). Qed.
Theorem C110_unique l r : NoDup (map t_T l) -> NoDup (map t_a l) -> exists c, new_container l r = Ret c /\ all_tokens c = l /\ c_len c = List.length l /\
  forall t, In t l -> normal t -> forall s ro nul, (same_ci s (t_T t) -> byticker c s ro nul = Ret (Some t)) /\ (same_ci s (t_a t) -> byaddr c s ro nul = Ret (Some t)).
Proof. exact (unique_spec l r). Qed.
Definition ETH := mkToken "ETH" "0xe" (Some 18%Z) "ETH".
Definition USDC := mkToken "USDC" "0xa" (Some 6%Z) "USDC".
Example C110_ex : NoDup (map t_T [ETH; USDC]) /\ NoDup (map t_a [ETH; USDC]) /\ normal ETH /\ same_ci "eth" (t_T ETH).
Proof. repeat split; try reflexivity; cbn; repeat constructor; cbn; intuition discriminate. Qed.
Theorem C110_containsall l r c s : new_container l r = Ret c -> (containsall c s = true <-> forall x, In x s -> exists t, In t l /\ t_T t = x).
Proof. exact (containsall_spec l r c s). Qed.
Theorem C110_restore s : restore (inr s) (Some true) = Raise ValueError /\ restore (inr s) None = Ret None /\ restore (inr s) (Some false) = Ret None /\ forall t r, restore (inl t) r = Ret (Some t).
Proof. exact (restore_spec s). Qed.
Theorem C110_hash c : exists e, c_hash c = Raise e /\ (e = KeyError \/ e = TypeError).
Proof. exact (hash_spec c). Qed.
(** with repeated tickers and addresses a container can be accepted in which the two lookups disagree *)
Theorem C110_consistent_refuted : exists l c t, Forall normal l /\ new_container l None = Ret c /\ byaddr c "0x1" None false = Ret (Some t) /\ byticker c (t_T t) None false <> Ret (Some t).
Proof.
  exists [mkToken "A" "0x1" None "A"; mkToken "B" "0x2" None "B"; mkToken "A" "0x2" None "A"]. do 2 eexists. split; [repeat constructor|]. split; [vm_compute; reflexivity|]. split; [vm_compute; reflexivity|]. vm_compute. discriminate.
Qed.

(** ** C111: amounts in wei, big numbers, names and paths *)
Theorem C111_wei t d w : t_d t = Some d -> exists x, w2t t (inject_Z w) = Ret x /\ (x * ten_to d == inject_Z w)%Q /\ t2w t x = Ret w.
Proof. exact (wei_round t d w). Qed.
Theorem C111_wei_down t d a : t_d t = Some d -> (0 <= a)%Q -> exists w x, t2w t a = Ret w /\ w2t t (inject_Z w) = Ret x /\ (0 <= w)%Z /\ (x <= a)%Q /\ (a < x + 1 / ten_to d)%Q.
Proof. exact (wei_down t d a). Qed.
Theorem C111_wei_none t x : t_d t = None -> w2t t x = Raise TypeError /\ t2w t x = Raise TypeError.
Proof. exact (wei_none t x). Qed.
Example C111_wei_ex : t_d USDC = Some 6%Z /\ t2w USDC (1 # 3) = Ret 333333%Z /\ (ten_to 6 == 1000000)%Q. Proof. repeat split; vm_compute; reflexivity. Qed.
Theorem C111_bignumber x : bn2int (int2bn x) = Ret (JInt (if Qle_bool 0 x then Qround.Qfloor x else Qround.Qceiling x)).
Proof. exact (bn_round x). Qed.
Theorem C111_other v : (forall h, v <> JDict (Some "BigNumber") h) -> bn2int v = Ret v.
Proof. exact (bn_other v). Qed.
Theorem C111_hex n : int16 (hex n) = Some n.
Proof. exact (hex_round n). Qed.
Example C111_hex_ex : hex 48879 = "0xbeef" /\ hex (-255) = "-0xff" /\ int16 " 0xBEEF " = Some 48879%Z /\ int16 "0x" = None. Proof. repeat split; vm_compute; reflexivity. Qed.
Theorem C111_camel s : all_chars is_letter s = true -> starts is_lower s = true -> s2c (c2s s) = s.
Proof. exact (camel_round s). Qed.
Example C111_camel_ex : all_chars is_letter "mGetRangeByPair" = true /\ c2s "mGetRangeByPair" = "m_get_range_by_pair". Proof. repeat split; vm_compute; reflexivity. Qed.
Theorem C111_snake s : all_chars (fun c => negb (is_upper c)) (c2s s) = true.
Proof. exact (snake_lower s). Qed.
Theorem C111_camel_refuted : exists s, starts is_lower s = true /\ s2c (c2s s) <> s.
Proof. exists "aB2c". split; [reflexivity|]. vm_compute. discriminate. Qed.
Theorem C111_join u p : p <> "" -> starts_slash p = false ->
  (join (u ++ "/") p = Ret (u ++ "/" ++ p) /\ join (u ++ "/") ("/" ++ p) = Ret (u ++ "/" ++ p)) /\
  (u <> "" -> ends_slash u = false -> join u p = Ret (u ++ "/" ++ p) /\ join u ("/" ++ p) = Ret (u ++ "/" ++ p)).
Proof. intros H1 H2. split; [exact (join_slash u p H1 H2)|]. intros H3 H4. split; [exact (join_plain u p H3 H1 H4 H2)|exact (join_slash2 u p H3 H4)]. Qed.
Example C111_join_ex : join "http://localhost:3118/api/" "/sdk" = Ret "http://localhost:3118/api/sdk". Proof. vm_compute. reflexivity. Qed.
Theorem C111_join_empty u p : u = "" \/ p = "" -> join u p = Raise IndexError.
Proof. exact (join_empty u p). Qed.
Theorem C111_join_refuted : exists u p, join u p = Ret "a//b". Proof. exists "a//", "b". vm_compute. reflexivity. Qed.
(** the answer is read according to the endpoint called unless the default is to call synchronously and nothing is said *)
Theorem C111_call d s : let b := match s with Some b => b | None => d end in
  fst (call_mode d s) = (if b then "scall" else "ascall") /\ (snd (call_mode d s) = negb b <-> ~ (s = None /\ d = true)).
Proof. exact (call_spec d s). Qed.

(** ** C112: market data of a pair *)
Theorem C112_range s T a b q : listed T a b q ->
  (sane s b q -> mGetRangeByPair s T a (t_T q) = Ret (mkPrange (Some (s_maxrate s (t_a b) (t_a q))) (Some (s_minrate s (t_a b) (t_a q))) (t_T q) (t_T b) "bid" true)) /\
  (sane s q b -> mGetRangeByPair s T a (t_T b) = Ret (mkPrange (Some (1 / s_maxrate s (t_a q) (t_a b))%Q) (Some (1 / s_minrate s (t_a q) (t_a b))%Q) (t_T b) (t_T q) "ask" false)).
Proof. intros H. split; intros S; [exact (range_bid s T a b q H S)|exact (range_ask s T a b q H S)]. Qed.
(** a rate of zero on the ask side has no inverse *)
Theorem C112_range_zero s T a b q : listed T a b q -> (s_maxrate s (t_a q) (t_a b) == 0)%Q \/ (s_minrate s (t_a q) (t_a b) == 0)%Q -> mGetRangeByPair s T a (t_T b) = Raise ZeroDivision.
Proof. exact (range_ask_zero s T a b q). Qed.
Theorem C112_foreign s T a b q x : names a b q -> x <> b -> x <> q -> mGetRangeByPair s T a x = Raise AttributeError.
Proof. exact (range_foreign s T a b q x). Qed.
Theorem C112_liquidity s T a b q : listed T a b q ->
  mGetLiquidityByPair s T a (t_T q) = Ret (mkPliq (s_liq s (t_a b) (t_a q)) (t_T q) (t_T q) "bid" None None) /\
  mGetLiquidityByPair s T a (t_T b) = Ret (mkPliq (s_liq s (t_a q) (t_a b)) (t_T b) (t_T b) "ask" None None) /\
  mHasLiquidityByPair s T a (t_T q) = Ret (s_hasliq s (t_a b) (t_a q)) /\ mHasLiquidityByPair s T a (t_T b) = Ret (s_hasliq s (t_a q) (t_a b)).
Proof. exact (liq_spec s T a b q). Qed.
Theorem C112_depth s T a b q rate : listed T a b q ->
  mGetRateLiquidityDepthByPair s T rate a (t_T q) = Ret (mkPliq (s_depth s (t_a b) (t_a q) rate) (t_T q) (t_T q) "bid" (Some rate) (Some false)) /\
  ((0 < rate)%Q -> mGetRateLiquidityDepthByPair s T rate a (t_T b) = Ret (mkPliq (s_depth s (t_a q) (t_a b) (1 / rate)%Q) (t_T b) (t_T b) "ask" (Some rate) (Some true))) /\
  ((rate == 0)%Q -> mGetRateLiquidityDepthByPair s T rate a (t_T b) = Raise ZeroDivision).
Proof. exact (depth_spec s T a b q rate). Qed.
Theorem C112_depths s T a b q rates : listed T a b q ->
  mGetRateLiquidityDepthsByPair s T rates a (t_T q) = Ret (map (s_depth s (t_a b) (t_a q)) rates) /\
  (Forall (fun r => 0 < r)%Q rates -> mGetRateLiquidityDepthsByPair s T rates a (t_T b) = Ret (map (fun r => s_depth s (t_a q) (t_a b) (1 / r)%Q) rates)) /\
  (Exists (fun r => r == 0)%Q rates -> mGetRateLiquidityDepthsByPair s T rates a (t_T b) = Raise TypeError).
Proof. exact (depths_spec s T a b q rates). Qed.
Theorem C112_pairs s T l : (Forall (fun e => let '(a, b, q) := e in listed T a b q) l) ->
  exists r, mHasLiquidityByPairs s T (map (fun e => fst (fst e)) l) = Ret r /\
   map (fun e => (snd (fst e), snd e)) r = flat_map (fun e => let '(a, b, q) := e in [(t_T q, s_hasliq s (t_a b) (t_a q)); (t_T b, s_hasliq s (t_a q) (t_a b))]) l.
Proof. exact (pairs_spec s T l). Qed.
Definition ex_server : server := mkServer (fun _ _ => true) (fun a _ => if String.eqb a "0xe" then 5000 else 3)%Q
  (fun a _ => if String.eqb a "0xe" then 1400 else (1 # 2000))%Q (fun a _ => if String.eqb a "0xe" then 1500 else (1 # 1600))%Q (fun _ _ r => r).
Definition ex_tokens : container := mkContainer true [("ETH", ETH); ("USDC", USDC)] [("0xe", ETH); ("0xa", USDC)].
Lemma ex_listed : listed ex_tokens (SlashStr "eth/usdc") ETH USDC.
Proof. split; [left; exists "eth", "usdc"; repeat split; apply PairProofs.no_slash_free; reflexivity|]. split; [discriminate|]. split; vm_compute; reflexivity. Qed.
Lemma ex_sane : sane ex_server ETH USDC /\ sane ex_server USDC ETH. Proof. repeat split; vm_compute; try reflexivity; discriminate. Qed.
Example C112_ex : new_container [ETH; USDC] None = Ret ex_tokens /\ listed ex_tokens (SlashStr "eth/usdc") ETH USDC /\ sane ex_server ETH USDC /\ sane ex_server USDC ETH.
Proof. split; [vm_compute; reflexivity|]. split; [exact ex_listed|exact ex_sane]. Qed.
(** a server that knows no rates *)
Example C112_zero_ex : mGetRangeByPair (mkServer (fun _ _ => false) (fun _ _ => 0%Q) (fun _ _ => 0%Q) (fun _ _ => 0%Q) (fun _ _ _ => 0%Q)) ex_tokens (SlashStr "eth/usdc") (t_T ETH) = Raise ZeroDivision.
Proof. apply (C112_range_zero _ _ _ ETH USDC (proj1 (proj2 C112_ex))). left. reflexivity. Qed.
Theorem C112_market s T a b q : listed T a b q -> sane s b q -> sane s q b ->
  exists m, mGetMarketByPair s T a = Ret m /\ m_pair m = t_T b ++ "/" ++ t_T q /\ m_liqBid m = s_liq s (t_a b) (t_a q) /\ m_liqAsk m = s_liq s (t_a q) (t_a b) /\
  exists bid lbid ask lask, m_bestBid m = Some bid /\ m_lastBid m = Some lbid /\ m_bestAsk m = Some ask /\ m_lastAsk m = Some lask /\
   (bid == s_maxrate s (t_a b) (t_a q) /\ lbid == s_minrate s (t_a b) (t_a q) /\ ask == 1 / s_maxrate s (t_a q) (t_a b) /\ lask == 1 / s_minrate s (t_a q) (t_a b))%Q /\
   (0 < lbid /\ lbid <= bid /\ 0 < ask /\ ask <= lask)%Q /\
   exists i, m_inverted m = Ret i /\ (i = true <-> 1 < s_maxrate s (t_a b) (t_a q) * s_maxrate s (t_a q) (t_a b))%Q.
Proof.
  intros L S1 S2. destruct (market_spec s T a b q L S1 S2) as (m & E & P & M1 & M2 & M3 & M4 & M5 & M6). exists m. split; [exact E|]. split; [exact P|]. split; [exact M5|]. split; [exact M6|].
  do 4 eexists. split; [exact M1|]. split; [exact M2|]. split; [exact M3|]. split; [exact M4|]. destruct (market_order s b q _ _ S1 S2 (Qeq_refl _) (Qeq_refl _)) as [O1 O2]. split; [repeat split; reflexivity|].
  split; [destruct S1 as [A1 A2]; destruct S2 as [B1 B2]; repeat split; trivial; apply Qlt_shift_div_l; lra|].
  destruct (proj1 (market_values m 0 _ _ _ _ M1 M3 M2 M4)) as (i & Ei & Hi). exists i. split; [exact Ei|]. rewrite Hi. exact O2.
Qed.
Theorem C112_values m x a b la lb : m_bestBid m = Some b -> m_bestAsk m = Some a -> m_lastBid m = Some lb -> m_lastAsk m = Some la ->
  (exists i, m_inverted m = Ret i /\ (i = true <-> a < b)%Q) /\
  (exists d, m_mid m = Ret d /\ (d == (a + b) / 2)%Q) /\ (exists d, m_spread m = Ret d /\ (b + d == a)%Q) /\
  (~ (a + b == 0)%Q -> exists d, m_spreadpc m = Ret d /\ (d == 2 * (a - b) / (a + b))%Q) /\ ((a + b == 0)%Q -> m_spreadpc m = Raise ZeroDivision) /\
  (exists d, m_ibid m x = Ret d /\ (d == (1 - x) * b + x * lb)%Q) /\ (exists d, m_iask m x = Ret d /\ (d == (1 - x) * a + x * la)%Q) /\ (exists d, m_iall m x = Ret d /\ (d == (1 - x) * lb + x * la)%Q).
Proof. exact (market_values m x a b la lb). Qed.
Example C112_values_ex : exists m, mGetMarketByPair ex_server ex_tokens (SlashStr "eth/usdc") = Ret m /\ m_bestBid m = Some 1500%Q /\ m_inverted m = Ret false. Proof. eexists. split; [vm_compute; reflexivity|]. split; vm_compute; reflexivity. Qed.
(** the flag of a range says the opposite of whether its prices were inverted *)
Theorem C112_flag_refuted : exists s T a r, mGetRangeByPair s T a "USDC" = Ret r /\ pr_start r = Some (s_maxrate s "0xe" "0xa") /\ pr_inverted r = true.
Proof. exists ex_server, ex_tokens, (SlashStr "eth/usdc"). eexists. split; [vm_compute; reflexivity|]. split; reflexivity. Qed.

(** ** C113: creating strategies and preparing trades *)
Theorem C113_create T a b q ss se sa bs be ba eth usdc : names a b q -> byticker T "ETH" (Some false) false = Ret (Some eth) -> byticker T "USDC" (Some false) false = Ret (Some usdc) ->
  (Qmin ss se <= Qmax bs be -> mCreateStrategy T a ss se sa bs be ba = Raise ValueError)%Q /\
  (Qmax bs be < Qmin ss se -> exists r, mCreateStrategy T a ss se sa bs be ba = Ret r /\ cr_base r = t_a eth /\ cr_quote r = t_a usdc /\ cr_buyBudget r = ba /\ cr_sellBudget r = sa /\
    cr_buyLow r == Qmin bs be /\ cr_buyHigh r == Qmax bs be /\ cr_sellLow r == Qmin ss se /\ cr_sellHigh r == Qmax ss se)%Q.
Proof. exact (create_spec T a b q ss se sa bs be ba eth usdc). Qed.
Example C113_ex : names (SlashStr "eth/usdc") "ETH" "USDC" /\ byticker ex_tokens "ETH" (Some false) false = Ret (Some ETH) /\ byticker ex_tokens "USDC" (Some false) false = Ret (Some USDC) /\ (Qmax 1500 1600 < Qmin 2000 1900)%Q.
Proof. split; [exact (proj1 ex_listed)|]. repeat split; vm_compute; reflexivity. Qed.
(** the pair given is not used: the strategy is always one on ETH and USDC *)
Theorem C113_pair T a b q a' b' q' ss se sa bs be ba : names a b q -> names a' b' q' -> mCreateStrategy T a ss se sa bs be ba = mCreateStrategy T a' ss se sa bs be ba.
Proof. exact (create_pair T a b q a' b' q' ss se sa bs be ba). Qed.
Definition WBTC := mkToken "WBTC" "0xb" (Some 8%Z) "WBTC".
Definition ex_tokens3 : container := mkContainer true [("ETH", ETH); ("USDC", USDC); ("WBTC", WBTC)] [("0xe", ETH); ("0xa", USDC); ("0xb", WBTC)].
Theorem C113_pair_refuted : exists T a b q r, listed T a b q /\ mCreateStrategy T a 2000 2100 1 1500 1400 1000 = Ret r /\ cr_base r <> t_a b.
Proof.
  exists ex_tokens3, (SlashStr "wbtc/usdc"), WBTC, USDC. eexists. split.
  - split; [left; exists "wbtc", "usdc"; repeat split; apply PairProofs.no_slash_free; reflexivity|]. split; [discriminate|]. split; vm_compute; reflexivity.
  - split; [vm_compute; reflexivity|]. vm_compute. discriminate.
Qed.
Theorem C113_prepare g T a b q amount : listed T a b q -> (0 < amount)%Q -> containsall g [t_T b; t_T q] = true ->
  mPrepareTrade g T a "BUY" (t_T b) amount = Ret (mkTradeReq q b true amount) /\
  mPrepareTrade g T a "SELL" (t_T b) amount = Ret (mkTradeReq b q false amount) /\
  mPrepareTrade g T a "BUY" (t_T q) amount = Ret (mkTradeReq b q true amount) /\
  mPrepareTrade g T a "SELL" (t_T q) amount = Ret (mkTradeReq q b false amount).
Proof. exact (prepare_ok g T a b q amount). Qed.
Example C113_prepare_ex : listed ex_tokens (SlashStr "eth/usdc") ETH USDC /\ containsall ex_tokens3 [t_T ETH; t_T USDC] = true. Proof. split; [exact ex_listed|reflexivity]. Qed.
Theorem C113_invalid g T a b q w x amount : names a b q -> (w <> "BUY" /\ w <> "SELL") \/ (x <> b /\ x <> q) \/ (amount <= 0)%Q -> mPrepareTrade g T a w x amount = Raise ValueError.
Proof. exact (prepare_bad g T a b q w x amount). Qed.
(** the tokens must be in the global container, whatever container the object was given *)
Theorem C113_global g T a b q w x amount : listed T a b q -> containsall g [t_T b; t_T q] = false -> mPrepareTrade g T a w x amount = Raise ValueError.
Proof. exact (prepare_global g T a b q w x amount). Qed.
Example C113_global_ex : listed ex_tokens (SlashStr "eth/usdc") ETH USDC /\ containsall (mkContainer true [("ETH", ETH)] [("0xe", ETH)]) [t_T ETH; t_T USDC] = false. Proof. split; [exact ex_listed|reflexivity]. Qed.
Theorem C113_compose src tgt a b dev :
  (exists m, mComposeTradeTransaction src tgt a b true dev = ByTarget (t_a src) (t_a tgt) m /\ (m == a + a * match dev with Some d => d | None => 1 # 10 end)%Q) /\
  (exists m, mComposeTradeTransaction src tgt a b false dev = BySource (t_a src) (t_a tgt) m /\ (m == b - b * match dev with Some d => d | None => 1 # 10 end)%Q).
Proof. exact (compose_spec src tgt a b dev). Qed.

(** ** C114: the strategies of a user *)
Theorem C114_user l0 r T l : new_container l0 r = Ret T ->
  (Forall base_first l -> exists os, mGetUserStrategies T l = Ret os /\ Forall2 (named (name_of l0)) l os) /\ (~ Forall base_first l -> mGetUserStrategies T l = Raise AssertionError).
Proof. exact (user_names l0 r T l). Qed.
Definition ex_user (o0 o1 : string) : sdk_strat := mkSdkStrat 7 "0xE" "0xA" 1400 1500 1000 2000 2100 1 (mkEorder o0 1 1 1 1) (mkEorder o1 1000 1000 1 1).
Example C114_ex : new_container [ETH; USDC] None = Ret ex_tokens /\ Forall base_first [ex_user "0xe" "0xA"] /\ ~ base_first (ex_user "0xa" "0xe").
Proof. split; [vm_compute; reflexivity|]. split; [repeat constructor|]. intros [H _]. vm_compute in H. discriminate H. Qed.

Print Assumptions C108_encode.
Print Assumptions C108_benchmark.
Print Assumptions C108_negative.
Print Assumptions C108_swapped.
Print Assumptions C108_descr.
Print Assumptions C108_descr_refuted.
Print Assumptions C109_both.
Print Assumptions C109_full.
Print Assumptions C109_marg.
Print Assumptions C109_capacity_refuted.
Print Assumptions C109_cases.
Print Assumptions C109_yzAB_float.
Print Assumptions C109_yzAB_int.
Print Assumptions C109_yzAB_token.
Print Assumptions C109_yzAB_refuted.
Print Assumptions C110_token.
Print Assumptions C110_accept.
Print Assumptions C110_byticker.
Print Assumptions C110_byaddr.
Print Assumptions C110_name.
Print Assumptions C110_unique.
Print Assumptions C110_containsall.
Print Assumptions C110_restore.
Print Assumptions C110_hash.
Print Assumptions C110_consistent_refuted.
Print Assumptions C111_wei.
Print Assumptions C111_wei_down.
Print Assumptions C111_wei_none.
Print Assumptions C111_bignumber.
Print Assumptions C111_other.
Print Assumptions C111_hex.
Print Assumptions C111_camel.
Print Assumptions C111_snake.
Print Assumptions C111_camel_refuted.
Print Assumptions C111_join.
Print Assumptions C111_join_empty.
Print Assumptions C111_join_refuted.
Print Assumptions C111_call.
Print Assumptions C112_range.
Print Assumptions C112_range_zero.
Print Assumptions C112_foreign.
Print Assumptions C112_liquidity.
Print Assumptions C112_depth.
Print Assumptions C112_depths.
Print Assumptions C112_pairs.
Print Assumptions C112_market.
Print Assumptions C112_values.
Print Assumptions C112_flag_refuted.
Print Assumptions C113_create.
Print Assumptions C113_pair.
Print Assumptions C113_pair_refuted.
Print Assumptions C113_prepare.
Print Assumptions C113_invalid.
Print Assumptions C113_global.
Print Assumptions C113_compose.
Print Assumptions C114_user.
