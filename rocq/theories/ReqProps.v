(** C170 and C171: what the SDK wrapper sends over http and what it makes of the answers. *)
From Coq Require Import ZArith QArith List Bool Ascii String DecimalString.
From Verif Require Import TradeModel PairModel CurveModel SdkModel SdkSpec ReqModel ReqSpec ReqProofs.
Import ListNotations.
Local Open Scope string_scope.

(** ** C170: requests and answers *)
Definition ex_sdk : sdk := new_sdk None None None None None.
Definition ex_rp (v : val) : string := "1.5".
Definition ex_net (a : answer) : network := fun _ => a.
Example ex_plain : plain (k_apibase ex_sdk). Proof. repeat split; discriminate. Qed.

(** synchronous calls: one request, and the data of the answer or an exception *)
Theorem C170_sync net s ep p : plain (k_apibase s) -> ep <> "" -> starts_slash ep = false ->
  let q := mkReq true (at_server (k_apibase s) ("scall/" ++ ep)) (k_token s) p in exists r, scall net s ep p = ([q], r) /\ checked (net q) r.
Proof. exact (scall_ok net s ep p). Qed.
Theorem C170_checked a r r' : checked a r -> checked a r' -> r = r'.
Proof. exact (checked_det a r r'). Qed.
Example C170_sync_ex : plain (k_apibase ex_sdk) /\ scall (ex_net (Answer 200 (Some (VDict [("data", VInt 7)])))) ex_sdk "pairs" [] = ([mkReq true "http://localhost:3118/api/scall/pairs" "carbontoken" []], Ret (VInt 7)).
Proof. split; [exact ex_plain|vm_compute; reflexivity]. Qed.
(** asynchronous calls: the status is not looked at *)
Theorem C170_async net s ep p sync : plain (k_apibase s) -> ep <> "" -> starts_slash ep = false -> sync <> Some true ->
  let q := mkReq true (at_server (k_apibase s) (kinds s sync ++ "/" ++ ep)) (k_token s) p in exists r, call net s ep (Some p) None sync = ([q], let* i := r in Ret (inr i)) /\ queued (k_raise s) (net q) r.
Proof. exact (call_async net s ep p sync). Qed.
Example C170_async_ex : call (ex_net (Answer 500 (Some (VDict [("success", VBool true); ("reqid", VInt 3)])))) ex_sdk "plus" (Some []) None None = ([mkReq true "http://localhost:3118/api/ascall/plus" "carbontoken" []], Ret (inr (VInt 3))).
Proof. vm_compute. reflexivity. Qed.
(** an object for synchronous calls cannot read the answer of a call that leaves sync open *)
Theorem C170_syncdefault_refuted : exists s net v, k_sync s = true /\ (forall q, net q = Answer 200 (Some (VDict [("success", VBool true); ("data", v)]))) /\
  call net s "plus" (Some []) None None = ([mkReq true "http://localhost:3118/api/scall/plus" "carbontoken" []], Raise KeyError) /\
  call net s "plus" (Some []) None (Some true) = ([mkReq true "http://localhost:3118/api/scall/plus" "carbontoken" []], Ret (inl (mkResp 200 (Some (VDict [("success", VBool true); ("data", v)]))))).
Proof. exists (new_sdk None None None (Some true) None), (ex_net (Answer 200 (Some (VDict [("success", VBool true); ("data", VInt 5)])))), (VInt 5). repeat split; vm_compute; reflexivity. Qed.
(** results of asynchronous calls *)
Theorem C170_result rp net s reqid : plain (k_apibase s) -> pystr rp reqid <> "" -> starts_slash (pystr rp reqid) = false ->
  let q := mkReq false (at_server (k_apibase s) ("result/" ++ pystr rp reqid)) (k_token s) [] in exists r, result rp net s reqid = ([q], r) /\ fetched (k_raise s) (net q) r.
Proof. exact (result_ok rp net s reqid). Qed.
Example C170_result_ex : result ex_rp (ex_net (Answer 200 (Some (VDict [("success", VBool true); ("data", VDict [("result", VInt 6)])])))) ex_sdk (VInt 17) = ([mkReq false "http://localhost:3118/api/result/17" "carbontoken" []], Ret (VInt 6)).
Proof. vm_compute. reflexivity. Qed.
Theorem C170_result_empty rp net s reqid : pystr rp reqid = "" -> result rp net s reqid = ([], Raise NameError).
Proof. exact (result_empty rp net s reqid). Qed.
(** without a connection the address of the wallet is a KeyError *)
Theorem C170_addr_lost net s : plain (k_apibase s) -> (forall q, exists t, net q = NoAnswer t) -> snd (addr net s) = Raise KeyError.
Proof. exact (addr_lost net s). Qed.
Example C170_addr_ex : addr (ex_net (NoAnswer "refused")) ex_sdk = ([mkReq false "http://localhost:3118/api/addr" "carbontoken" []], Raise KeyError) /\
  addr (ex_net (Answer 200 (Some (VDict [("success", VBool true); ("data", VStr "0xa")])))) ex_sdk = ([mkReq false "http://localhost:3118/api/addr" "carbontoken" []], Ret (VStr "0xa")).
Proof. split; vm_compute; reflexivity. Qed.
(** at most one request per call, always to the server named in the class, with the token of the object *)
Theorem C170_server net s ep params method sync l r : call net s ep params method sync = (l, r) ->
  l = [] \/ exists q p, l = [q] /\ q_url q = ("http://localhost:3118/" ++ p)%string /\ q_token q = k_token s.
Proof. exact (call_sent net s ep params method sync l r). Qed.
Theorem C170_url_refuted : exists url s net q, s = new_sdk (Some url) None None None None /\ k_url s = url /\ fst (call net s "pairs" (Some []) None (Some true)) = [q] /\ String.prefix url (q_url q) = false.
Proof. exists "http://example.org:80". eexists. exists (ex_net (NoAnswer "")). eexists. split; [reflexivity|]. split; [reflexivity|]. split; vm_compute; reflexivity. Qed.
(** a GET request with parameters is not sent, nor is one with an unknown method *)
Theorem C170_method net s ep p sync m : plain (k_apibase s) -> ep <> "" -> starts_slash ep = false -> (m = "get" /\ p <> []) \/ (m <> "get" /\ m <> "post") ->
  call net s ep (Some p) (Some m) sync = ([], Raise (match sync with Some true => ValueError | _ => NameError end)).
Proof.
  intros (A & B & C) H S K. unfold call. rewrite join_kind by assumption. cbn [lift obind]. destruct (kinds_ne s sync ("/" ++ ep)) as [X Y].
  assert (E : req net s (kinds s sync ++ "/" ++ ep) (Some p) (Some m) = ([], Raise ValueError)).
  { unfold req. rewrite SdkProofs3.join_plain by assumption. cbn [lift obind]. unfold req0. cbn [odef]. destruct K as [[-> N]|[N M]].
    - destruct p; [congruence|reflexivity].
    - apply String.eqb_neq in N, M. rewrite N, M. cbn [andb]. rewrite SdkProofs3.join_plain; [reflexivity|discriminate|apply app_ne, A|reflexivity|rewrite starts_app; assumption]. }
  rewrite E. destruct sync as [[]|]; reflexivity.
Qed.
Example C170_method_ex : call (ex_net (NoAnswer "")) ex_sdk "pairs" (Some []) (Some "put") None = ([], Raise NameError). Proof. vm_compute. reflexivity. Qed.
(** balances: each token gets the balance at its place, in token units; tokens beyond the end of the answer get none *)
Theorem C170_balance net s tokens address data zs : plain (k_apibase s) -> NoDup (map t_T tokens) -> Forall (fun t => t_d t <> None) tokens ->
  let q := mkReq true (at_server (k_apibase s) "erc20/balance_of") (k_token s) [("tokens", VList (map (fun t => VStr (t_a t)) tokens)); ("address", address)] in
  net q = Answer 200 (Some (VDict [("data", VList data)])) ->
  Forall2 (fun v z => v = VInt z \/ exists h, v = VDict [("type", VStr "BigNumber"); ("hex", VStr h)] /\ int16 h = Some z) data zs ->
  exists r, getERC20Balance net s tokens address = ([q], Ret r) /\
    forall i t, nth_error tokens i = Some t -> match nth_error zs i with Some z => exists d, t_d t = Some d /\ dget (t_T t) r = Some (inject_Z z / Qpower 10 d)%Q | None => dget (t_T t) r = None end.
Proof.
  intros P ND FD q N F2. unfold getERC20Balance. rewrite req_post; [|exact P|discriminate|reflexivity]. fold q. rewrite N. cbn [obind respond lift checkresult r_status r_json].
  assert (F : Forall2 (fun v z => vbn2int v = Ret (VInt z)) data zs).
  { clear N. induction F2 as [|v z vs zs' H F2 IH]; constructor; [|exact IH]. destruct H as [->|(h & -> & E)]; [reflexivity|]. cbn. rewrite E. reflexivity. }
  destruct (balances_spec tokens data zs [] ND FD F) as (r & E & _ & I). exists r. split; [|exact I].
  unfold checkresult. cbn [r_status r_json]. change (200 =? 200)%Z with true. cbn [negb sub dget]. change (String.eqb "data" "data") with true. cbn match. cbn [rbind iter]. rewrite E. reflexivity.
Qed.
Example C170_balance_ex : let T := [mkToken "ETH" "0xe" (Some 18%Z) "ETH"; mkToken "USDC" "0xc" (Some 6%Z) "USDC"; mkToken "DAI" "0xd" (Some 18%Z) "DAI"] in
  getERC20Balance (ex_net (Answer 200 (Some (VDict [("data", VList [VDict [("type", VStr "BigNumber"); ("hex", VStr "0xde0b6b3a7640000")]; VInt 2500000])])))) ex_sdk T (VStr "0xa") =
  ([mkReq true "http://localhost:3118/api/erc20/balance_of" "carbontoken" [("tokens", VList [VStr "0xe"; VStr "0xc"; VStr "0xd"]); ("address", VStr "0xa")]],
   Ret [("ETH", inject_Z (10 ^ 18) / Qpower 10 18); ("USDC", inject_Z 2500000 / Qpower 10 6)]%Q).
Proof. vm_compute. reflexivity. Qed.
(** a text given as rate is taken apart into its characters *)
Theorem C170_rate_refuted : exists rp net s, fst (getRateLiquidityDepthByPair rp (fun _ => None) net s (VStr "0xa") (VStr "0xb") (VStr "0.5")) =
  [mkReq true "http://localhost:3118/api/scall/get_rate_liquidity_depth_by_pair" "carbontoken" [("sourceToken", VStr "0xa"); ("targetToken", VStr "0xb"); ("rate", VList [VStr "0"; VStr "."; VStr "5"])]].
Proof. exists ex_rp, (ex_net (NoAnswer "")), ex_sdk. vm_compute. reflexivity. Qed.
(** numbers and lists of numbers are sent as texts *)
Theorem C170_rate rp pf net s a b rate : plain (k_apibase s) -> (forall d, rate <> VDict d) -> (forall t, rate <> VStr t) ->
  exists q, fst (getRateLiquidityDepthByPair rp pf net s a b rate) = [q] /\
    dget "rate" (q_body q) = Some (match rate with VList l => VList (map (fun v => VStr (pystr rp v)) l) | _ => VStr (pystr rp rate) end).
Proof.
  intros P D T. unfold getRateLiquidityDepthByPair. change (c2s "getRateLiquidityDepthByPair") with "get_rate_liquidity_depth_by_pair".
  edestruct (scall_ok net s "get_rate_liquidity_depth_by_pair") as (r & E & _); [exact P|discriminate|reflexivity|]. rewrite E. eexists. split; [destruct r; reflexivity|].
  cbn [q_body]. destruct rate; try reflexivity; [destruct (T s0); reflexivity|destruct (D l); reflexivity].
Qed.
(** the pairs of the contract are looked up in the tokens of the module; an unknown address is an AttributeError when the names are asked for *)
Theorem C170_pairs T net s (l : list (string * string)) : plain (k_apibase s) -> (forall q, net q = Answer 200 (Some (VDict [("data", VList (map (fun ab => VList [VStr (fst ab); VStr (snd ab)]) l))]))) ->
  snd (pairs T net s false) = Ret (map (fun ab => (byaddr1 T (fst ab), byaddr1 T (snd ab))) l, None) /\
  (forall ts, map (fun ab => (byaddr1 T (fst ab), byaddr1 T (snd ab))) l = map (fun t => (inl (fst t), inl (snd t))) ts ->
     snd (pairs T net s true) = Ret (map (fun t => (inl (fst t), inl (snd t))) ts, Some (String.concat ", " (map (fun t => (t_T (fst t) ++ "/" ++ t_T (snd t))%string) ts)))) /\
  ((exists ab x, In ab l /\ (byaddr1 T (fst ab) = inr x \/ byaddr1 T (snd ab) = inr x)) -> snd (pairs T net s true) = Raise AttributeError).
Proof. exact (pairs_ok T net s l). Qed.
Example C170_pairs_ex : let T := mkContainer true [] [("0xe", mkToken "ETH" "0xe" (Some 18%Z) "ETH"); ("0xc", mkToken "USDC" "0xc" (Some 6%Z) "USDC")] in
  snd (pairs T (ex_net (Answer 200 (Some (VDict [("data", VList [VList [VStr "0xE"; VStr "0xc"]])])))) ex_sdk true) = Ret ([(inl (mkToken "ETH" "0xe" (Some 18%Z) "ETH"), inl (mkToken "USDC" "0xc" (Some 6%Z) "USDC"))], Some "ETH/USDC").
Proof. vm_compute. reflexivity. Qed.

(** lookups of decimals and symbols: by position, under the ticker (or the address if addresses were given) *)
Theorem C170_lookup net s tokens data : plain (k_apibase s) -> NoDup (map t_T tokens) ->
  (forall q, net q = Answer 200 (Some (VDict [("data", VList data)]))) ->
  exists q q' r r', getERC20Decimals net s tokens = ([q], Ret r) /\ getERC20Symbol net s (inl tokens) = ([q'], Ret r') /\
    q_url q = at_server (k_apibase s) "erc20/decimals" /\ q_url q' = at_server (k_apibase s) "erc20/symbol" /\
    q_body q = [("tokens", VList (map (fun t => VStr (t_a t)) tokens))] /\ q_body q' = q_body q /\
    forall i t, nth_error tokens i = Some t -> dget (t_T t) r = nth_error data i /\ dget (t_T t) r' = nth_error data i.
Proof. exact (lookup_ok net s tokens data). Qed.
Theorem C170_lookup_addr net s addrs data : plain (k_apibase s) -> NoDup addrs -> (forall q, net q = Answer 200 (Some (VDict [("data", VList data)]))) ->
  exists q r, getERC20Symbol net s (inr addrs) = ([q], Ret r) /\ q_body q = [("tokens", VList (map VStr addrs))] /\ forall i a, nth_error addrs i = Some a -> dget a r = nth_error data i.
Proof. exact (lookup_addr_ok net s addrs data). Qed.
Example C170_lookup_ex : snd (getERC20Symbol (ex_net (Answer 200 (Some (VDict [("data", VList [VStr "ETH"; VStr "DAI"])])))) ex_sdk (inr ["0xe"; "0xd"; "0xc"])) = Ret [("0xe", VStr "ETH"); ("0xd", VStr "DAI")].
Proof. vm_compute. reflexivity. Qed.
(** the wallet address: None if the server reports no success *)
Theorem C170_addr net s d v : plain (k_apibase s) -> dget "success" d = Some v -> (forall q, exists st, net q = Answer st (Some (VDict d))) ->
  addr net s = ([mkReq false (at_server (k_apibase s) "addr") (k_token s) []], if truthy v then match dget "data" d with Some x => Ret x | None => Raise KeyError end else Ret VNone).
Proof.
  intros P S N. unfold addr. change (c2s "addr") with "addr". rewrite req_get; [|exact P|discriminate|reflexivity]. cbn [obind]. edestruct N as [st ->]. cbn [respond r_json lift sub]. rewrite S. cbn [rbind app]. destruct (truthy v); reflexivity.
Qed.
(** liquidity by pair: addresses or a list of pairs, not both *)
Theorem C170_hasliquidity rp net s a b ps : plain (k_apibase s) ->
  (a <> VNone \/ b <> VNone -> hasLiquidityByPair rp net s a b (Some ps) = ([], Raise ValueError)) /\
  (exists q r, hasLiquidityByPair rp net s VNone VNone (Some ps) = ([q], r) /\ checked (net q) r /\ q_url q = at_server (k_apibase s) "scall/has_liquidity_by_pair" /\
     q_body q = [("pairList", VList (map (fun d => VDict (map (fun kv => (fst kv, VStr (pystr rp (snd kv)))) d)) ps))]) /\
  (exists q r, hasLiquidityByPair rp net s a b None = ([q], r) /\ checked (net q) r /\ q_url q = at_server (k_apibase s) "scall/has_liquidity_by_pair" /\
     q_body q = [("sourceToken", VStr (pystr rp a)); ("targetToken", VStr (pystr rp b))]).
Proof.
  intros P. unfold hasLiquidityByPair. change (c2s "hasLiquidityByPair") with "has_liquidity_by_pair". split; [|split].
  - intros H. destruct a, b; try reflexivity. destruct H as [H|H]; destruct (H eq_refl).
  - edestruct (scall_ok net s "has_liquidity_by_pair") as (r & E & C); [exact P|discriminate|reflexivity|]. cbn [is_none andb]. rewrite E. eexists. exists r. split; [reflexivity|]. split; [exact C|]. split; reflexivity.
  - edestruct (scall_ok net s "has_liquidity_by_pair") as (r & E & C); [exact P|discriminate|reflexivity|]. rewrite E. eexists. exists r. split; [reflexivity|]. split; [exact C|]. split; reflexivity.
Qed.
(** liquidity, lowest and highest rate: source before target, and the answer as a number *)
Theorem C170_numbers rp pf net s a b name f : plain (k_apibase s) ->
  In (name, f) [("get_liquidity_by_pair", getLiquidityByPair); ("get_min_rate_by_pair", getMinRateByPair); ("get_max_rate_by_pair", getMaxRateByPair)] ->
  let q := mkReq true (at_server (k_apibase s) ("scall/" ++ name)) (k_token s) [("sourceToken", VStr (pystr rp a)); ("targetToken", VStr (pystr rp b))] in
  exists r, f rp pf net s a b = ([q], let* d := r in pyfloat pf d) /\ checked (net q) r.
Proof.
  intros P I q. assert (G : forall n0, c2s n0 = name -> name <> "" -> starts_slash name = false -> exists r, pairfloat rp pf net s n0 a b = ([q], let* d := r in pyfloat pf d) /\ checked (net q) r).
  { intros n0 E N S. unfold pairfloat. rewrite E. destruct (scall_ok net s name [("sourceToken", VStr (pystr rp a)); ("targetToken", VStr (pystr rp b))] P N S) as (r & X & C). exists r. rewrite X. split; [destruct r; reflexivity|exact C]. }
  destruct I as [I|[I|[I|[]]]]; injection I as <- <-; apply G; try reflexivity; discriminate.
Qed.
(** depths: a number, or a list with None for the entries that are dicts (errors) *)
Theorem C170_depths rp pf net s a b rate l : plain (k_apibase s) -> (forall q, net q = Answer 200 (Some (VDict [("data", VList l)]))) ->
  (forall xs, Forall2 (fun v x => (exists d, v = VDict d /\ x = None) \/ (exists q, pyfloat pf v = Ret q /\ x = Some q)) l xs -> snd (getRateLiquidityDepthByPair rp pf net s a b rate) = Ret (inr xs)) /\
  ((exists v e, In v l /\ (forall d, v <> VDict d) /\ pyfloat pf v = Raise e) -> exists e, snd (getRateLiquidityDepthByPair rp pf net s a b rate) = Raise e).
Proof.
  intros P N. assert (X : snd (getRateLiquidityDepthByPair rp pf net s a b rate) = let* xs := depths pf l in Ret (inr xs)).
  { unfold getRateLiquidityDepthByPair. change (c2s "getRateLiquidityDepthByPair") with "get_rate_liquidity_depth_by_pair". unfold scall.
    rewrite call_sync; [|exact P|discriminate|reflexivity]. cbn [obind]. rewrite N. reflexivity. }
  rewrite X. clear X N. split.
  - intros xs F. assert (E : depths pf l = Ret xs); [|rewrite E; reflexivity].
    induction F as [|v x l xs H F IH]; [reflexivity|]. cbn [depths]. rewrite IH. destruct H as [(d & -> & ->)|(q & H & ->)]; [reflexivity|]. destruct v; try discriminate H; rewrite H; reflexivity.
  - intros (v & e & I & D & H). assert (E : exists e', depths pf l = Raise e'); [|destruct E as [e' ->]; exists e'; reflexivity].
    induction l as [|w l IH]; [destruct I|]. cbn [depths]. destruct I as [->|I].
    + destruct v; try (rewrite H; eexists; reflexivity). destruct (D l0); reflexivity.
    + destruct (IH I) as [e' E]. rewrite E. destruct (match w with VDict _ => Ret None | _ => let* q := pyfloat pf w in Ret (Some q) end); eexists; reflexivity.
Qed.
Example C170_depths_ex : snd (getRateLiquidityDepthByPair ex_rp (fun _ => Some 2%Q) (ex_net (Answer 200 (Some (VDict [("data", VList [VStr "2"; VDict []; VInt 3])])))) ex_sdk (VStr "0xa") (VStr "0xb") (VList [VInt 1; VInt 2; VInt 3])) = Ret (inr [Some 2%Q; None; Some 3%Q]).
Proof. vm_compute. reflexivity. Qed.

(** ** C171: transactions *)
(** the gas limit *)
Theorem C171_gas rp net s : plain (k_apibase s) ->
  (forall a b c d e f g h o, gas_sent (k_apibase s) "scall/create_buy_sell_strategy" (k_token s) o (createBuySellStrategy rp net s a b c d e f g h o)) /\
  (forall i o, gas_sent (k_apibase s) "scall/delete_strategy" (k_token s) o (deleteStrategy rp net s i o)) /\
  (forall a b l d m o, gas_sent (k_apibase s) "scall/compose_trade_by_target_transaction" (k_token s) o (composeTradeByTargetTransaction rp net s a b l d m o)) /\
  (forall a b l d m o, gas_sent (k_apibase s) "scall/compose_trade_by_source_transaction" (k_token s) o (composeTradeBySourceTransaction rp net s a b l d m o)) /\
  (forall i e b q u bm sm o sync, gas_sent (k_apibase s) (kinds s sync ++ "/update_strategy") (k_token s) o (updateStrategy rp net s i e b q (Some u) bm sm o sync)).
Proof.
  intros P. split; [|split; [|split; [|split]]].
  - intros a b c d e f g h o. apply (scall_gas net s "create_buy_sell_strategy" _ o P); [discriminate|reflexivity|reflexivity].
  - intros i o. apply (scall_gas net s "delete_strategy" _ o P); [discriminate|reflexivity|reflexivity].
  - intros a b l d m o. apply (scall_gas net s "compose_trade_by_target_transaction" _ o P); [discriminate|reflexivity|reflexivity].
  - intros a b l d m o. apply (scall_gas net s "compose_trade_by_source_transaction" _ o P); [discriminate|reflexivity|reflexivity].
  - intros i e b q u bm sm o sync. exact (update_gas rp net s i e b q u bm sm o sync P).
Qed.
Example C171_gas_ex : plain (k_apibase ex_sdk) /\ fst (deleteStrategy ex_rp (ex_net (NoAnswer "")) ex_sdk (VInt 7) (Some [("gasLimit", VInt 0); ("nonce", VInt 4)])) = Some [("gasLimit", VInt 999999999); ("nonce", VInt 4)].
Proof. split; [exact ex_plain|reflexivity]. Qed.
(** new strategies: every price and budget under its own name, as text *)
Theorem C171_create rp net s base quote bl bh bb sl sh sb o : plain (k_apibase s) ->
  exists q r, snd (createBuySellStrategy rp net s base quote bl bh bb sl sh sb o) = ([q], r) /\ checked (net q) r /\
    forall name v, In (name, v) [("baseToken", base); ("quoteToken", quote); ("buyPriceLow", bl); ("buyPriceHigh", bh); ("buyBudget", bb); ("sellPriceLow", sl); ("sellPriceHigh", sh); ("sellBudget", sb)] ->
      dget name (q_body q) = Some (VStr (pystr rp v)).
Proof.
  intros P. unfold createBuySellStrategy. change (c2s "createBuySellStrategy") with "create_buy_sell_strategy". cbn [snd].
  edestruct (scall_ok net s "create_buy_sell_strategy") as (r & E & C); [exact P|discriminate|reflexivity|]. rewrite E. eexists. exists r. split; [reflexivity|split; [exact C|]].
  intros name v I. cbn [In] in I. cbn [q_body]. destruct I as [I|[I|[I|[I|[I|[I|[I|[I|[]]]]]]]]]; injection I as <- <-; reflexivity.
Qed.
(** updates: the fields of the record that are not None, as texts; the marginal prices of the record beside it *)
Theorem C171_update rp net s i e b q u bm sm o sync : plain (k_apibase s) ->
  exists rq r d, snd (updateStrategy rp net s i e b q (Some u) bm sm o sync) = ([rq], r) /\ dget "update" (q_body rq) = Some (VDict d) /\
    (forall name v, In (name, v) (six u) -> dget name d = if is_none v then None else Some (VStr (pystr rp v))) /\
    (forall name, ~ In name (map fst (six u)) -> dget name d = None) /\
    (forall name v, In (name, v) [("buyMarginalPrice", u_buyMarginalPrice u); ("sellMarginalPrice", u_sellMarginalPrice u)] -> dget name (q_body rq) = Some (if is_none v then VNone else VStr (pystr rp v))) /\
    (forall name v, In (name, v) [("strategyId", i); ("baseToken", b); ("quoteToken", q)] -> dget name (q_body rq) = Some (VStr (pystr rp v))) /\ dget "encoded" (q_body rq) = Some e.
Proof.
  intros P. destruct (update_sent rp net s i e b q u bm sm o sync P) as [r ->]. cbn [snd]. eexists. exists r, (asdict rp u true true). destruct (update_record rp u) as [A B].
  split; [reflexivity|]. cbn [q_body]. split; [reflexivity|]. split; [exact A|]. split; [exact B|]. split; [|split; [|reflexivity]].
  - intros name v [I|[I|[]]]; injection I as <- <-; reflexivity.
  - intros name v [I|[I|[I|[]]]]; injection I as <- <-; reflexivity.
Qed.
Definition ex_update : update := mkUpdate (VFloat (3 # 2)) VNone VNone VNone VNone (VInt 4) VNone VNone.
Example C171_update_ex : asdict ex_rp ex_update true true = [("buyPriceLow", VStr "1.5"); ("sellBudget", VStr "4")]. Proof. reflexivity. Qed.
(** the marginal prices passed to the function itself are ignored *)
Theorem C171_marginal rp net s i e b q u bm sm bm' sm' o sync : updateStrategy rp net s i e b q u bm sm o sync = updateStrategy rp net s i e b q u bm' sm' o sync.
Proof. reflexivity. Qed.
Theorem C171_marginal_refuted : exists rp net s p rq, p <> VNone /\ fst (snd (updateStrategy rp net s (VInt 1) VNone (VStr "0xa") (VStr "0xb") (Some ex_update) p p None None)) = [rq] /\
  dget "buyMarginalPrice" (q_body rq) = Some VNone /\ dget "sellMarginalPrice" (q_body rq) = Some VNone.
Proof. exists ex_rp, (ex_net (NoAnswer "")), ex_sdk, (VInt 1500). eexists. split; [discriminate|]. split; [vm_compute; reflexivity|]. split; reflexivity. Qed.
(** the record itself, with and without the marginal prices and the empty fields *)
Theorem C171_record rp u : (forall k v, In (k, v) (six u ++ [("buyMarginalPrice", u_buyMarginalPrice u); ("sellMarginalPrice", u_sellMarginalPrice u)]) ->
    dget k (asdict rp u false false) = Some (if is_none v then VNone else VStr (pystr rp v)) /\ dget k (asdict rp u false true) = (if is_none v then None else Some (VStr (pystr rp v)))) /\
  (forall k v, In (k, v) (six u) -> dget k (asdict rp u true false) = Some (if is_none v then VNone else VStr (pystr rp v))) /\
  dget "buyMarginalPrice" (asdict rp u true false) = None /\ dget "sellMarginalPrice" (asdict rp u true false) = None.
Proof.
  assert (ND : NoDup (map fst (fields u))) by (cbn; repeat (constructor; [cbn; intuition discriminate|]); constructor).
  assert (F : forall k v, In (k, v) (fields u) -> dget k (asdict rp u false true) = (if is_none v then None else Some (VStr (pystr rp v)))).
  { intros k v I. change (asdict rp u false true) with (map (fun kv => (fst kv, strnone rp (snd kv))) (filter (fun kv => negb (is_none (snd kv))) (fields u))). rewrite sent_field by exact ND. rewrite (dget_in _ ND _ _ I). reflexivity. }
  split; [|split; [|split; reflexivity]].
  - intros k v I. split; [|apply F; exact I]. cbn [six app In] in I. destruct I as [I|[I|[I|[I|[I|[I|[I|[I|[]]]]]]]]]; injection I as <- <-; reflexivity.
  - intros k v I. cbn [six In] in I. destruct I as [I|[I|[I|[I|[I|[I|[]]]]]]]; injection I as <- <-; reflexivity.
Qed.
Theorem C171_type rp net s i e b q bm sm o sync : updateStrategy rp net s i e b q None bm sm o sync = (o, ([], Raise AssertionError)).
Proof. reflexivity. Qed.
(** trades: limits that are not given, and actions with their ints as decimal texts *)
Theorem C171_trade rp net s a b l d m o : plain (k_apibase s) ->
  exists q q', fst (snd (composeTradeByTargetTransaction rp net s a b l d m o)) = [q] /\ fst (snd (composeTradeBySourceTransaction rp net s a b l d m o)) = [q'] /\
    dget "deadline" (q_body q) = Some (VStr (if is_none d then "4294967295" else pystr rp d)) /\ dget "deadline" (q_body q') = dget "deadline" (q_body q) /\
    dget "maxInput" (q_body q) = Some (VStr (if is_none m then "340282366920938463463374607431768211455" else pystr rp m)) /\ dget "minReturn" (q_body q') = Some (VStr (if is_none m then "1" else pystr rp m)) /\
    dget "tradeActions" (q_body q) = dget "tradeActions" (q_body q') /\
    forall r, In r [q; q'] -> dget "sourceToken" (q_body r) = Some (VStr (pystr rp a)) /\ dget "targetToken" (q_body r) = Some (VStr (pystr rp b)).
Proof.
  intros P. unfold composeTradeByTargetTransaction, composeTradeBySourceTransaction.
  change (c2s "composeTradeByTargetTransaction") with "compose_trade_by_target_transaction". change (c2s "composeTradeBySourceTransaction") with "compose_trade_by_source_transaction".
  edestruct (scall_ok net s "compose_trade_by_target_transaction") as (r & E & _); [exact P|discriminate|reflexivity|].
  edestruct (scall_ok net s "compose_trade_by_source_transaction") as (r' & E' & _); [exact P|discriminate|reflexivity|].
  cbn [fst snd]. rewrite E, E'. eexists. eexists. split; [reflexivity|]. split; [reflexivity|]. cbn [q_body].
  split; [destruct d; reflexivity|]. split; [destruct d; reflexivity|]. split; [destruct m; reflexivity|]. split; [destruct m; reflexivity|]. split; [reflexivity|].
  intros x [<-|[<-|[]]]; split; reflexivity.
Qed.
Theorem C171_actions rp net s a b acts d m o : plain (k_apibase s) ->
  exists q l, fst (snd (composeTradeByTargetTransaction rp net s a b (Some acts) d m o)) = [q] /\ dget "tradeActions" (q_body q) = Some (VList l) /\
    Forall2 (fun act v => exists e, v = VDict e /\ forall k, match dget k act with
      | Some (VInt z) => exists t, dget k e = Some (VStr t) /\ option_map Z.of_int (NilEmpty.int_of_string t) = Some z
      | Some (VBool x) => dget k e = Some (VStr (if x then "True" else "False"))
      | Some v => dget k e = Some v
      | None => dget k e = None
      end) acts l.
Proof.
  intros P. unfold composeTradeByTargetTransaction. change (c2s "composeTradeByTargetTransaction") with "compose_trade_by_target_transaction".
  edestruct (scall_ok net s "compose_trade_by_target_transaction") as (r & E & _); [exact P|discriminate|reflexivity|].
  cbn [fst snd]. rewrite E. eexists. eexists. split; [reflexivity|]. split; [reflexivity|]. clear E. cbn [odef].
  induction acts as [|act acts IH]; constructor; [|exact IH]. exists (int2strd act). split; [reflexivity|]. intros k.
  assert (X : dget k (int2strd act) = option_map int2str (dget k act)).
  { clear IH. induction act as [|[x v] act IH]; [reflexivity|]. cbn. destruct (String.eqb k x); [reflexivity|exact IH]. }
  rewrite X. destruct (dget k act) as [v|]; [|reflexivity]. destruct v; cbn [option_map int2str]; try reflexivity. exists (dec z). split; [reflexivity|apply dec_read].
Qed.
Example C171_trade_ex : fst (snd (composeTradeBySourceTransaction ex_rp (ex_net (NoAnswer "")) ex_sdk (VStr "0xa") (VStr "0xb") (Some [[("id", VInt 12); ("amount", VStr "5")]]) VNone VNone None)) =
  [mkReq true "http://localhost:3118/api/scall/compose_trade_by_source_transaction" "carbontoken"
    [("sourceToken", VStr "0xa"); ("targetToken", VStr "0xb"); ("tradeActions", VList [VDict [("id", VStr "12"); ("amount", VStr "5")]]); ("deadline", VStr "4294967295"); ("minReturn", VStr "1"); ("overrides", VDict [("gasLimit", VInt 999999999)])]].
Proof. vm_compute. reflexivity. Qed.
(** the other requests about trades *)
Theorem C171_data rp net s a b amount t f acts sync i o : plain (k_apibase s) ->
  (exists q r, getTradeData rp net s a b amount t f = ([q], r) /\ checked (net q) r /\ q_url q = at_server (k_apibase s) "scall/get_trade_data" /\
     q_body q = [("sourceToken", VStr (pystr rp a)); ("targetToken", VStr (pystr rp b)); ("amount", VStr (pystr rp amount)); ("tradeByTargetAmount", VBool (truthy t)); ("filter", match f with VNone => VList [] | _ => f end)]) /\
  (exists q, fst (getTradeDataFromActions rp net s a b t acts sync) = [q] /\ q_url q = at_server (k_apibase s) (kinds s sync ++ "/get_trade_data_from_actions") /\
     q_body q = [("sourceToken", VStr (pystr rp a)); ("targetToken", VStr (pystr rp b)); ("tradeByTargetAmount", VBool (truthy t)); ("actionsWei", actions acts)]) /\
  (exists q r, snd (deleteStrategy rp net s i o) = ([q], r) /\ checked (net q) r /\ dget "strategyId" (q_body q) = Some (VStr (pystr rp i))).
Proof.
  intros P. split; [|split].
  - unfold getTradeData. change (c2s "getTradeData") with "get_trade_data". edestruct (scall_ok net s "get_trade_data") as (r & E & C); [exact P|discriminate|reflexivity|]. rewrite E. eexists. exists r. split; [reflexivity|]. split; [exact C|]. split; [reflexivity|]. destruct f; reflexivity.
  - unfold getTradeDataFromActions. change (c2s "getTradeDataFromActions") with "get_trade_data_from_actions". destruct sync as [[]|].
    + rewrite call_sync; [|exact P|discriminate|reflexivity]. eexists. split; [reflexivity|]. split; reflexivity.
    + edestruct (call_async net s "get_trade_data_from_actions") with (sync := Some false) as (r & E & _); [exact P|discriminate|reflexivity|discriminate|]. rewrite E. eexists. split; [reflexivity|]. split; reflexivity.
    + edestruct (call_async net s "get_trade_data_from_actions") with (sync := @None bool) as (r & E & _); [exact P|discriminate|reflexivity|discriminate|]. rewrite E. eexists. split; [reflexivity|]. split; reflexivity.
  - unfold deleteStrategy. change (c2s "deleteStrategy") with "delete_strategy". cbn [snd]. edestruct (scall_ok net s "delete_strategy") as (r & E & C); [exact P|discriminate|reflexivity|]. rewrite E. eexists. exists r. split; [reflexivity|]. split; [exact C|]. reflexivity.
Qed.
(** whether to sign is never sent under its name *)
Theorem C171_sign net s tx sign : plain (k_apibase s) -> exists q, fst (signsubmittx net s tx sign) = [q] /\ dget "sign" (q_body q) = None.
Proof. exact (sign_sent net s tx sign). Qed.
Theorem C171_sign_refuted : exists net s, fst (signsubmittx net s (VStr "0xf8") false) = [mkReq true "http://localhost:3118/api/signsubmittx" "carbontoken" [("tx", VStr "0xf8"); ("false", VBool false)]].
Proof. exists (ex_net (NoAnswer "")), ex_sdk. vm_compute. reflexivity. Qed.

Print Assumptions C170_sync. Print Assumptions C170_checked. Print Assumptions C170_async. Print Assumptions C170_syncdefault_refuted. Print Assumptions C170_result. Print Assumptions C170_result_empty.
Print Assumptions C170_addr_lost. Print Assumptions C170_server. Print Assumptions C170_url_refuted. Print Assumptions C170_method. Print Assumptions C170_balance. Print Assumptions C170_rate_refuted. Print Assumptions C170_rate. Print Assumptions C170_pairs.
Print Assumptions C171_gas. Print Assumptions C171_create. Print Assumptions C171_update. Print Assumptions C171_marginal. Print Assumptions C171_marginal_refuted. Print Assumptions C171_record. Print Assumptions C171_type.
Print Assumptions C171_trade. Print Assumptions C171_actions. Print Assumptions C171_sign. Print Assumptions C171_sign_refuted.
Print Assumptions C170_lookup. Print Assumptions C170_lookup_addr. Print Assumptions C170_addr. Print Assumptions C170_hasliquidity. Print Assumptions C170_numbers. Print Assumptions C170_depths. Print Assumptions C171_data.
