(** Model of the http layer of carbon/sdk: the requests that sdkbase.py and carbonsdk0.py send
    and what they make of the answers.

    The network is a function from requests to answers; a run gives the requests that were sent
    and the outcome. Values are Python objects as json knows them. [rp] is what [str] gives for
    floats, lists and dicts, and [pf] is what [float] makes of a string (None is a ValueError);
    neither is modelled further. ASCII strings only. Messages printed to the console and the
    texts of exceptions are left out. *)
From Coq Require Import ZArith QArith List Bool Ascii String DecimalString.
From Verif Require Import TradeModel PairModel CurveModel SdkModel.
Import ListNotations.
Local Open Scope string_scope.

(** ** values *)
Inductive val := VNone | VBool (b : bool) | VInt (z : Z) | VFloat (q : Q) | VStr (s : string)
  | VList (l : list val) | VDict (l : list (string * val)).
Definition dict := list (string * val).
(** [str(z)] for an int *)
Definition dec (z : Z) : string := NilEmpty.string_of_int (Z.to_int z).
Definition booltext (b : bool) : string := if b then "True" else "False".
(** Python [str] *)
Definition pystr (rp : val -> string) (v : val) : string :=
  match v with
  | VNone => "None" | VBool b => booltext b | VInt z => dec z | VStr s => s
  | _ => rp v
  end.
(** Python [bool] *)
Definition truthy (v : val) : bool :=
  match v with
  | VNone => false | VBool b => b | VInt z => negb (z =? 0)%Z | VFloat q => negb (Qeq_bool q 0)
  | VStr s => negb (String.eqb s "") | VList l => match l with [] => false | _ => true end
  | VDict l => match l with [] => false | _ => true end
  end.
Definition is_none (v : val) : bool := match v with VNone => true | _ => false end.
(** [v[k]] for a string k *)
Definition sub (v : val) (k : string) : res val :=
  match v with VDict d => match dget k d with Some x => Ret x | None => Raise KeyError end | _ => Raise TypeError end.
(** [v.get(k)] *)
Definition vget (v : val) (k : string) : res val :=
  match v with VDict d => Ret (match dget k d with Some x => x | None => VNone end) | _ => Raise AttributeError end.
(** [for x in v] *)
Fixpoint chars (s : string) : list val :=
  match s with EmptyString => [] | String c r => VStr (String c "") :: chars r end.
Definition iter (v : val) : res (list val) :=
  match v with
  | VList l => Ret l | VStr s => Ret (chars s) | VDict d => Ret (map (fun kv => VStr (fst kv)) d)
  | _ => Raise TypeError
  end.
(** Python [float] *)
Definition pyfloat (pf : string -> option Q) (v : val) : res Q :=
  match v with
  | VBool b => Ret (if b then 1 else 0)%Q | VInt z => Ret (inject_Z z) | VFloat q => Ret q
  | VStr s => match pf s with Some q => Ret q | None => Raise ValueError end
  | _ => Raise TypeError
  end.

(** ** the network and runs *)
Record request := mkReq { q_post : bool; q_url : string; q_token : string; q_body : dict }.
(** [NoAnswer] is any exception of the requests library, with its text; [json] is what
    [r.json()] gives, None if it raises *)
Inductive answer := NoAnswer (text : string) | Answer (status : Z) (json : option val).
Definition network := request -> answer.
Definition run A := (list request * res A)%type.
Definition lift {A} (r : res A) : run A := ([], r).
Definition obind {A B} (x : run A) (f : A -> run B) : run B :=
  match x with
  | (l, Raise e) => (l, Raise e)
  | (l, Ret a) => let (l', r) := f a in (app l l', r)
  end.
Notation "'let!' x := a 'in' b" := (obind a (fun x => b)) (at level 200, x name, a at level 100, b at level 200).

(** ** sdkbase.py *)
(** 22-49 with the class constants of carbonsdk0.py:11-14 (and RAISEONERROR of sdkbase.py:26) *)
Definition URL : string := "http://localhost:3118".
Record sdk := mkSdk { k_url : string; k_token : string; k_apibase : string; k_sync : bool; k_raise : bool }.
Definition odef {A} (d : A) (o : option A) : A := match o with Some x => x | None => d end.
Definition new_sdk (url token apibase : option string) (syncdefault raiseonerror : option bool) : sdk :=
  mkSdk (odef URL url) (odef "carbontoken" token) (odef "api" apibase) (odef false syncdefault) (odef true raiseonerror).
(** 72-84 [ErrorResponse], and the answers of the requests library; neither has an attribute
    [body] *)
Record resp := mkResp { r_status : Z; r_json : option val }.
Definition respond (a : answer) : resp :=
  match a with
  | NoAnswer t => mkResp 900 (Some (VDict [("status_code", VInt 900); ("error", VStr t)]))
  | Answer s j => mkResp s j
  end.
(** 87-117; the url of the class, not of the instance *)
Definition req0 (net : network) (s : sdk) (path : string) (params : option dict) (method : option string) : run resp :=
  let m := odef (match params with None => "get" | Some _ => "post" end) method in
  let p := odef [] params in
  if String.eqb m "get" && match p with [] => false | _ => true end then lift (Raise ValueError)
  else
    let! url := lift (join URL path) in
    if String.eqb m "get" then let q := mkReq false url (k_token s) [] in ([q], Ret (respond (net q)))
    else if String.eqb m "post" then let q := mkReq true url (k_token s) p in ([q], Ret (respond (net q)))
    else lift (Raise ValueError).
(** 119-127 *)
Definition req (net : network) (s : sdk) (ep : string) (params : option dict) (method : option string) : run resp :=
  let! path := lift (join (k_apibase s) ep) in req0 net s path params method.
(** 160-163 *)
Definition callapi0 (s : sdk) (sync : option bool) : string :=
  if odef (k_sync s) sync then "scall" else "ascall".
(** 132-158; a synchronous call gives the answer itself, any other the request id (or False);
    in the handler [r] is not bound if the request itself raised *)
Definition call (net : network) (s : sdk) (ep : string) (params : option dict) (method : option string) (sync : option bool) : run (resp + val) :=
  let! url := lift (join (callapi0 s sync) ep) in
  match sync with
  | Some true => let! r := req net s url params method in lift (Ret (inl r))
  | _ =>
    match req net s url params method with
    | (l, Raise _) => (l, Raise NameError)
    | (l, Ret r) =>
      match r_json r with
      | None => (l, Raise RuntimeError)
      | Some rj =>
        match vget rj "success" with
        | Raise e => (l, Raise e)
        | Ret ok =>
          if truthy ok then (l, let* i := sub rj "reqid" in Ret (inr i))
          else (l, if k_raise s then Raise ValueError else Ret (inr (VBool false)))
        end
      end
    end
  end.
(** 222-235 *)
Definition int2str (v : val) : val :=
  match v with VInt z => VStr (dec z) | VBool b => VStr (booltext b) | _ => v end.
Definition int2strd (d : dict) : dict := map (fun kv => (fst kv, int2str (snd kv))) d.
(** 201-212 *)
Definition vbn2int (v : val) : res val :=
  match v with
  | VDict d =>
    match dget "type" d with
    | Some (VStr "BigNumber") =>
      match dget "hex" d with
      | None => Raise KeyError
      | Some (VStr h) => match int16 h with Some z => Ret (VInt z) | None => Raise ValueError end
      | Some _ => Raise TypeError
      end
    | _ => Ret v
    end
  | _ => Ret v
  end.

(** ** carbonsdk0.py: answers *)
(** 583-598; the handler of a json error reads the missing attribute [body] *)
Definition checkresult (r : resp) : res val :=
  if negb (r_status r =? 200)%Z then Raise RuntimeError
  else match r_json r with
       | None => Raise AttributeError
       | Some rj => match sub rj "data" with Ret d => Ret d | Raise _ => Raise RuntimeError end
       end.
(** a call with sync=True whose answer is checked; [call] then never gives a request id *)
Definition scall (net : network) (s : sdk) (ep : string) (params : dict) : run val :=
  let! r := call net s ep (Some params) None (Some true) in
  match r with inl r => lift (checkresult r) | inr _ => lift (Raise AttributeError) end.
(** 544-568 *)
Definition result (rp : val -> string) (net : network) (s : sdk) (reqid : val) : run val :=
  match join "result" (pystr rp reqid) with
  | Raise _ => lift (Raise NameError)
  | Ret url =>
    match req net s url None None with
    | (l, Raise _) => (l, Raise NameError)
    | (l, Ret r) =>
      match r_json r with
      | None => (l, Raise RuntimeError)
      | Some rj => (l,
        let* ok := sub rj "success" in
        if truthy ok then let* d := sub rj "data" in sub d "result"
        else let* w := sub rj "awaiting" in
        match w with
        | VBool true => Ret (VBool true)
        | _ => if k_raise s then Raise ValueError else Ret (VBool false)
        end)
      end
    end
  end.
(** 127-138 *)
Definition addr (net : network) (s : sdk) : run val :=
  let! r := req net s (c2s "addr") None None in
  match r_json r with
  | None => lift (Raise ValueError)
  | Some rj => lift (let* ok := sub rj "success" in if truthy ok then sub rj "data" else Ret VNone)
  end.
(** 570-579; the name of the second parameter is the value of [sign], which json writes in lower
    case *)
Definition signsubmittx (net : network) (s : sdk) (tx : val) (sign : bool) : run val :=
  let! r := req net s (c2s "signsubmittx") (Some [("tx", tx); (if sign then "true" else "false", VBool sign)]) None in
  lift (checkresult r).
(** 140-159: the addresses are looked up in the container of the module, whatever container the
    object was given; without [inclstr] only the list *)
Definition tkn_or_addr := (token + string)%type.
Fixpoint pair_list (Tokens : container) (l : list val) : res (list (tkn_or_addr * tkn_or_addr)) :=
  match l with
  | [] => Ret []
  | v :: r =>
    let* xs := match v with VList xs => Ret xs | VStr t => Ret (chars t) | VDict _ => Raise KeyError | _ => Raise TypeError end in
    match xs with
    | VStr a :: VStr b :: _ => let* ps := pair_list Tokens r in Ret ((byaddr1 Tokens a, byaddr1 Tokens b) :: ps)
    | [] | [VStr _] => Raise IndexError
    | _ => Raise AttributeError
    end
  end.
Fixpoint pair_names (l : list (tkn_or_addr * tkn_or_addr)) : res (list string) :=
  match l with
  | [] => Ret []
  | (inl a, inl b) :: r => let* ns := pair_names r in Ret ((t_T a ++ "/" ++ t_T b) :: ns)
  | _ => Raise AttributeError
  end.
Definition pairs (Tokens : container) (net : network) (s : sdk) (inclstr : bool) : run (list (tkn_or_addr * tkn_or_addr) * option string) :=
  let! d := scall net s (c2s "pairs") [] in
  lift (
    let* l := iter d in
    let* ps := pair_list Tokens l in
    if inclstr then let* ns := pair_names ps in Ret (ps, Some (String.concat ", " ns)) else Ret (ps, None)).
(** 36-51; [zip] stops at the shorter list, and a balance is only converted when its turn comes *)
Fixpoint balances (tokens : list token) (data : list val) (acc : list (string * Q)) : res (list (string * Q)) :=
  match tokens, data with
  | t :: ts, v :: vs =>
    let* b := vbn2int v in
    let* q := match t_d t with
              | None => Raise TypeError
              | Some _ => match b with VBool b => Ret (if b then 1 else 0)%Q | VInt z => Ret (inject_Z z) | VFloat q => Ret q | _ => Raise TypeError end
              end in
    let* x := w2t t q in balances ts vs (dset (t_T t) x acc)
  | _, _ => Ret acc
  end.
Definition getERC20Balance (net : network) (s : sdk) (tokens : list token) (address : val) : run (list (string * Q)) :=
  let! r := req net s "erc20/balance_of" (Some [("tokens", VList (map (fun t => VStr (t_a t)) tokens)); ("address", address)]) None in
  lift (let* d := checkresult r in let* l := iter d in balances tokens l []).
(** 53-85 (a list of tokens or a list of addresses) *)
Definition zipdict {A} (ks : list string) (vs : list A) : list (string * A) :=
  fold_left (fun d kv => dset (fst kv) (snd kv) d) (combine ks vs) [].
Definition getERC20Decimals (net : network) (s : sdk) (tokens : list token) : run dict :=
  let! r := req net s "erc20/decimals" (Some [("tokens", VList (map (fun t => VStr (t_a t)) tokens))]) None in
  lift (let* d := checkresult r in let* l := iter d in Ret (zipdict (map t_T tokens) l)).
Definition getERC20Symbol (net : network) (s : sdk) (tokens : list token + list string) : run dict :=
  let a := match tokens with inl l => map t_a l | inr l => l end in
  let t := match tokens with inl l => map t_T l | inr l => l end in
  let! r := req net s "erc20/symbol" (Some [("tokens", VList (map VStr a))]) None in
  lift (let* d := checkresult r in let* l := iter d in Ret (zipdict t l)).
(** 161-184; a pair of the list is a dict *)
Definition hasLiquidityByPair (rp : val -> string) (net : network) (s : sdk) (source target : val) (ps : option (list dict)) : run val :=
  match ps with
  | Some l =>
    if is_none source && is_none target
    then scall net s (c2s "hasLiquidityByPair") [("pairList", VList (map (fun d => VDict (map (fun kv => (fst kv, VStr (pystr rp (snd kv)))) d)) l))]
    else lift (Raise ValueError)
  | None => scall net s (c2s "hasLiquidityByPair") [("sourceToken", VStr (pystr rp source)); ("targetToken", VStr (pystr rp target))]
  end.
(** 187-237: the three functions differ in the name only *)
Definition pairfloat (rp : val -> string) (pf : string -> option Q) (net : network) (s : sdk) (name : string) (source target : val) : run Q :=
  let! d := scall net s (c2s name) [("sourceToken", VStr (pystr rp source)); ("targetToken", VStr (pystr rp target))] in
  lift (pyfloat pf d).
Definition getLiquidityByPair rp pf net s source target := pairfloat rp pf net s "getLiquidityByPair" source target.
Definition getMinRateByPair rp pf net s source target := pairfloat rp pf net s "getMinRateByPair" source target.
Definition getMaxRateByPair rp pf net s source target := pairfloat rp pf net s "getMaxRateByPair" source target.
(** 239-269; the rate is a number or something that can be iterated over (a string can) *)
Fixpoint depths (pf : string -> option Q) (l : list val) : res (list (option Q)) :=
  match l with
  | [] => Ret []
  | v :: r =>
    let* x := match v with VDict _ => Ret None | _ => let* q := pyfloat pf v in Ret (Some q) end in
    let* xs := depths pf r in Ret (x :: xs)
  end.
Definition rateparam (rp : val -> string) (rate : val) : val :=
  match iter rate with Ret l => VList (map (fun v => VStr (pystr rp v)) l) | Raise _ => VStr (pystr rp rate) end.
Definition getRateLiquidityDepthByPair (rp : val -> string) (pf : string -> option Q) (net : network) (s : sdk) (source target rate : val) : run (Q + list (option Q)) :=
  let! d := scall net s (c2s "getRateLiquidityDepthByPair") [("sourceToken", VStr (pystr rp source)); ("targetToken", VStr (pystr rp target)); ("rate", rateparam rp rate)] in
  lift (match pyfloat pf d with
        | Ret q => Ret (inl q)
        | Raise _ => let* l := iter d in let* xs := depths pf l in Ret (inr xs)
        end).

(** ** carbonsdk0.py: transactions *)
(** the line [if not overrides.get("gasLimit"): overrides["gasLimit"] = 999999999], after
    [if overrides is None: overrides = dict()] (324-325, 353-354, 432-433, 508-509, 529-530); it
    changes the dict of the caller *)
Definition gas (o : option dict) : dict :=
  let d := odef [] o in
  if match dget "gasLimit" d with Some v => truthy v | None => false end then d
  else dset "gasLimit" (VInt 999999999) d.
(** what the caller finds in the object passed as overrides *)
Definition after (o : option dict) : option dict := match o with None => None | Some _ => Some (gas o) end.
(** 416-445 *)
Definition createBuySellStrategy (rp : val -> string) (net : network) (s : sdk) (base quote buyLow buyHigh buyBudget sellLow sellHigh sellBudget : val) (overrides : option dict) : option dict * run val :=
  let t v := VStr (pystr rp v) in
  (after overrides, scall net s (c2s "createBuySellStrategy")
    [("baseToken", t base); ("quoteToken", t quote); ("buyPriceLow", t buyLow); ("buyPriceHigh", t buyHigh); ("buyBudget", t buyBudget);
     ("sellPriceLow", t sellLow); ("sellPriceHigh", t sellHigh); ("sellBudget", t sellBudget); ("overrides", VDict (gas overrides))]).
(** 447-471 *)
Record update := mkUpdate { u_buyPriceLow : val; u_buyPriceHigh : val; u_buyBudget : val; u_sellPriceLow : val; u_sellPriceHigh : val; u_sellBudget : val; u_buyMarginalPrice : val; u_sellMarginalPrice : val }.
(** [dataclasses.asdict] *)
Definition fields (u : update) : dict :=
  [("buyPriceLow", u_buyPriceLow u); ("buyPriceHigh", u_buyPriceHigh u); ("buyBudget", u_buyBudget u);
   ("sellPriceLow", u_sellPriceLow u); ("sellPriceHigh", u_sellPriceHigh u); ("sellBudget", u_sellBudget u);
   ("buyMarginalPrice", u_buyMarginalPrice u); ("sellMarginalPrice", u_sellMarginalPrice u)].
Definition ddel (k : string) (d : dict) : dict := filter (fun kv => negb (String.eqb (fst kv) k)) d.
(** [str(v) if not v is None else None] *)
Definition strnone (rp : val -> string) (v : val) : val := if is_none v then VNone else VStr (pystr rp v).
(** 473-482 *)
Definition asdict (rp : val -> string) (u : update) (omitMarginalPrices omitNone : bool) : dict :=
  let d := fields u in
  let d := if omitMarginalPrices then ddel "sellMarginalPrice" (ddel "buyMarginalPrice" d) else d in
  let d := if omitNone then filter (fun kv => negb (is_none (snd kv))) d else d in
  map (fun kv => (fst kv, strnone rp (snd kv))) d.
(** 484-520; the arguments buyMarginalPrice and sellMarginalPrice are not read; [upd] is None for
    an object of another class *)
Definition updateStrategy (rp : val -> string) (net : network) (s : sdk) (strategyId encoded base quote : val) (upd : option update) (buyMarginalPrice sellMarginalPrice : val) (overrides : option dict) (sync : option bool) : option dict * run (resp + val) :=
  match upd with
  | None => (overrides, lift (Raise AssertionError))
  | Some u =>
    (after overrides, call net s (c2s "updateStrategy") (Some
      [("strategyId", VStr (pystr rp strategyId)); ("encoded", encoded); ("baseToken", VStr (pystr rp base)); ("quoteToken", VStr (pystr rp quote));
       ("update", VDict (asdict rp u true true)); ("buyMarginalPrice", strnone rp (u_buyMarginalPrice u)); ("sellMarginalPrice", strnone rp (u_sellMarginalPrice u));
       ("overrides", VDict (gas overrides))]) None sync)
  end.
(** 521-534 *)
Definition deleteStrategy (rp : val -> string) (net : network) (s : sdk) (strategyId : val) (overrides : option dict) : option dict * run val :=
  (after overrides, scall net s (c2s "deleteStrategy") [("strategyId", VStr (pystr rp strategyId)); ("overrides", VDict (gas overrides))]).
(** 286-287 *)
Definition MAXDEADLINE : string := dec (2 ^ 32 - 1).
Definition MAXMAXINPUT : string := dec (2 ^ 128 - 1).
(** 311-366: [str] of a default leaves it as it is *)
Definition strdef (rp : val -> string) (d : string) (v : val) : val := VStr (if is_none v then d else pystr rp v).
Definition actions (l : option (list dict)) : val := VList (map (fun d => VDict (int2strd d)) (odef [] l)).
Definition composeTradeByTargetTransaction (rp : val -> string) (net : network) (s : sdk) (source target : val) (tradeActions : option (list dict)) (deadline maxInput : val) (overrides : option dict) : option dict * run val :=
  (after overrides, scall net s (c2s "composeTradeByTargetTransaction")
    [("sourceToken", VStr (pystr rp source)); ("targetToken", VStr (pystr rp target)); ("tradeActions", actions tradeActions);
     ("deadline", strdef rp MAXDEADLINE deadline); ("maxInput", strdef rp MAXMAXINPUT maxInput); ("overrides", VDict (gas overrides))]).
Definition composeTradeBySourceTransaction (rp : val -> string) (net : network) (s : sdk) (source target : val) (tradeActions : option (list dict)) (deadline minReturn : val) (overrides : option dict) : option dict * run val :=
  (after overrides, scall net s (c2s "composeTradeBySourceTransaction")
    [("sourceToken", VStr (pystr rp source)); ("targetToken", VStr (pystr rp target)); ("tradeActions", actions tradeActions);
     ("deadline", strdef rp MAXDEADLINE deadline); ("minReturn", strdef rp "1" minReturn); ("overrides", VDict (gas overrides))]).
(** 289-309 *)
Definition getTradeData (rp : val -> string) (net : network) (s : sdk) (source target amount byTarget flt : val) : run val :=
  scall net s (c2s "getTradeData")
    [("sourceToken", VStr (pystr rp source)); ("targetToken", VStr (pystr rp target)); ("amount", VStr (pystr rp amount));
     ("tradeByTargetAmount", VBool (truthy byTarget)); ("filter", if is_none flt then VList [] else flt)].
(** 393-412 *)
Definition getTradeDataFromActions (rp : val -> string) (net : network) (s : sdk) (source target byTarget : val) (actionsWei : option (list dict)) (sync : option bool) : run (resp + val) :=
  call net s (c2s "getTradeDataFromActions") (Some
    [("sourceToken", VStr (pystr rp source)); ("targetToken", VStr (pystr rp target)); ("tradeByTargetAmount", VBool (truthy byTarget)); ("actionsWei", actions actionsWei)]) None sync.
