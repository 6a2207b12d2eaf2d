(** Properties C128-C130 of carbon/helpers/cryptocompare.py. *)
From Coq Require Import ZArith QArith List Bool String Ascii Lia.
From Verif Require Import CurveModel CcModel CcSpec CcProofs.
From Verif Require SdkModel.
Import ListNotations.
Local Open Scope string_scope.
Local Open Scope nat_scope.

(** ** C128: lists of coins and pairs *)
Theorem C128_join l : l <> [] -> Forall (fun x => occurs "," x = 0 /\ trimmed x) l -> unjoin None (join None l) = l.
Proof. exact (unjoin_join l). Qed.
Print Assumptions C128_join.
Theorem C128_unjoin sep s : let c := match sep with None => ","%char | Some c => c end in exists parts, String.concat (String c "") parts = s /\ Forall (fun w => occurs c w = 0) parts /\ List.length parts = S (occurs c s) /\ unjoin sep s = map SdkModel.strip parts.
Proof. exact (unjoin_any sep s). Qed.
Print Assumptions C128_unjoin.
Theorem C128_pair a b : occurs "/" a = 0 -> occurs "/" b = 0 -> pair_from_pt (a, b) = a ++ "/" ++ b /\ pt_from_pair (a ++ "/" ++ b) = Ret (a, b).
Proof. exact (pair_round a b). Qed.
Print Assumptions C128_pair.
Theorem C128_accepts s : (occurs "/" s = 1 -> exists a b, pt_from_pair s = Ret (a, b) /\ pair_from_pt (a, b) = s /\ occurs "/" a = 0 /\ occurs "/" b = 0) /\ (occurs "/" s <> 1 -> pt_from_pair s = Raise TypeError).
Proof. exact (pair_inv s). Qed.
Print Assumptions C128_accepts.
Theorem C128_create c q b t : In (b, t) (create_pairs c q) <-> In b (coinlist c ",") /\ In t (match q with None => coinlist c "," | Some q => coinlist q "," end) /\ b <> t.
Proof. exact (create_in c q b t). Qed.
Print Assumptions C128_create.
Theorem C128_once c q : NoDup (coinlist c ",") -> NoDup (match q with None => coinlist c "," | Some q => coinlist q "," end) -> NoDup (create_pairs c q).
Proof. exact (create_nodup c q). Qed.
Print Assumptions C128_once.
Theorem C128_number c : NoDup (coinlist c ",") -> let n := List.length (coinlist c ",") in List.length (create_pairs c None) = n * (n - 1).
Proof. exact (create_length c). Qed.
Print Assumptions C128_number.
Theorem C128_coinlist c sep : (forall s, c = Joined s -> coinlist c sep = unjoin (Some sep) s) /\ (forall l, c = Items l -> coinlist c sep = l).
Proof. exact (coinlist_spec c sep). Qed.
Print Assumptions C128_coinlist.
Theorem C128_coinlist_pt c sep :
  (forall l, c = Items l -> coinlist_pt c sep = Ret l) /\
  (forall s, c = Joined s -> Forall (fun x => occurs "/" x = 1) (unjoin (Some sep) s) -> exists ps, coinlist_pt c sep = Ret ps /\ map pair_from_pt ps = unjoin (Some sep) s /\ Forall (fun p => occurs "/" (fst p) = 0 /\ occurs "/" (snd p) = 0) ps) /\
  (forall s, c = Joined s -> ~ Forall (fun x => occurs "/" x = 1) (unjoin (Some sep) s) -> coinlist_pt c sep = Raise TypeError).
Proof. exact (coinlist_pt_spec c sep). Qed.
Print Assumptions C128_coinlist_pt.
Example C128_ex : unjoin None (join None ["ETH"; "BTC"; "LINK"]) = ["ETH"; "BTC"; "LINK"] /\ create_pairs (Joined "ETH, BTC") (Some (Joined "USD,ETH")) = [("ETH", "USD"); ("BTC", "USD"); ("BTC", "ETH")] /\
  coinlist_pt (Joined "ETH/USD, BTC/USD") "," = Ret [("ETH", "USD"); ("BTC", "USD")] /\ coinlist_pt (Joined "ETH/USD, BTC") "," = Raise TypeError.
Proof. repeat split; reflexivity. Qed.
(** "unjoin is the inverse of join" is false for no coins at all *)
Theorem C128_empty_refuted : exists l, Forall (fun x => occurs "," x = 0 /\ trimmed x) l /\ unjoin None (join None l) <> l.
Proof. exists []. split; [constructor|discriminate]. Qed.
Print Assumptions C128_empty_refuted.

(** ** C129: the cache *)
Theorem C129_hit {D} c (w : world D) item d u r up : stored w item d -> cache_xxx c w item u r up = (Ret (Some d), w).
Proof. exact (cache_hit c w item d u r up). Qed.
Print Assumptions C129_hit.
Theorem C129_miss {D} c (w : world D) item u : missing w item -> c_raise c = true -> let w1 := mkWorld (w_files w) (w_writable w) (S (w_queries w)) in
  cache_xxx c w item u false false = (Raise OSError, w) /\ cache_xxx c w item u true false = (match u with Ret d => Ret (Some d) | Raise e => Raise e end, w1) /\
  (forall r e, u = Raise e -> cache_xxx c w item u r true = (Raise e, w1)) /\
  (forall r d, u = Ret d -> w_writable w = false -> cache_xxx c w item u r true = (Raise OSError, w1)) /\
  (forall r d, u = Ret d -> w_writable w = true -> exists w', cache_xxx c w item u r true = (Ret (Some d), w') /\ w_queries w' = S (w_queries w) /\ w_writable w' = true /\ stored w' item d /\ (forall i x, i <> item -> (stored w' i x <-> stored w i x))).
Proof. exact (cache_miss c w item u). Qed.
Print Assumptions C129_miss.
(** without exceptions a miss gives None, whatever the flags, and nothing is queried or written *)
Theorem C129_silent {D} c (w : world D) item u r up : missing w item -> c_raise c = false -> cache_xxx c w item u r up = (Ret None, w).
Proof. exact (cache_silent c w item u r up). Qed.
Print Assumptions C129_silent.
Theorem C129_named {D} c (w : world D) u r up : cache_allexchanges c w u r up = cache_xxx c w "query_allexchanges" u true false /\ cache_coinlist c w u r up = cache_xxx c w "query_coinlist" u true false /\ cache_indexlist c w u r up = cache_xxx c w "query_indexlist" u true false.
Proof. exact (cache_named c w u r up). Qed.
Print Assumptions C129_named.
(** the named accesses never write the cache, not even when told to *)
Theorem C129_never_written {D} c (w : world D) u r up : w_files (snd (cache_allexchanges c w u r up)) = w_files w /\ w_files (snd (cache_coinlist c w u r up)) = w_files w /\ w_files (snd (cache_indexlist c w u r up)) = w_files w.
Proof. exact (cache_never_written c w u r up). Qed.
Print Assumptions C129_never_written.
Theorem C129_write {D} c (w : world D) item d : (w_writable w = true -> exists w', write_cache c w item d = (Ret (Some item), w') /\ cache c w' item = Ret (Some d)) /\ (w_writable w = false -> write_cache c w item d = (if c_raise c then Raise OSError else Ret None, w)).
Proof. exact (write_read c w item d). Qed.
Print Assumptions C129_write.
Example C129_ex : let c := mkCc (Key "k") true in let '(a, w) := cache_xxx c (mkWorld [] true 0) "coins" (Ret 7) true true in a = Ret (Some 7) /\ w_queries w = 1 /\ cache_xxx c w "coins" (Ret 8) true true = (Ret (Some 7), w).
Proof. repeat split. Qed.
(** "on a cache miss with readonfail the update method is called" is false *)
Theorem C129_readonfail_refuted : exists c (w : world nat) item d, missing w item /\ fst (cache_xxx c w item (Ret d) true true) <> Ret (Some d).
Proof. exists (mkCc (Key "k") false), (mkWorld [] true 0), "coins", 7. split; [reflexivity|discriminate]. Qed.
Print Assumptions C129_readonfail_refuted.
(** "with updateonfail a miss is written to the cache" is false for the named accesses *)
Theorem C129_updateonfail_refuted : exists c (w : world nat) d, c_raise c = true /\ w_writable w = true /\ missing w "query_coinlist" /\ missing (snd (cache_coinlist c w (Ret d) true true)) "query_coinlist".
Proof. exists (mkCc (Key "k") true), (mkWorld [] true 0), 7. repeat split. Qed.
Print Assumptions C129_updateonfail_refuted.

(** ** C130: queries *)
Theorem C130_key env nm k r : let raise := match r with None => true | Some b => b end in
  (forall s, k = KStr s -> new_cc env nm k r = Ret (mkCc (Key s) raise)) /\ (k = KTrue -> new_cc env nm k r = Ret (mkCc Anonymous raise)) /\ (k = KOther -> new_cc env nm k r = Raise ValueError) /\
  (k = KNone -> let name := match nm with None => "CCAPIKEY" | Some n => n end in (env name = None -> new_cc env nm k r = Raise RuntimeError) /\ forall s, env name = Some s -> new_cc env nm k r = Ret (mkCc (Key s) raise)).
Proof. exact (new_spec env nm k r). Qed.
Print Assumptions C130_key.
Theorem C130_query c s endpoint params : exists rq, fst (query c s endpoint params None) = Some rq /\ fst (query c s endpoint params (Some "GET")) = Some rq /\ r_url rq = "https://min-api.cryptocompare.com" ++ endpoint /\
  (forall k, k <> "api_key" -> forall v, NoDup (map fst params) -> (SdkModel.dget k (r_params rq) = Some v <-> In (k, Some v) params)) /\ (forall s, c_key c = Key s -> SdkModel.dget "api_key" (r_params rq) = Some (PStr s)) /\
  (a_ok (s rq) = true -> snd (query c s endpoint params None) = Ret (Some (s rq))) /\ (a_ok (s rq) = false -> snd (query c s endpoint params None) = if c_raise c then Raise AttributeError else Ret None).
Proof. exact (query_spec c s endpoint params). Qed.
Print Assumptions C130_query.
Theorem C130_method c s endpoint params m : m <> "GET" -> query c s endpoint params (Some m) = (None, Raise ValueError).
Proof. exact (query_method c s endpoint params m). Qed.
Print Assumptions C130_method.
Theorem C130_history c s freq f t e l ts pd : In freq ["day"; "hour"; "minute"] -> let rq := mkReq ("https://min-api.cryptocompare.com/data/v2/histo" ++ freq) (freq_params c f t e l ts) in let a := s rq in
  query_freqlypair c s freq f t e l ts pd =
  (Some rq, if negb (a_ok a) then (if c_raise c then Raise AttributeError else Ret None)
            else if a_error a then (if c_raise c then Raise RuntimeError else Ret None)
            else if negb pd then Raise TypeError
            else match a_history a with None => Raise KeyError | Some [] => Raise KeyError
                 | Some h => Ret (Some (map (fun k => (k_time k, [k_open k; k_close k; k_high k; k_low k; k_from k; k_to k])) h)) end).
Proof. exact (freq_spec c s freq f t e l ts pd). Qed.
Print Assumptions C130_history.
Theorem C130_frequency c s freq f t e l ts pd : freq <> "day" -> freq <> "hour" -> freq <> "minute" -> query_freqlypair c s freq f t e l ts pd = (None, Raise ValueError).
Proof. exact (freq_unknown c s freq f t e l ts pd). Qed.
Print Assumptions C130_frequency.
(** tables for many pairs: one request per pair, every table under the name of its pair *)
Theorem C130_tables c s ps freq e l ts rqs t : (freq = None \/ exists f, freq = Some f /\ In f ["day"; "hour"; "minute"]) -> aggr_query c s (Items ps) freq e l ts = (rqs, Ret t) -> let f := match freq with None => "day" | Some f => f end in
  rqs = map (fun p => pair_request c f (fst p) (snd p)) ps /\ (forall k, SdkModel.dget k t <> None <-> In k (map pair_from_pt ps)) /\ (exists k h, SdkModel.dget k t = Some (Some h)) /\
  (forall k v, SdkModel.dget k t = Some v -> exists p, In p ps /\ pair_from_pt p = k /\ snd (query_freqlypair c s f (Some (fst p)) (Some (snd p)) None LFalse None true) = Ret v).
Proof. exact (aggr_spec c s ps freq e l ts rqs t). Qed.
Print Assumptions C130_tables.
(** exchange, limit and time are ignored there *)
Theorem C130_ignored c s ps freq e e' l l' ts ts' : aggr_query c s ps freq e l ts = aggr_query c s ps freq e' l' ts'.
Proof. exact (aggr_ignores c s ps freq e e' l l' ts ts'). Qed.
Print Assumptions C130_ignored.
Theorem C130_joined c s l freq e lim ts : l <> [] -> Forall (fun p => occurs "/" (fst p) = 0 /\ occurs "/" (snd p) = 0 /\ occurs "," (fst p) = 0 /\ occurs "," (snd p) = 0 /\ trimmed (fst p ++ "/" ++ snd p)) l ->
  aggr_query c s (Joined (join None (map (fun p => fst p ++ "/" ++ snd p) l))) freq e lim ts = aggr_query c s (Items l) freq e lim ts.
Proof. exact (aggr_joined c s l freq e lim ts). Qed.
Print Assumptions C130_joined.
Definition demo_server : server := fun rq => mkAns true false (Some [mkCandle 100 1 2 3 (1 # 2) 10 20]).
Example C130_ex : query_freqlypair (mkCc (Key "k") true) demo_server "hour" (Some "ETH") None None LFalse None true =
  (Some (mkReq "https://min-api.cryptocompare.com/data/v2/histohour" [("fsym", PStr "ETH"); ("tsym", PStr "usd"); ("limit", PInt 2000); ("api_key", PStr "k")]), Ret (Some [(100%Z, [1%Q; 2%Q; 3%Q; (1 # 2)%Q; 10%Q; 20%Q])])) /\
  fst (aggr_query (mkCc Anonymous true) demo_server (Joined "ETH/USD, BTC/GBP") None (Some "kraken") (LNum 10) None) = [pair_request (mkCc Anonymous true) "day" "ETH" "USD"; pair_request (mkCc Anonymous true) "day" "BTC" "GBP"].
Proof. split; reflexivity. Qed.
(** "a failed query raises RuntimeError" and "the limit is passed on" are false *)
Theorem C130_failure_refuted : exists c s endpoint, c_raise c = true /\ (forall rq, a_ok (s rq) = false) /\ snd (query c s endpoint [] None) <> Raise RuntimeError.
Proof. exists (mkCc (Key "k") true), (fun _ => mkAns false false None), "/all". repeat split. discriminate. Qed.
Print Assumptions C130_failure_refuted.
Theorem C130_limit_refuted : exists c s ps n rq, fst (aggr_query c s (Items ps) None None (LNum n) None) = [rq] /\ SdkModel.dget "limit" (r_params rq) <> Some (PInt n).
Proof. exists (mkCc Anonymous true), demo_server, [("ETH", "USD")], 10%Z. eexists. split; [reflexivity|discriminate]. Qed.
Print Assumptions C130_limit_refuted.
