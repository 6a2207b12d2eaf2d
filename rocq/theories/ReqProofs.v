(** Proofs about the requests of the SDK and the reading of the answers. *)
From Coq Require Import ZArith QArith List Bool Ascii String Lia DecimalString DecimalZ.
From Verif Require Import TradeModel PairModel CurveModel SdkModel SdkSpec SdkProofs2 SdkProofs3 ReqModel ReqSpec.
Import ListNotations.
Local Open Scope string_scope.

Lemma app_ne a b : a <> "" -> (a ++ b)%string <> "". Proof. destruct a; [congruence|discriminate]. Qed.
Lemma starts_app a b : a <> "" -> starts_slash (a ++ b) = starts_slash a. Proof. destruct a; [congruence|reflexivity]. Qed.
Lemma sapp_assoc (a b c : string) : ((a ++ b) ++ c = a ++ (b ++ c))%string. Proof. induction a as [|x a IH]; [reflexivity|cbn; rewrite IH; reflexivity]. Qed.

(** ** requests *)
Lemma req0_get net s path : path <> "" -> starts_slash path = false ->
  let q := mkReq false (URL ++ "/" ++ path) (k_token s) [] in req0 net s path None None = ([q], Ret (respond (net q))).
Proof.
  intros H S q. unfold req0. cbn [odef]. change (String.eqb "get" "get") with true. cbn match. change (true && false) with false. cbn match.
  rewrite join_plain; [|discriminate|exact H|reflexivity|exact S]. reflexivity.
Qed.
Lemma req0_post net s path p : path <> "" -> starts_slash path = false ->
  let q := mkReq true (URL ++ "/" ++ path) (k_token s) p in req0 net s path (Some p) None = ([q], Ret (respond (net q))).
Proof.
  intros H S q. unfold req0. cbn [odef]. change (String.eqb "post" "get") with false. change (String.eqb "post" "post") with true. cbn [andb].
  rewrite join_plain; [|discriminate|exact H|reflexivity|exact S]. reflexivity.
Qed.
Lemma req_get net s ep : plain (k_apibase s) -> ep <> "" -> starts_slash ep = false ->
  let q := mkReq false (at_server (k_apibase s) ep) (k_token s) [] in req net s ep None None = ([q], Ret (respond (net q))).
Proof.
  intros (A & B & C) H S q. unfold req. rewrite join_plain; [|assumption..]. cbn [lift obind].
  rewrite req0_get; [reflexivity|apply app_ne, A|rewrite starts_app; assumption].
Qed.
Lemma req_post net s ep p : plain (k_apibase s) -> ep <> "" -> starts_slash ep = false ->
  let q := mkReq true (at_server (k_apibase s) ep) (k_token s) p in req net s ep (Some p) None = ([q], Ret (respond (net q))).
Proof.
  intros (A & B & C) H S q. unfold req. rewrite join_plain; [|assumption..]. cbn [lift obind].
  rewrite req0_post; [reflexivity|apply app_ne, A|rewrite starts_app; assumption].
Qed.
(** every request there is, whatever the arguments *)
Lemma req0_sent net s path params method l r : req0 net s path params method = (l, r) ->
  (l = [] /\ exists e, r = Raise e) \/ exists q p, l = [q] /\ join URL path = Ret (q_url q) /\ p = q_url q /\ q_token q = k_token s /\ r = Ret (respond (net q)).
Proof.
  unfold req0. destruct (String.eqb _ "get" && _); [intros [= <- <-]; left; eauto|].
  destruct (join URL path) as [u|e]; cbn [lift obind]; [|intros [= <- <-]; left; eauto].
  destruct (String.eqb _ "get"); [intros [= <- <-]; right; eexists; eexists; split; [reflexivity|]; cbn; auto|].
  destruct (String.eqb _ "post"); [intros [= <- <-]; right; eexists; eexists; split; [reflexivity|]; cbn; auto|intros [= <- <-]; left; eauto].
Qed.
Lemma join_prefix path u : join URL path = Ret u -> exists r, u = ("http://localhost:3118/" ++ r)%string.
Proof. unfold join. change (last_char URL) with (Some "8"%char). cbn match. change (Ascii.eqb "8" "/") with false. cbn match. destruct path as [|d r]; [discriminate|]. intros [= <-]. eexists. reflexivity. Qed.
Lemma req_sent net s ep params method l r : req net s ep params method = (l, r) ->
  (l = [] /\ exists e, r = Raise e) \/ exists q p, l = [q] /\ q_url q = ("http://localhost:3118/" ++ p)%string /\ q_token q = k_token s /\ r = Ret (respond (net q)).
Proof.
  unfold req. destruct (join (k_apibase s) ep) as [path|e]; cbn [lift obind]; [|intros [= <- <-]; left; eauto].
  destruct (req0 net s path params method) as [l' r'] eqn:E. intros H. assert (l' = l /\ r' = r) as [-> ->]. { injection H as A B. split; assumption. }
  destruct (req0_sent _ _ _ _ _ _ _ E) as [X|(q & p & A & B & _ & D & F)]; [left; exact X|right].
  destruct (join_prefix _ _ B) as [p' X]. exists q, p'. repeat split; assumption.
Qed.
Lemma call_sent net s ep params method sync l r : call net s ep params method sync = (l, r) ->
  l = [] \/ exists q p, l = [q] /\ q_url q = ("http://localhost:3118/" ++ p)%string /\ q_token q = k_token s.
Proof.
  unfold call. destruct (join (callapi0 s sync) ep) as [u|e]; cbn [lift obind]; [|intros [= <- _]; left; reflexivity].
  destruct (req net s u params method) as [l' r'] eqn:E. intros H.
  assert (l' = l) as ->.
  { destruct sync as [[]|].
    - destruct r'; cbn in H; [rewrite List.app_nil_r in H|]; injection H; auto.
    - destruct r' as [r'|]; [|injection H; auto]. destruct (r_json r') as [j|]; [|injection H; auto]. destruct (vget j "success") as [o|]; [|injection H; auto]. destruct (truthy o); injection H; auto.
    - destruct r' as [r'|]; [|injection H; auto]. destruct (r_json r') as [j|]; [|injection H; auto]. destruct (vget j "success") as [o|]; [|injection H; auto]. destruct (truthy o); injection H; auto. }
  destruct (req_sent _ _ _ _ _ _ _ E) as [[X _]|(q & p & A & B & C & _)]; [left; exact X|right; exists q, p; auto].
Qed.

(** ** answers *)
Lemma checked_fun a : checked a (checkresult (respond a)).
Proof.
  destruct a as [t|st j]; [constructor|]. unfold checkresult. cbn [respond r_status r_json].
  destruct (Z.eqb_spec st 200) as [->|N]; cbn [negb]; [|constructor; exact N].
  destruct j as [j|]; [|constructor].
  destruct j; cbn [sub]; try (constructor; discriminate). destruct (dget "data" l) eqn:E; constructor; exact E.
Qed.
Lemma checked_det a r r' : checked a r -> checked a r' -> r = r'.
Proof.
  intros H K. destruct H; inversion K; subst; try congruence; try reflexivity.
  all: match goal with H : forall d, VDict ?x <> VDict d |- _ => exfalso; apply (H x); reflexivity | H : forall d, ?j <> VDict d |- _ => exfalso; eapply H; eassumption | _ => idtac end.
Qed.
Lemma callapi_kinds s sync : callapi0 s sync = kinds s sync. Proof. unfold callapi0, kinds. destruct sync as [[]|]; reflexivity. Qed.
Lemma join_kind s sync ep : ep <> "" -> starts_slash ep = false -> join (callapi0 s sync) ep = Ret (kinds s sync ++ "/" ++ ep).
Proof. intros H S. rewrite callapi_kinds. unfold kinds. destruct sync as [[]|]; [| |destruct (k_sync s)]; apply join_plain; try assumption; try discriminate; reflexivity. Qed.
Lemma kinds_ne s sync x : (kinds s sync ++ x)%string <> "" /\ starts_slash (kinds s sync ++ x) = false.
Proof. unfold kinds. destruct sync as [[]|]; [| |destruct (k_sync s)]; split; try discriminate; reflexivity. Qed.
Lemma call_sync net s ep p : plain (k_apibase s) -> ep <> "" -> starts_slash ep = false ->
  let q := mkReq true (at_server (k_apibase s) ("scall/" ++ ep)) (k_token s) p in call net s ep (Some p) None (Some true) = ([q], Ret (inl (respond (net q)))).
Proof.
  intros P H S q. unfold call. rewrite join_kind by assumption. cbn [lift obind]. destruct (kinds_ne s (Some true) ("/" ++ ep)) as [A B]. rewrite (req_post _ _ _ _ P A B). reflexivity.
Qed.
Lemma scall_ok net s ep p : plain (k_apibase s) -> ep <> "" -> starts_slash ep = false ->
  let q := mkReq true (at_server (k_apibase s) ("scall/" ++ ep)) (k_token s) p in exists r, scall net s ep p = ([q], r) /\ checked (net q) r.
Proof. intros P H S q. unfold scall. rewrite (call_sync _ _ _ _ P H S). cbn [lift obind app]. eexists. split; [reflexivity|apply checked_fun]. Qed.
Lemma call_async net s ep p sync : plain (k_apibase s) -> ep <> "" -> starts_slash ep = false -> sync <> Some true ->
  let q := mkReq true (at_server (k_apibase s) (kinds s sync ++ "/" ++ ep)) (k_token s) p in exists r, call net s ep (Some p) None sync = ([q], let* i := r in Ret (inr i)) /\ queued (k_raise s) (net q) r.
Proof.
  intros P H S N q. unfold call. rewrite join_kind by assumption. cbn [lift obind]. destruct (kinds_ne s sync ("/" ++ ep)) as [A B]. rewrite (req_post _ _ _ _ P A B). fold q.
  destruct sync as [[]|]; [congruence| |]; clear N.
  all: destruct (net q) as [t|st [j|]]; cbn [respond r_json app].
  all: try (exists (Raise RuntimeError); split; [reflexivity|constructor]).
  all: try (cbn [vget dget]; change (String.eqb "success" "status_code") with false; change (String.eqb "success" "error") with false; cbn match; cbn [truthy]; exists (if k_raise s then Raise ValueError else Ret (VBool false)); split; [destruct (k_raise s); reflexivity|constructor]).
  all: destruct j; cbn [vget]; try (exists (Raise AttributeError); split; [reflexivity|constructor; discriminate]).
  all: destruct (dget "success" l) as [v|] eqn:E; [destruct (truthy v) eqn:T|].
  all: try (cbn [sub]; destruct (dget "reqid" l) as [i|] eqn:I; [exists (Ret i)|exists (Raise KeyError)]; (split; [reflexivity|econstructor; eassumption])).
  all: cbn [truthy]; exists (if k_raise s then Raise ValueError else Ret (VBool false)); (split; [destruct (k_raise s); reflexivity|constructor; congruence]).
Qed.
Lemma result_ok rp net s reqid : plain (k_apibase s) -> pystr rp reqid <> "" -> starts_slash (pystr rp reqid) = false ->
  let q := mkReq false (at_server (k_apibase s) ("result/" ++ pystr rp reqid)) (k_token s) [] in exists r, result rp net s reqid = ([q], r) /\ fetched (k_raise s) (net q) r.
Proof.
  intros P H S q. unfold result. rewrite join_plain; [|discriminate|exact H|reflexivity|exact S].
  rewrite req_get; [|exact P|discriminate|reflexivity]. change (mkReq false (at_server (k_apibase s) ("result" ++ "/" ++ pystr rp reqid)) (k_token s) []) with q.
  destruct (net q) as [t|st [j|]]; cbn [respond r_json]; [|eexists; split; [reflexivity|]..]; [eexists; split; [reflexivity|constructor]| |constructor].
  destruct j; cbn [sub]; try (constructor; discriminate).
  destruct (dget "success" l) as [v|] eqn:E; cbn [rbind]; [|constructor; exact E]. destruct (truthy v) eqn:T.
  - destruct (dget "data" l) as [d|] eqn:D; cbn [rbind]; [|eapply fe_nodata; eassumption].
    destruct d; cbn [sub]; try (eapply fe_baddata; [eassumption..|discriminate]). destruct (dget "result" l0) eqn:R; [eapply fe_result; eassumption|eapply fe_noresult; eassumption].
  - destruct (dget "awaiting" l) as [w|] eqn:W; cbn [rbind]; [|eapply fe_nowait; eassumption].
    destruct w as [|[]| | | | |]; try (eapply fe_unknown; [eassumption..|discriminate]). eapply fe_wait; eassumption.
Qed.
Lemma result_empty rp net s reqid : pystr rp reqid = "" -> result rp net s reqid = ([], Raise NameError).
Proof. intros H. unfold result. rewrite H. reflexivity. Qed.
Lemma addr_lost net s : plain (k_apibase s) -> (forall q, exists t, net q = NoAnswer t) -> snd (addr net s) = Raise KeyError.
Proof. intros P N. unfold addr. change (c2s "addr") with "addr". rewrite req_get; [|exact P|discriminate|reflexivity]. cbn [obind]. edestruct N as [t ->]. reflexivity. Qed.

(** ** balances *)
Lemma balances_spec : forall tokens data zs acc,
  NoDup (map t_T tokens) -> Forall (fun t => t_d t <> None) tokens -> Forall2 (fun v z => vbn2int v = Ret (VInt z)) data zs ->
  exists r, balances tokens data acc = Ret r /\
    (forall k, ~ In k (map t_T tokens) -> dget k r = dget k acc) /\
    (forall i t, nth_error tokens i = Some t -> match nth_error zs i with Some z => exists d, t_d t = Some d /\ dget (t_T t) r = Some (inject_Z z / Qpower 10 d)%Q | None => dget (t_T t) r = dget (t_T t) acc end).
Proof.
  induction tokens as [|t ts IH]; intros data zs acc ND FD F2.
  { exists acc. split; [reflexivity|split; [reflexivity|intros [|i] t; discriminate]]. }
  destruct F2 as [|v z vs zs V F2].
  { exists acc. split; [reflexivity|split; [reflexivity|]]. intros [|i] t' _; reflexivity. }
  inversion ND as [|x xs NI ND']; subst. inversion FD as [|x xs D FD']; subst. cbn [balances]. rewrite V. cbn [rbind].
  destruct (t_d t) as [d|] eqn:Ed; [|congruence]. unfold w2t. rewrite Ed. cbn [rbind].
  destruct (IH vs zs (dset (t_T t) (inject_Z z / ten_to d)%Q acc) ND' FD' F2) as (r & R & K & I).
  exists r. split; [exact R|split].
  - intros k N. rewrite K by (intros X; apply N; right; exact X). rewrite dget_dset. destruct (String.eqb_spec k (t_T t)) as [->|]; [|reflexivity]. exfalso. apply N. left. reflexivity.
  - intros [|i] t' E; cbn [nth_error] in *.
    + injection E as <-. exists d. split; [exact Ed|]. rewrite (K _ NI), dget_dset, String.eqb_refl. reflexivity.
    + specialize (I i t' E). destruct (nth_error zs i); [exact I|]. rewrite I, dget_dset.
      destruct (String.eqb_spec (t_T t') (t_T t)) as [X|]; [|reflexivity]. exfalso. apply NI. rewrite <- X. apply in_map. eapply nth_error_In, E.
Qed.

(** ** decimal text of ints *)
Lemma dec_read z : option_map Z.of_int (NilEmpty.int_of_string (dec z)) = Some z.
Proof. unfold dec. rewrite NilEmpty.isi. cbn. rewrite DecimalZ.of_to. reflexivity. Qed.
Lemma dec_inj a b : dec a = dec b -> a = b.
Proof. intros H. pose proof (dec_read a) as A. rewrite H, dec_read in A. congruence. Qed.

(** ** overrides *)
Lemma gas_get o k : dget k (gas o) = if String.eqb k "gasLimit" then match dget "gasLimit" (odef [] o) with Some v => if truthy v then Some v else Some (VInt 999999999) | None => Some (VInt 999999999) end else dget k (odef [] o).
Proof.
  unfold gas. destruct (dget "gasLimit" (odef [] o)) as [v|] eqn:E; [destruct (truthy v)|].
  - destruct (String.eqb_spec k "gasLimit") as [->|]; [exact E|reflexivity].
  - rewrite dget_dset. reflexivity.
  - rewrite dget_dset. reflexivity.
Qed.
Lemma gas_ok d : gas_rule d (gas (Some d)).
Proof.
  split; [|split].
  - intros k N. rewrite gas_get. destruct (String.eqb_spec k "gasLimit"); [contradiction|reflexivity].
  - intros v E T. rewrite gas_get. cbn [odef]. rewrite E, T. reflexivity.
  - intros H. rewrite gas_get. cbn [odef]. change (String.eqb "gasLimit" "gasLimit") with true. cbn match. destruct (dget "gasLimit" d) as [v|] eqn:E; [rewrite (H v eq_refl)|]; reflexivity.
Qed.
Lemma gas_after o : match o with None => gas o = [("gasLimit", VInt 999999999)] /\ after o = None | Some d => gas_rule d (gas o) /\ after o = Some (gas o) end.
Proof. destruct o as [d|]; split; try reflexivity. apply gas_ok. Qed.
Lemma scall_gas net s ep p o : plain (k_apibase s) -> ep <> "" -> starts_slash ep = false -> dget "overrides" p = Some (VDict (gas o)) ->
  gas_sent (k_apibase s) ("scall/" ++ ep) (k_token s) o (after o, scall net s ep p).
Proof.
  intros P H S D. destruct (scall_ok net s ep p P H S) as (r & E & _). unfold gas_sent. cbn [fst snd]. rewrite E. cbn [fst]. eexists. exists (gas o).
  split; [reflexivity|]. cbn [q_post q_url q_token q_body]. split; [reflexivity|]. split; [reflexivity|]. split; [reflexivity|]. split; [exact D|]. apply gas_after.
Qed.

(** ** updates *)
Lemma dget_none k (d : dict) : ~ In k (map fst d) -> dget k d = None.
Proof. induction d as [|[a v] d IH]; [reflexivity|]. cbn. intros N. destruct (String.eqb_spec k a) as [->|]; [exfalso; auto|apply IH; auto]. Qed.
Lemma sent_field rp (d : dict) : NoDup (map fst d) -> forall k,
  dget k (map (fun kv => (fst kv, strnone rp (snd kv))) (filter (fun kv => negb (is_none (snd kv))) d)) = match dget k d with Some v => if is_none v then None else Some (VStr (pystr rp v)) | None => None end.
Proof.
  induction d as [|[a v] d IH]; [reflexivity|]. cbn [map fst]. intros ND k. inversion ND as [|x xs NI ND']; subst. specialize (IH ND'). cbn [filter snd dget].
  destruct (is_none v) eqn:N; cbn [negb].
  - rewrite IH. destruct (String.eqb_spec k a) as [->|]; [rewrite (dget_none _ _ NI), N; reflexivity|reflexivity].
  - cbn [map fst snd dget]. unfold strnone at 1. rewrite N. destruct (String.eqb k a); [rewrite N; reflexivity|exact (IH k)].
Qed.
Lemma six_nodup u : NoDup (map fst (six u)).
Proof. cbn. repeat (constructor; [cbn; intuition discriminate|]). constructor. Qed.
Lemma asdict_six rp u : asdict rp u true true = map (fun kv => (fst kv, strnone rp (snd kv))) (filter (fun kv => negb (is_none (snd kv))) (six u)).
Proof. reflexivity. Qed.
Lemma dget_in (d : dict) : NoDup (map fst d) -> forall k v, In (k, v) d -> dget k d = Some v.
Proof.
  induction d as [|[a w] d IH]; [intros _ k v []|]. cbn [map fst dget]. intros ND k v I. inversion ND as [|x xs NI ND']; subst. destruct I as [[= -> ->]|I]; [rewrite String.eqb_refl; reflexivity|].
  destruct (String.eqb_spec k a) as [->|]; [|apply IH; assumption]. exfalso. apply NI. change a with (fst (a, v)). apply in_map, I.
Qed.
Lemma update_record rp u : (forall k v, In (k, v) (six u) -> dget k (asdict rp u true true) = if is_none v then None else Some (VStr (pystr rp v))) /\
  (forall k, ~ In k (map fst (six u)) -> dget k (asdict rp u true true) = None).
Proof.
  rewrite asdict_six. split.
  - intros k v I. rewrite sent_field by apply six_nodup. rewrite (dget_in _ (six_nodup u) _ _ I). reflexivity.
  - intros k N. rewrite sent_field by apply six_nodup. rewrite dget_none by exact N. reflexivity.
Qed.
Lemma update_sent rp net s i e b q u bm sm o sync : plain (k_apibase s) ->
  exists r, updateStrategy rp net s i e b q (Some u) bm sm o sync = (after o, ([mkReq true (at_server (k_apibase s) (kinds s sync ++ "/update_strategy")) (k_token s)
    [("strategyId", VStr (pystr rp i)); ("encoded", e); ("baseToken", VStr (pystr rp b)); ("quoteToken", VStr (pystr rp q)); ("update", VDict (asdict rp u true true));
     ("buyMarginalPrice", strnone rp (u_buyMarginalPrice u)); ("sellMarginalPrice", strnone rp (u_sellMarginalPrice u)); ("overrides", VDict (gas o))]], r)).
Proof.
  intros P. unfold updateStrategy. change (c2s "updateStrategy") with "update_strategy". destruct sync as [[]|].
  - rewrite call_sync; [|exact P|discriminate|reflexivity]. eexists. reflexivity.
  - edestruct (call_async net s "update_strategy") with (sync := Some false) as (r & E & _); [exact P|discriminate|reflexivity|discriminate|]. rewrite E. eexists. reflexivity.
  - edestruct (call_async net s "update_strategy") with (sync := @None bool) as (r & E & _); [exact P|discriminate|reflexivity|discriminate|]. rewrite E. eexists. reflexivity.
Qed.
Lemma update_gas rp net s i e b q u bm sm o sync : plain (k_apibase s) ->
  gas_sent (k_apibase s) (kinds s sync ++ "/update_strategy") (k_token s) o (updateStrategy rp net s i e b q (Some u) bm sm o sync).
Proof.
  intros P. destruct (update_sent rp net s i e b q u bm sm o sync P) as [r ->]. unfold gas_sent. eexists. exists (gas o). cbn [fst snd]. split; [reflexivity|]. cbn [q_post q_url q_token q_body].
  split; [reflexivity|]. split; [reflexivity|]. split; [reflexivity|]. split; [reflexivity|]. apply gas_after.
Qed.
Lemma sign_sent net s tx sign : plain (k_apibase s) -> exists q, fst (signsubmittx net s tx sign) = [q] /\ dget "sign" (q_body q) = None.
Proof. intros P. unfold signsubmittx. change (c2s "signsubmittx") with "signsubmittx". rewrite req_post; [|exact P|discriminate|reflexivity]. cbn [obind lift fst app]. eexists. split; [reflexivity|]. destruct sign; reflexivity. Qed.

(** ** pairs *)
Lemma pair_list_ok T (l : list (string * string)) : pair_list T (map (fun ab => VList [VStr (fst ab); VStr (snd ab)]) l) = Ret (map (fun ab => (byaddr1 T (fst ab), byaddr1 T (snd ab))) l).
Proof. induction l as [|[a b] l IH]; [reflexivity|]. cbn [map pair_list rbind fst snd]. rewrite IH. reflexivity. Qed.
Lemma pair_names_ok (ts : list (token * token)) : pair_names (map (fun t => (inl (fst t), inl (snd t))) ts) = Ret (map (fun t => (t_T (fst t) ++ "/" ++ t_T (snd t))%string) ts).
Proof. induction ts as [|[a b] ts IH]; [reflexivity|]. cbn [map pair_names fst snd]. rewrite IH. reflexivity. Qed.
Lemma pair_names_bad T (l : list (string * string)) : (exists ab x, In ab l /\ (byaddr1 T (fst ab) = inr x \/ byaddr1 T (snd ab) = inr x)) -> pair_names (map (fun ab => (byaddr1 T (fst ab), byaddr1 T (snd ab))) l) = Raise AttributeError.
Proof.
  intros (ab & x & I & B). induction l as [|c l IH]; [destruct I|]. cbn [map pair_names]. destruct I as [->|I].
  - destruct B as [-> | ->]; [reflexivity|]. destruct (byaddr1 T (fst ab)); reflexivity.
  - rewrite (IH I). destruct (byaddr1 T (fst c)), (byaddr1 T (snd c)); reflexivity.
Qed.
Lemma pairs_ok T net s (l : list (string * string)) : plain (k_apibase s) -> (forall q, net q = Answer 200 (Some (VDict [("data", VList (map (fun ab => VList [VStr (fst ab); VStr (snd ab)]) l))]))) ->
  snd (pairs T net s false) = Ret (map (fun ab => (byaddr1 T (fst ab), byaddr1 T (snd ab))) l, None) /\
  (forall ts, map (fun ab => (byaddr1 T (fst ab), byaddr1 T (snd ab))) l = map (fun t => (inl (fst t), inl (snd t))) ts ->
     snd (pairs T net s true) = Ret (map (fun t => (inl (fst t), inl (snd t))) ts, Some (String.concat ", " (map (fun t => (t_T (fst t) ++ "/" ++ t_T (snd t))%string) ts)))) /\
  ((exists ab x, In ab l /\ (byaddr1 T (fst ab) = inr x \/ byaddr1 T (snd ab) = inr x)) -> snd (pairs T net s true) = Raise AttributeError).
Proof.
  intros P N. assert (E : forall p, exists k, scall net s "pairs" p = (k, Ret (VList (map (fun ab => VList [VStr (fst ab); VStr (snd ab)]) l)))).
  { intros p. unfold scall. rewrite call_sync; [|exact P|discriminate|reflexivity]. cbn [obind]. rewrite N. eexists. reflexivity. }
  unfold pairs. change (c2s "pairs") with "pairs". destruct (E []) as [k ->]. cbn [obind lift snd iter rbind]. rewrite pair_list_ok. cbn [rbind].
  split; [reflexivity|split].
  - intros ts ->. rewrite pair_names_ok. reflexivity.
  - intros B. rewrite (pair_names_bad _ _ B). reflexivity.
Qed.

(** ** lookups *)
Lemma zipdict_snoc {A} (ks : list string) : forall (vs : list A) acc, NoDup ks ->
  (forall k, ~ In k ks -> dget k (fold_left (fun d kv => dset (fst kv) (snd kv) d) (combine ks vs) acc) = dget k acc) /\
  (forall i k, nth_error ks i = Some k -> dget k (fold_left (fun d kv => dset (fst kv) (snd kv) d) (combine ks vs) acc) = match nth_error vs i with Some v => Some v | None => dget k acc end).
Proof.
  induction ks as [|k0 ks IH]; intros vs acc ND; [split; [reflexivity|intros [|i] k; discriminate]|].
  inversion ND as [|x xs NI ND']; subst. destruct vs as [|v vs]; [split; [reflexivity|intros [|i] k _; reflexivity]|].
  cbn [combine fold_left fst snd]. destruct (IH vs (dset k0 v acc) ND') as [I1 I2]. split.
  - intros k N. rewrite I1 by (intros X; apply N; right; exact X). rewrite dget_dset. destruct (String.eqb_spec k k0) as [->|]; [exfalso; apply N; left; reflexivity|reflexivity].
  - intros [|i] k E; cbn [nth_error] in *.
    + injection E as <-. rewrite (I1 _ NI), dget_dset, String.eqb_refl. reflexivity.
    + rewrite (I2 i k E). destruct (nth_error vs i); [reflexivity|]. rewrite dget_dset. destruct (String.eqb_spec k k0) as [->|]; [|reflexivity]. exfalso. apply NI. eapply nth_error_In, E.
Qed.
Lemma zipdict_get {A} ks (vs : list A) : NoDup ks -> forall i k, nth_error ks i = Some k -> dget k (zipdict ks vs) = nth_error vs i.
Proof. intros ND i k E. destruct (zipdict_snoc ks vs [] ND) as [_ H]. unfold zipdict. rewrite (H i k E). destruct (nth_error vs i); reflexivity. Qed.
Lemma lookup_ok net s tokens data : plain (k_apibase s) -> NoDup (map t_T tokens) ->
  (forall q, net q = Answer 200 (Some (VDict [("data", VList data)]))) ->
  exists q q' r r', getERC20Decimals net s tokens = ([q], Ret r) /\ getERC20Symbol net s (inl tokens) = ([q'], Ret r') /\
    q_url q = at_server (k_apibase s) "erc20/decimals" /\ q_url q' = at_server (k_apibase s) "erc20/symbol" /\
    q_body q = [("tokens", VList (map (fun t => VStr (t_a t)) tokens))] /\ q_body q' = q_body q /\
    forall i t, nth_error tokens i = Some t -> dget (t_T t) r = nth_error data i /\ dget (t_T t) r' = nth_error data i.
Proof.
  intros P ND N. unfold getERC20Decimals, getERC20Symbol. rewrite !req_post; [|exact P|discriminate|reflexivity|exact P|discriminate|reflexivity].
  cbn [obind]. rewrite !N. do 4 eexists. split; [reflexivity|]. split; [reflexivity|]. split; [reflexivity|]. split; [reflexivity|]. split; [reflexivity|]. split; [cbn [q_body]; rewrite map_map; reflexivity|].
  intros i t E. assert (X : nth_error (map t_T tokens) i = Some (t_T t)) by (apply map_nth_error, E). split; apply (zipdict_get _ _ ND _ _ X).
Qed.
Lemma lookup_addr_ok net s addrs data : plain (k_apibase s) -> NoDup addrs -> (forall q, net q = Answer 200 (Some (VDict [("data", VList data)]))) ->
  exists q r, getERC20Symbol net s (inr addrs) = ([q], Ret r) /\ q_body q = [("tokens", VList (map VStr addrs))] /\ forall i a, nth_error addrs i = Some a -> dget a r = nth_error data i.
Proof.
  intros P ND N. unfold getERC20Symbol. rewrite req_post; [|exact P|discriminate|reflexivity]. cbn [obind]. rewrite N. do 2 eexists. split; [reflexivity|]. split; [reflexivity|]. intros i a E. apply (zipdict_get _ _ ND _ _ E).
Qed.
