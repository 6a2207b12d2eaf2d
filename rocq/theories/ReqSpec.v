(** How answers of the server are to be read, written as relations between what came back over
    the network and what the caller gets. *)
From Coq Require Import ZArith QArith List String.
From Verif Require Import CurveModel SdkModel SdkSpec ReqModel.
Import ListNotations.
Local Open Scope string_scope.

(** a fragment of a path without slashes at its ends *)
Definition plain (s : string) : Prop := s <> "" /\ starts_slash s = false /\ ends_slash s = false.
(** where the requests go *)
Definition at_server (base path : string) : string := "http://localhost:3118/" ++ base ++ "/" ++ path.
(** the two kinds of calls; without an argument the default of the object decides *)
Definition kinds (s : sdk) (sync : option bool) : string := match sync with Some true => "scall" | Some false => "ascall" | None => if k_sync s then "scall" else "ascall" end.

(** answers of which the field data is wanted *)
Inductive checked : answer -> res val -> Prop :=
| ck_lost t : checked (NoAnswer t) (Raise RuntimeError)
| ck_status st j : st <> 200%Z -> checked (Answer st j) (Raise RuntimeError)
| ck_text : checked (Answer 200 None) (Raise AttributeError)
| ck_data d v : dget "data" d = Some v -> checked (Answer 200 (Some (VDict d))) (Ret v)
| ck_nodata d : dget "data" d = None -> checked (Answer 200 (Some (VDict d))) (Raise RuntimeError)
| ck_other j : (forall d, j <> VDict d) -> checked (Answer 200 (Some j)) (Raise RuntimeError).

(** answers of which the request id is wanted; the status is not looked at *)
Inductive queued (raise : bool) : answer -> res val -> Prop :=
| qu_lost t : queued raise (NoAnswer t) (if raise then Raise ValueError else Ret (VBool false))
| qu_text st : queued raise (Answer st None) (Raise RuntimeError)
| qu_other st j : (forall d, j <> VDict d) -> queued raise (Answer st (Some j)) (Raise AttributeError)
| qu_no st d : (forall v, dget "success" d = Some v -> truthy v = false) -> queued raise (Answer st (Some (VDict d))) (if raise then Raise ValueError else Ret (VBool false))
| qu_id st d v i : dget "success" d = Some v -> truthy v = true -> dget "reqid" d = Some i -> queued raise (Answer st (Some (VDict d))) (Ret i)
| qu_noid st d v : dget "success" d = Some v -> truthy v = true -> dget "reqid" d = None -> queued raise (Answer st (Some (VDict d))) (Raise KeyError).

(** answers about a request id; an answer that never came is a KeyError *)
Inductive fetched (raise : bool) : answer -> res val -> Prop :=
| fe_lost t : fetched raise (NoAnswer t) (Raise KeyError)
| fe_text st : fetched raise (Answer st None) (Raise RuntimeError)
| fe_other st j : (forall d, j <> VDict d) -> fetched raise (Answer st (Some j)) (Raise TypeError)
| fe_nosuccess st d : dget "success" d = None -> fetched raise (Answer st (Some (VDict d))) (Raise KeyError)
| fe_result st d v e r : dget "success" d = Some v -> truthy v = true -> dget "data" d = Some (VDict e) -> dget "result" e = Some r -> fetched raise (Answer st (Some (VDict d))) (Ret r)
| fe_noresult st d v e : dget "success" d = Some v -> truthy v = true -> dget "data" d = Some (VDict e) -> dget "result" e = None -> fetched raise (Answer st (Some (VDict d))) (Raise KeyError)
| fe_nodata st d v : dget "success" d = Some v -> truthy v = true -> dget "data" d = None -> fetched raise (Answer st (Some (VDict d))) (Raise KeyError)
| fe_baddata st d v j : dget "success" d = Some v -> truthy v = true -> dget "data" d = Some j -> (forall e, j <> VDict e) -> fetched raise (Answer st (Some (VDict d))) (Raise TypeError)
| fe_wait st d v : dget "success" d = Some v -> truthy v = false -> dget "awaiting" d = Some (VBool true) -> fetched raise (Answer st (Some (VDict d))) (Ret (VBool true))
| fe_nowait st d v : dget "success" d = Some v -> truthy v = false -> dget "awaiting" d = None -> fetched raise (Answer st (Some (VDict d))) (Raise KeyError)
| fe_unknown st d v w : dget "success" d = Some v -> truthy v = false -> dget "awaiting" d = Some w -> w <> VBool true -> fetched raise (Answer st (Some (VDict d))) (if raise then Raise ValueError else Ret (VBool false)).

(** ** transactions *)
(** the overrides that are sent, given those of the caller: a gas limit that is missing or zero is
    replaced, everything else is passed on *)
Definition gas_rule (given sent : dict) : Prop :=
  (forall k, k <> "gasLimit" -> dget k sent = dget k given) /\
  (forall v, dget "gasLimit" given = Some v -> truthy v = true -> dget "gasLimit" sent = Some v) /\
  ((forall v, dget "gasLimit" given = Some v -> truthy v = false) -> dget "gasLimit" sent = Some (VInt 999999999)).
(** one request was sent, to the given path, and its overrides follow the rule and are also what
    the caller then finds in the dict they passed *)
Definition gas_sent {A} (base path token : string) (o : option dict) (x : option dict * run A) : Prop :=
  exists q g, fst (snd x) = [q] /\ q_post q = true /\ q_url q = at_server base path /\ q_token q = token /\
    dget "overrides" (q_body q) = Some (VDict g) /\
    match o with None => g = [("gasLimit", VInt 999999999)] /\ fst x = None | Some d => gas_rule d g /\ fst x = Some g end.
(** the prices and budgets of an update that are sent in its record *)
Definition six (u : update) : list (string * val) :=
  [("buyPriceLow", u_buyPriceLow u); ("buyPriceHigh", u_buyPriceHigh u); ("buyBudget", u_buyBudget u);
   ("sellPriceLow", u_sellPriceLow u); ("sellPriceHigh", u_sellPriceHigh u); ("sellBudget", u_sellBudget u)].
