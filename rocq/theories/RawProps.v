(** C179: strategies of the SDK and their raw data. *)
From Coq Require Import ZArith QArith List Bool Ascii String DecimalString Permutation Lia.
From Verif Require Import TradeModel CurveModel SdkModel ReqModel RawModel RawProofs.
Import ListNotations.
Local Open Scope string_scope.

(** ** C179 *)
(** the document has the tokens and keys of the dict, and for each number a text that is read as this number *)
Theorem C179_document : forall d, all_numbers d -> let doc := fst (raw_json d) in
  r_token0 doc = r_token0 d /\ r_token1 doc = r_token1 d /\
  (exists n t, r_id d = PInt n /\ r_id doc = PStr t /\ reads t n) /\
  (forall pick, pick = r_order0 \/ pick = r_order1 ->
     Forall2 (fun e f => fst f = fst e /\ exists z t, snd e = PInt z /\ snd f = PStr t /\ reads t z) (pick d) (pick doc)).
Proof.
  intros d ((n & E) & N0 & N1) doc. split; [reflexivity|]. split; [reflexivity|]. split.
  - exists n, (dec n). split; [exact E|]. split; [cbn; rewrite E; reflexivity|]. apply ReqProofs.dec_read.
  - intros pick [->| ->]; apply texts_read; assumption.
Qed.
Print Assumptions C179_document.
(** reading it again gives the same document and changes nothing more *)
Theorem C179_twice : forall d, raw_json (snd (raw_json d)) = raw_json d.
Proof. intros d. unfold raw_json. cbn. rewrite !texts_twice. reflexivity. Qed.
Print Assumptions C179_twice.
(** a strategy is made of a dict if and only if both orders have exactly the keys y, z, A, B *)
Theorem C179_from_sdk : forall d, NoDup (map fst (r_order0 d)) -> NoDup (map fst (r_order1 d)) ->
  let good o := Permutation (map fst o) ["y"; "z"; "A"; "B"] in
  (good (r_order0 d) /\ good (r_order1 d) -> exists s, es_from_sdk d = Ret s /\ es_sid s = r_id d /\ ro_token (es_order0 s) = r_token0 d /\ ro_token (es_order1 s) = r_token1 d /\
     (forall o e, (o = es_order0 s /\ e = r_order0 d) \/ (o = es_order1 s /\ e = r_order1 d) ->
        In ("y", ro_y o) e /\ In ("z", ro_z o) e /\ In ("A", ro_A o) e /\ In ("B", ro_B o) e)) /\
  (~ (good (r_order0 d) /\ good (r_order1 d)) -> es_from_sdk d = Raise TypeError).
Proof. exact from_sdk_spec. Qed.
Print Assumptions C179_from_sdk.
(** The document is made inside the dict that the strategy was made of. A strategy made of this dict
    later has texts for its numbers; its ends of ranges are the same, but its marginal prices are only
    known for full orders, not for empty ones. *)
Theorem C179_shared : forall d s, all_numbers d -> es_from_sdk d = Ret s ->
  exists s', es_from_sdk (snd (raw_json d)) = Ret s' /\ peq (es_sid s') (es_sid s) = false /\
  forall pick, pick = es_order0 \/ pick = es_order1 -> exists y z A B t, pick s = mkRorder t (PInt y) (PInt z) (PInt A) (PInt B) /\
    ro_token (pick s') = t /\ ro_p_start (pick s') = ro_p_start (pick s) /\ ro_p_end (pick s') = ro_p_end (pick s) /\
    (y = z -> ro_p_marg (pick s') = ro_p_start (pick s)) /\ (y <> z -> ro_p_marg (pick s') = Raise RuntimeError) /\
    (y = 0%Z -> y <> z -> ro_p_marg (pick s) = ro_p_end (pick s)).
Proof. exact shared_spec. Qed.
Print Assumptions C179_shared.
(** descr shows the prices of the first order inverted, those of the second as they are; it raises
    if and only if the first order reaches a price of 0 *)
Theorem C179_descr : forall s a b c d, ro_p_start (es_order0 s) = Ret a -> ro_p_end (es_order0 s) = Ret b -> ro_p_start (es_order1 s) = Ret c -> ro_p_end (es_order1 s) = Ret d ->
  (~ (a == 0)%Q -> ~ (b == 0)%Q -> exists p q, es_descr s = Ret ((p, q), (c, d)) /\ (p * a == 1)%Q /\ (q * b == 1)%Q) /\
  ((a == 0)%Q \/ (b == 0)%Q -> es_descr s = Raise ZeroDivision).
Proof. exact descr_spec. Qed.
Print Assumptions C179_descr.

(** an empty order and a full one *)
Definition ex_raw : raw := mkRaw (PInt (2 ^ 128 + 1)) "0xaa" "0xbb" [("y", PInt 0); ("z", PInt 10); ("A", PInt 5); ("B", PInt (2 ^ 47))] [("B", PInt 7); ("A", PInt 0); ("y", PInt 3); ("z", PInt 3)].
Example C179_ex : all_numbers ex_raw /\ r_id (fst (raw_json ex_raw)) = PStr "340282366920938463463374607431768211457" /\
  exists s s', es_from_sdk ex_raw = Ret s /\ es_from_sdk (snd (raw_json ex_raw)) = Ret s' /\
    (exists p, ro_p_marg (es_order0 s) = Ret p /\ (p == 1 # 4)%Q) /\ ro_p_marg (es_order0 s') = Raise RuntimeError /\ ro_p_marg (es_order1 s') = ro_p_marg (es_order1 s).
Proof.
  split; [split; [eexists; reflexivity|]; split; repeat (constructor; [eexists; reflexivity|]); constructor|]. split; [vm_compute; reflexivity|].
  eexists. eexists. split; [reflexivity|]. split; [reflexivity|]. split; [eexists; split; [vm_compute; reflexivity|reflexivity]|]. split; vm_compute; reflexivity.
Qed.
