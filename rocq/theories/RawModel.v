(** Model of the strategies of the SDK with their raw data: carbonsdk.py:208-249 and 341-422
    (EncodedOrder.from_sdk, EncodedStrategy).

    A strategy keeps a reference to the dict that it was made from; [raw_json] writes into this
    dict. So the dict is a state, and [raw_json] returns the new one beside its result. What
    json.dumps is given stands for the text that it makes. Floats are exact rationals. *)
From Coq Require Import ZArith QArith List Bool Ascii String DecimalString.
From Verif Require Import TradeModel CurveModel SdkModel ReqModel.
Import ListNotations.
Local Open Scope string_scope.

(** an entry: an integer or a text *)
Inductive pv := PInt (z : Z) | PStr (s : string).
(** str(x) *)
Definition pstr (v : pv) : string := match v with PInt z => dec z | PStr s => s end.
(** int(x); simplified: of the texts only plain decimal numbers are read, others raise *)
Definition pint (v : pv) : res Z :=
  match v with
  | PInt z => Ret z
  | PStr "" => Raise ValueError
  | PStr s => match NilEmpty.int_of_string s with Some i => Ret (Z.of_int i) | None => Raise ValueError end
  end.
(** x == y; a number never equals a text *)
Definition peq (a b : pv) : bool :=
  match a, b with PInt x, PInt y => Z.eqb x y | PStr s, PStr t => String.eqb s t | _, _ => false end.

(** the dict of a strategy, of which the entries read by the code *)
Definition odict := list (string * pv).
Record raw := mkRaw { r_id : pv; r_token0 : string; r_token1 : string; r_order0 : odict; r_order1 : odict }.
Fixpoint get (k : string) (d : odict) : option pv :=
  match d with [] => None | (a, v) :: d => if String.eqb a k then Some v else get k d end.

(** 208-233: the call [cls(token=token, ** order)] takes the keys y, z, A, B and no others *)
Record rorder := mkRorder { ro_token : string; ro_y : pv; ro_z : pv; ro_A : pv; ro_B : pv }.
Definition ro_from_sdk (token : string) (d : odict) : res rorder :=
  if forallb (fun e => existsb (String.eqb (fst e)) ["y"; "z"; "A"; "B"]) d then
    match get "y" d, get "z" d, get "A" d, get "B" d with
    | Some y, Some z, Some A, Some B => Ret (mkRorder token y z A B)
    | _, _, _, _ => Raise TypeError
    end
  else Raise TypeError.
(** 243-251 *)
Definition ro_decode (v : pv) : res Q := let* z := pint v in eo_decode z.
(** 349-363 *)
Definition ro_p_end (o : rorder) : res Q := let* b := ro_decode (ro_B o) in Ret (b * b)%Q.
Definition ro_p_start (o : rorder) : res Q := let* b := ro_decode (ro_B o) in let* a := ro_decode (ro_A o) in Ret ((b + a) * (b + a))%Q.
Definition ro_p_marg (o : rorder) : res Q :=
  if peq (ro_y o) (ro_z o) then ro_p_start o
  else if peq (ro_y o) (PInt 0) then ro_p_end o
  else Raise RuntimeError.

(** 371-396 *)
Record estrat := mkEstrat { es_sid : pv; es_order0 : rorder; es_order1 : rorder }.
Definition es_from_sdk (d : raw) : res estrat :=
  let* o0 := ro_from_sdk (r_token0 d) (r_order0 d) in
  let* o1 := ro_from_sdk (r_token1 d) (r_order1 d) in
  Ret (mkEstrat (r_id d) o0 o1).
(** 398-406: (what json.dumps is given, the dict afterwards) *)
Definition texts (d : odict) : odict := map (fun e => (fst e, PStr (pstr (snd e)))) d.
Definition raw_json (d : raw) : raw * raw :=
  let d' := mkRaw (PStr (pstr (r_id d))) (r_token0 d) (r_token1 d) (texts (r_order0 d)) (texts (r_order1 d)) in (d', d').
(** 408-413: the numbers shown, of order0 as token1 per token0, of order1 as they are *)
Definition es_descr (s : estrat) : res ((Q * Q) * (Q * Q)) :=
  let* a := ro_p_start (es_order0 s) in let* a := sdiv 1 a in
  let* b := ro_p_end (es_order0 s) in let* b := sdiv 1 b in
  let* c := ro_p_start (es_order1 s) in let* d := ro_p_end (es_order1 s) in
  Ret ((a, b), (c, d)).
