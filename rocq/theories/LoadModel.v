(** Model of carbon/routers/base_router.py:265-349, reading orders from a file.

    The content of a JSON file is a list of records: an object of records gives its values in
    order. Values are numbers (or strings of numbers) or null; other strings are not modelled,
    nor is logging. Numbers are real. *)
From Coq Require Import Reals ZArith List Bool String.
From Verif Require Import CurveModel OrderModel.
Import ListNotations.
Local Open Scope R_scope.

Inductive jval := JAbsent | JNull | JNum (r : R).
(** the four keys that are used (line 290), all others are dropped *)
Record jrec := mkRec { j_S : jval; j_B : jval; j_y : jval; j_yint : jval }.
(** line 288: Decimal(None) is a TypeError *)
Definition num_of (v : jval) : res (option R) := match v with JAbsent => Ret None | JNull => Raise TypeError | JNum r => Ret (Some r) end.
(** lines 286-309. int(float(.)) of a square root is its integer part; the second order is not
    converted, so its adj_n_mode is the default *)
Definition record_order (floor : bool) (r : jrec) : res order :=
  let* s := num_of (j_S r) in let* b := num_of (j_B r) in let* y := num_of (j_y r) in let* z := num_of (j_yint r) in
  let* c := make_order (mkIn b s z None None None y None false false) in
  if floor then
    let* sh := rsqrt (o_phigh c) in let* sl := rsqrt (o_plow c) in
    let p_high := IZR (Int_part sh) * 2 ^ 32 in let p_low := IZR (Int_part sl) * 2 ^ 32 in
    Ret (mkOrder (Some p_low) (Some (p_high - p_low)) (o_yint c) (o_phigh c) (o_plow c) (o_y c) false)
  else Ret c.
(** lines 283-323 *)
Fixpoint read_json (floor : bool) (num : Z) (curves : list order) (l : list jrec) : res (list order) :=
  match l with
  | [] => Ret curves
  | r :: l => let* c := record_order floor r in
              let curves := (curves ++ [c])%list in
              if Z.eqb (Z.of_nat (List.length curves)) num then Ret curves else read_json floor num curves l
  end.
(** lines 311-320: tokens and, for each of them, (p_a, p_b, y_int) *)
Record nix := mkNix { x_token1 : string; x_token2 : string; x_1 : R * R * R; x_2 : R * R * R }.
Definition nix_of (c : order) : nix := mkNix "usdc" "eth" (o_phigh c, o_plow c, o_yint c) (o_phigh c, o_plow c, o_yint c).
(** lines 332-346: a row (p_low, p_high, y_int) *)
Definition row_order (r : R * R * R) : res order := let '(l, h, z) := r in make_order (mkIn None None (Some z) (Some h) (Some l) None None None false false).
Fixpoint read_csv (l : list (R * R * R)) : res (list order) := match l with [] => Ret [] | r :: l => let* c := row_order r in let* cs := read_csv l in Ret (c :: cs) end.
(** a file of one of the types; any other type of file is not even opened *)
Inductive file := Json (l : list jrec) | Csv (l : list (R * R * R)) | Unknown.
(** lines 265-351: [nixq] is format_type == "nix" *)
Definition make_orders_from_file (floor : bool) (f : file) (nixq : bool) (num : option Z) : res (list order * option (list nix)) :=
  let num := match num with None => 10%Z | Some n => n end in
  let* r := match f with
            | Json l => let* cs := read_json floor num [] l in Ret (cs, map nix_of cs)
            | Csv l => let* cs := read_csv l in Ret (cs, [])
            | Unknown => Ret ([], [])
            end in
  Ret (fst r, if nixq then Some (snd r) else None).
