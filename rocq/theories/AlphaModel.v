(** Model of carbon/routers/alpha_router.py: the selection of a limited number of orders, and
    the two match functions, which hand the selection to the exact router.

    Decimals are real numbers. The pandas tables (lines 224-254, 358-382) are lists of rows;
    sorting their rows is an arbitrary function [rank] of the hypothetical amounts.
    use_floor_division is False. *)
From Coq Require Import Reals Bool List Arith.
From Verif Require Import CurveModel OrderModel ExactModel.
Import ListNotations.
Local Open Scope R_scope.

(** enumerated lists *)
Definition rows := list (nat * R).
Fixpoint enumerate (i : nat) (l : list R) : rows := match l with [] => [] | a :: l => (i, a) :: enumerate (S i) l end.
(** lines 26-27 *)
Definition sum_me (l : rows) : R := rsum (map snd l).
(** Python's min and max of a list *)
Fixpoint rmin_of (a : R) (l : list R) : R := match l with [] => a | b :: l => rmin_of (if rlt b a then b else a) l end.
Fixpoint rmax_of (a : R) (l : list R) : R := match l with [] => a | b :: l => rmax_of (if rlt a b then b else a) l end.
(** lines 30-36 *)
Definition min_item (l : rows) : res (nat * R) :=
  match l with
  | [] => Raise ValueError
  | (_, a) :: r => match filter (fun p => req (snd p) (rmin_of a (map snd r))) l with p :: _ => Ret p | [] => Raise IndexError end
  end.
(** lines 39-45 *)
Definition max_item (l : rows) : res (nat * R) :=
  match l with
  | [] => Raise ValueError
  | (_, a) :: r => match filter (fun p => req (snd p) (rmax_of a (map snd r))) l with p :: _ => Ret p | [] => Raise IndexError end
  end.
(** lines 47-48 *)
Definition get_i (l : rows) (i : nat) : res (nat * R) :=
  match filter (fun p => Nat.eqb (fst p) i) l with p :: _ => Ret p | [] => Raise IndexError end.
(** list.remove of a pair; the caller removes an element of the list *)
Fixpoint remove_row (p : nat * R) (l : rows) : rows :=
  match l with [] => [] | q :: l => if Nat.eqb (fst p) (fst q) && req (snd p) (snd q) then l else q :: remove_row p l end.
(** the length of the set of the indices *)
Definition distinct (l : list nat) : nat := length (nodup Nat.eq_dec l).
(** lines 56-65 *)
Definition assertion_checks (full : bool) (cur threshold max_fill : R) (tl : rows) (k : nat) : res unit :=
  if (if full then rle threshold cur else req cur max_fill) then
    if Nat.ltb (length tl) k then Ret tt else if Nat.eqb (distinct (map fst tl)) k then Ret tt else Raise AssertionError
  else Raise AssertionError.
(** sorted(numbers, reverse=True): sorting numbers has a unique result, computed here by insertion *)
Fixpoint insert_desc (a : R) (l : list R) : list R := match l with [] => [a] | b :: l => if rle b a then a :: b :: l else b :: insert_desc a l end.
Fixpoint sort_desc (l : list R) : list R := match l with [] => [] | a :: l => insert_desc a (sort_desc l) end.

(** lines 86-134: the loop over the shrinking list [iv]; [n] is len(numbers). The index
    [i0 + k - 1] of line 89 is only compared with [n - 1] and increased by one, so it is
    written [i0 + k]. [Ret None]: the loop ends without return *)
Fixpoint select_loop (n k : nat) (threshold max_fill max_val : R) (full : bool) (iv tl : rows) : res (option (list nat)) :=
  match iv with
  | [] => Ret None
  | (i0, _) :: rest =>
    let cur := sum_me tl in
    let finish := let* _ := assertion_checks full cur threshold max_fill tl k in Ret (Some (map fst tl)) in
    if negb full && req cur max_fill then finish else
    if rle threshold cur then finish else
    if Nat.ltb (i0 + k) n then
      let* mn := min_item tl in
      let* nx := get_i iv (i0 + k) in
      if rle max_val (snd mn) then finish else
      if rlt (snd mn) (snd nx) then select_loop n k threshold max_fill max_val full rest (remove_row mn tl ++ [nx])
      else select_loop n k threshold max_fill max_val full rest tl
    else finish
  end.
(** lines 68-134 *)
Definition select (numbers : list R) (threshold : R) (k : nat) : res (option (list nat)) :=
  let iv := enumerate 0 numbers in
  let* mx := max_item iv in
  let max_fill := rsum (firstn k (sort_desc numbers)) in
  select_loop (length numbers) k threshold max_fill (snd mx) (rle threshold max_fill) iv (firstn k iv).

(** lines 149-172 and 278-305; B and S are read from the order (None fails in the conversion
    to Decimal) *)
Definition hyp_target (o : order) (dx : R) : res R :=
  match o_B o, o_S o with
  | Some B, Some W => rdiv (dx * o_yint o ^ 2) ((W * o_y o + B * o_yint o) * (W * o_y o + B * o_yint o - W * dx))
  | _, _ => Raise ValueError
  end.
Definition hyp_source (o : order) (dx : R) : res R :=
  match o_B o, o_S o with
  | Some B, Some W => rdiv (dx * (W * o_y o + B * o_yint o) ^ 2) (W * dx * (W * o_y o + B * o_yint o) + o_yint o ^ 2)
  | _, _ => Raise ValueError
  end.
(** Decimal('0.0000000001') *)
Definition dust : R := / 10 ^ 10.
(** lines 257-261 and 385-389 *)
Definition clamp_request (sp : bool) (available x : R) : R :=
  if sp && rlt available (Rabs x) then (if rlt x 0 then - available + dust else available - dust) else x.
(** lines 262-276 and 390-403: selection by rank and the exact router restricted to it *)
Definition route (fuel infuel : nat) (os : list xorder) (ranked : list nat) (values : list R) (x : R) (by_target check : bool) (k : nat) (sp : bool) : option (res (list action)) :=
  match select values (Rabs x) k with
  | Raise e => Some (Raise e)
  | Ret None => Some (Raise TypeError)
  | Ret (Some ps) => exact_match fuel infuel os x by_target check (map (fun p => nth p ranked O) ps) sp
  end.
Definition ranking := (nat -> R) -> list nat -> list nat.
(** lines 174-276. The parameters x0, y0, n of all orders are read at the start; the exact router
    reads them when it needs them *)
Definition alpha_by_target (fuel infuel : nat) (rank : ranking) (ords : list order) (x : R) (check : bool) (k : option nat) (sp : bool) : option (res (list action)) :=
  match (let* os := rmap view ords in let* hs := rmap (fun o => hyp_target o x) ords in Ret (os, hs)) with
  | Raise e => Some (Raise e)
  | Ret (os, hs) =>
    let k := match k with Some k => k | None => 10%nat end in
    let ranked := rank (fun i => nth i hs 0) (indexes os) in
    let values := map (fun i => xo_y (getx os i)) ranked in
    route fuel infuel os ranked values (clamp_request sp (rsum values) x) true check k sp
  end.
(** lines 345-356: the value of an order, at its geometric mean price x0/y0 (lines 136-147) if the
    hypothetical amount exceeds its balance *)
Definition available_value (o : xorder) (v x : R) : res R :=
  if rlt (xo_y o) v then let* p := rdiv (xo_x0 o) (xo_y0 o) in Ret (p * xo_y o) else let* p := rdiv x v in Ret (p * v).
(** lines 307-403; without threshold_orders line 89 adds None to a number *)
Definition alpha_by_source (fuel infuel : nat) (rank : ranking) (ords : list order) (x : R) (check : bool) (k : option nat) (sp : bool) : option (res (list action)) :=
  match (let* os := rmap view ords in let* hs := rmap (fun o => hyp_source o x) ords in
         let* vs := rmap (fun i => available_value (getx os i) (nth i hs 0) x) (indexes os) in Ret (os, hs, vs)) with
  | Raise e => Some (Raise e)
  | Ret (os, hs, vs) =>
    let ranked := rank (fun i => nth i hs 0) (indexes os) in
    let values := map (fun i => nth i vs 0) ranked in
    match k, values with
    | None, [] => Some (Raise ValueError)
    | None, _ => Some (Raise TypeError)
    | Some k, _ => route fuel infuel os ranked values (clamp_request sp (rsum values) x) false check k sp
    end
  end.
