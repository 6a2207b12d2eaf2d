(** Model of carbon/routers/exact_router_x0y0n.py (the closed-form splits) and
    carbon/routers/exact_base_router.py (dxdy and the matching loop).

    Decimals are real numbers. Logging, printing and [frmt] (rounding to 12 digits) are left
    out, as are the fields of Action that only repeat arguments. *)
From Coq Require Import Reals Bool List Arith.
From Verif Require Import CurveModel OrderModel.
Import ListNotations.
Local Open Scope R_scope.

(** the order properties the router reads; x, k and a are derived from these four
    (carbon/order.py:107-123) *)
Record xorder := mkX { xo_n : R; xo_x0 : R; xo_y0 : R; xo_y : R }.
(** reading the properties n, x0, y0, y of an order (carbon/order.py:100-139) *)
Definition view (o : order) : res xorder := let* n := o_n o in let* x := o_x0 o in let* y := o_y0 o in Ret (mkX n x y (o_y o)).
(** carbon/order.py:107-111, 113-115, 117-123 *)
Definition xo_k (o : xorder) : R := xo_x0 o * xo_y0 o.
Definition xo_a (o : xorder) : R := xo_k o * (xo_n o - 1) - xo_n o * xo_x0 o * xo_y o.
Definition xo_x (o : xorder) : res R := rdiv (xo_x0 o * (xo_n o * xo_y o - xo_y o + xo_y0 o * (2 - xo_n o))) (xo_n o * xo_y o + xo_y0 o * (1 - xo_n o)).

(** self.orders[i]; all indices used by the router come from self.indexes *)
Definition getx (os : list xorder) (i : nat) : xorder := nth i os (mkX 0 0 0 0).
Definition rsum (l : list R) : R := fold_right Rplus 0 l.
(** base_router.py:161-166 *)
Definition rprod (l : list R) : R := fold_right Rmult 1 l.
Fixpoint rmap {A B} (f : A -> res B) (l : list A) : res (list B) :=
  match l with [] => Ret [] | a :: l => let* b := f a in let* bs := rmap f l in Ret (b :: bs) end.
Definition without (j : nat) (l : list nat) : list nat := filter (fun i => negb (Nat.eqb i j)) l.

(** exact_router_x0y0n.py:113-158 and 53-83 *)
Definition amt_by_target (os : list xorder) (s : nat) (dx : R) (sub : list nat) : res R :=
  let o := getx os s in
  let free := without s sub in
  let ns j := rprod (map (fun k => xo_n (getx os k)) (without j free)) in
  let a := rprod (map (fun i => xo_n (getx os i)) free) in
  let b := rsum (map (fun i => xo_y (getx os i)) free) - rsum (map (fun i => xo_y0 (getx os i)) free) in
  let c := rsum (map (fun j => ns j * xo_y0 (getx os j)) free) in
  let* es := rmap (fun j => let* q := rsqrt (xo_x0 (getx os j) * xo_y0 (getx os j) * xo_x0 o * xo_y0 o) in Ret (ns j * q)) free in
  let e := rsum es in
  let d := - (xo_n o * xo_y o + xo_y0 o * (1 - xo_n o)) in
  let* _ := xo_x o in  (* line 65: evaluated, not used *)
  rdiv (xo_x0 o * xo_y0 o * (a * (b + dx) + c) + d * e) (xo_n o * e + xo_x0 o * xo_y0 o * a).

(** exact_router_x0y0n.py:85-111, 160-188 and 21-51 *)
Definition amt_by_src (os : list xorder) (s : nat) (dx : R) (sub : list nat) : res R :=
  let o := getx os s in
  let free := without s sub in
  let ns j := rprod (map (fun k => xo_n (getx os k)) (without j free)) in
  let* xs := rmap (fun i => xo_x (getx os i)) free in
  let g := - dx + (rsum (map (fun i => xo_x0 (getx os i)) free) - rsum xs) in
  let* es := rmap (fun i => let* q := rsqrt (xo_k o * xo_k (getx os i)) in Ret (ns i * q)) free in
  let e := rsum es in
  let c := rsum (map (fun i => ns i * xo_x0 (getx os i)) free) in
  let f := xo_k o * rprod (map (fun i => xo_n (getx os i)) free) in
  let* x := xo_x o in
  let d := - xo_n o * xo_x0 o + xo_n o * x + xo_x0 o in
  let b := - c * xo_k o + d * e + f * g in
  rdiv (xo_a o ^ 2 * b) (xo_x0 o * (xo_a o * b * xo_n o + xo_k o * xo_x0 o * (e * xo_n o + f))).

(** exact_base_router.py:18-29 *)
Definition dxdy (o : xorder) (dy : R) : res R :=
  rdiv (- xo_x0 o * xo_y0 o * dy) ((xo_n o * xo_y o + xo_y0 o * (1 - xo_n o)) * (xo_n o * (xo_y o + dy) + xo_y0 o * (1 - xo_n o))).

(** ** The matching loop, exact_base_router.py:77-241 *)
(** dicts from index to amount, in insertion order *)
Definition swaps := list (nat * R).
Definition mem (i : nat) (l : list nat) : bool := existsb (Nat.eqb i) l.
Fixpoint dset (i : nat) (v : R) (d : swaps) : swaps :=
  match d with [] => [(i, v)] | (j, w) :: d => if Nat.eqb i j then (i, v) :: d else (j, w) :: dset i v d end.
(** lines 31-39 *)
Definition check_partial_swaps (ps : swaps) : bool :=
  match ps with [] => false | _ => forallb (fun kv => rle (snd kv) 0) ps end.
Definition indexes (os : list xorder) : list nat := seq 0 (length os).
(** the split formula as a function of subject, amount and subset *)
Definition splitter := nat -> R -> list nat -> res R.
(** lines 122-144: the inner loop; None: more steps are needed *)
Fixpoint inner (fuel : nat) (os : list xorder) (split : splitter) (amt : R) (dropped : list nat) (ps : swaps) : option (res swaps) :=
  match fuel with
  | O => None
  | S fuel =>
    if check_partial_swaps ps then Some (Ret ps) else
    let dropped := dropped ++ map fst (filter (fun kv => rlt 0 (snd kv)) ps) ++ filter (fun i => req (xo_y (getx os i)) 0) (indexes os) in
    let sub := filter (fun i => negb (mem i dropped)) (indexes os) in
    match sub with
    | [] => Some (Ret ps)
    | _ =>
      match rmap (fun i => let* v := split i amt sub in Ret (i, v)) sub with
      | Raise e => Some (Raise e)
      | Ret ps => inner fuel os split amt dropped ps
      end
    end
  end.
(** lines 99-161: the outer loop; the fuel of both loops is separate *)
Fixpoint outer (fuel infuel : nat) (os : list xorder) (split : splitter) (by_target : bool) (level : list nat) (x : R) (final : swaps) : option (res (swaps * swaps)) :=
  match fuel with
  | O => None
  | S fuel =>
    let dropped := match level with [] => map fst final | _ => filter (fun i => negb (mem i level)) (indexes os) ++ map fst final end in
    match (if by_target then Ret (map snd final) else rmap (fun kv => dxdy (getx os (fst kv)) (snd kv)) final) with
    | Raise e => Some (Raise e)
    | Ret deltas =>
      match inner infuel os split (x - rsum deltas) dropped [] with
      | None => None
      | Some (Raise e) => Some (Raise e)
      | Some (Ret ps) =>
        match filter (fun kv => rlt (xo_y (getx os (fst kv)) + snd kv) 0) ps with
        | [] => Some (Ret (final, ps))
        | hits => outer fuel infuel os split by_target level x (fold_left (fun d kv => dset (fst kv) (- xo_y (getx os (fst kv))) d) hits final)
        end
      end
    end
  end.

(** what is returned per order (lines 226-241) *)
Record action := mkAction { ac_index : nat; ac_input : R; ac_output : R; ac_total_input : R; ac_total_output : R }.
(** lines 164-179, 226-241: running totals *)
Fixpoint actions (ti tout : R) (l : list (nat * R * R)) : list action :=
  match l with
  | [] => []
  | (i, inp, out) :: l => mkAction i inp out (ti + inp) (tout + out) :: actions (ti + inp) (tout + out) l
  end.
(** base_router.py:168-186: returns whether the amount is left as it is; [Ret false] stands
    for a returned liquidity of zero *)
Definition sufficient_liquidity (os : list xorder) (x : R) (level : list nat) (support_partial : bool) : res bool :=
  let level := match level with [] => indexes os | _ => level end in
  let available := rsum (map (fun i => xo_y (getx os i)) level) in
  if rle 0 (available - Rabs x) then Ret true else
  if support_partial then Ret (negb (req available 0)) else Raise AssertionError.
(** lines 77-241; check_sufficient_liquidity is the argument [check] *)
Definition match_with (fuel infuel : nat) (os : list xorder) (split : splitter) (x : R) (by_target check : bool) (level : list nat) (support_partial : bool) : option (res (list action)) :=
  match (if by_target && check then
           let* ok := sufficient_liquidity os x level support_partial in
           Ret (if ok : bool then x else rsum (map (fun i => xo_y (getx os i)) level))
         else Ret x) with
  | Raise e => Some (Raise e)
  | Ret x =>
    match outer fuel infuel os split by_target level x [] with
    | None => None
    | Some (Raise e) => Some (Raise e)
    | Some (Ret (final, ps)) =>
      let final := fold_left (fun d kv => dset (fst kv) (snd kv) d) ps final in
      let outputs := filter (fun kv => negb (req (snd kv) 0)) final in
      Some (
        let* rows := rmap (fun kv => let* i := dxdy (getx os (fst kv)) (snd kv) in Ret (fst kv, i, snd kv)) outputs in
        let actual := if by_target then rsum (map snd outputs) else rsum (map (fun r => snd (fst r)) rows) in
        let* ratio := rdiv x actual in
        let err := Rabs (ratio - 1) in
        if negb by_target && negb support_partial && rlt (actual - x) 0 then Raise AssertionError else
        if negb support_partial && rlt (/ 10000) err && rle (5 / 100) err then Raise RuntimeError else
        Ret (actions 0 0 rows))
    end
  end.
Definition exact_match (fuel infuel : nat) (os : list xorder) (x : R) (by_target check : bool) (level : list nat) (support_partial : bool) :=
  match_with fuel infuel os (if by_target then amt_by_target os else amt_by_src os) x by_target check level support_partial.
