(** Model of carbon/routers/fast_router.py (class FastRouter) and of the data classes of
    carbon/routers/base_router.py:19-55.

    Decimal arithmetic is exact rational arithmetic here; the Decimal context precision and
    [frmt] (round(float(.), 12), base_router.py:154-159, used at fast_router.py:215-219) are
    not modelled. Python's [sorted] is an argument [sort]; the theorems assume at most that
    it permutes its input (and, for the ranking, that it sorts when the comparator is a total
    preorder). *)
From Coq Require Import ZArith QArith Qabs Qround List Bool.
From Verif Require Import TradeModel PairModel SimModel MatchModel.
Import ListNotations.
Local Open Scope Q_scope.

(** the four order fields the router reads (fast_router.py:59, 81) *)
Record forder := mkForder { fo_y : Q; fo_z : Q; fo_A : Q; fo_B : Q }.

(** base_router.py:19-55 *)
Record frate := mkFrate { fr_input : Q; fr_output : Q }.
Record fquote := mkFquote { fq_index : nat; fq_rate : frate }.
Record faction := mkFaction { fa_index : nat; fa_input : Q; fa_output : Q }.

(** Decimal's [a // b]: the quotient truncated towards zero; raises for b = 0 *)
Definition qquot (a b : Q) : option Q :=
  do q <- qdiv a b; Some (inject_Z (if Qle_bool 0 q then Qfloor q else - Qfloor (- q))).

(** fast_router.py:29, 260-265: ONE; [floor] is the parameter use_floor_division *)
Definition fast_one (floor : bool) : Q := if floor then inject_Z (2 ^ 32) else 1.
(** fast_router.py:33-38 *)
Definition mul_div_f (floor : bool) (x y z : Q) : option Q := if floor then qquot (x * y) z else qdiv (x * y) z.
(** fast_router.py:40-45 *)
Definition mul_div_c (floor : bool) (x y z : Q) : option Q := if floor then qquot (x * y + z - 1) z else qdiv (x * y) z.

(** fast_router.py:47-67 *)
Definition amt_by_src (floor : bool) (o : forder) (dx : Q) : option Q :=
  let temp1 := fo_z o * fast_one floor in
  let temp2 := fo_y o * fo_A o + fo_z o * fo_B o in
  let temp3 := temp2 - dx * fo_A o in
  mul_div_c floor (dx * temp1) temp1 (temp2 * temp3).
(** fast_router.py:69-92 *)
Definition amt_by_target (floor : bool) (o : forder) (dx : Q) : option Q :=
  let temp1 := fo_y o * fo_A o + fo_z o * fo_B o in
  do temp2 <- (if floor then qquot (temp1 * dx) (fast_one floor) else qdiv (temp1 * dx) (fast_one floor));
  let temp3 := temp2 * fo_A o + fo_z o * fo_z o * fast_one floor in
  mul_div_f floor temp1 temp2 temp3.

(** Python's [min(a, b)] *)
Definition pymin (a b : Q) : Q := if Qlt_bool b a then b else a.

(** fast_router.py:94-105 *)
Definition quote_by_source (floor : bool) (source_amount : Q) (o : forder) : option frate :=
  do target_amount <- amt_by_target floor o source_amount;
  let output := pymin target_amount (fo_y o) in
  do input <- amt_by_src floor o output;
  Some (mkFrate input output).
(** fast_router.py:107-116 *)
Definition quote_by_target (floor : bool) (target_amount : Q) (o : forder) : option frate :=
  let input := pymin target_amount (fo_y o) in
  do output <- amt_by_src floor o input;
  Some (mkFrate input output).

(** fast_router.py:118-128 *)
Definition cmp_min (x y : fquote) : Z :=
  let lhs := fr_output (fq_rate x) * fr_input (fq_rate y) in
  let rhs := fr_output (fq_rate y) * fr_input (fq_rate x) in
  let lt := Qlt_bool lhs rhs in
  let gt := Qlt_bool rhs lhs in
  let eq := negb lt && negb gt in
  let is_lt := lt || (eq && Qlt_bool (fr_output (fq_rate x)) (fr_output (fq_rate y))) in
  let is_gt := gt || (eq && Qlt_bool (fr_output (fq_rate y)) (fr_output (fq_rate x))) in
  ((if is_lt then 1 else 0) - (if is_gt then 1 else 0))%Z.
(** fast_router.py:130-132 *)
Definition cmp_max (x y : fquote) : Z := cmp_min y x.

(** fast_router.py:18-27, 134-137: all thresholds are 0 *)
Definition fast_filter (r : frate) : bool := Qlt_bool 0 (fr_input r) && Qlt_bool 0 (fr_output r).

(** fast_router.py:173-175: the quotes before sorting *)
Definition fast_quotes (trade : Q -> forder -> option frate) (x : Q) (orders : list forder) : option (list fquote) :=
  mapM (fun io => do r <- trade x (snd io); Some (mkFquote (fst io) r)) (combine (seq 0 (length orders)) orders).

(** fast_router.py:173-203: the loop. When the filter rejects a quote the loop goes on to the
    next one in all three branches. *)
Fixpoint fast_loop (trade : Q -> forder -> option frate) (orders : list forder) (x : Q) (quotes : list fquote) : option (list faction) :=
  match quotes with
  | [] => Some []
  | q :: qs =>
    let r := fq_rate q in
    if Qlt_bool (fr_input r) x then
      if fast_filter r then
        do rest <- fast_loop trade orders (x - fr_input r) qs;
        Some (mkFaction (fq_index q) (fr_input r) (fr_output r) :: rest)
      else fast_loop trade orders x qs
    else if Qeq_bool x (fr_input r) then
      if fast_filter r then Some [mkFaction (fq_index q) (fr_input r) (fr_output r)]
      else fast_loop trade orders x qs
    else if fast_filter r then
      do o <- nth_error orders (fq_index q);
      do t <- trade x o;
      Some [mkFaction (fq_index q) x (fr_output t)]
    else fast_loop trade orders x qs
  end.

(** fast_router.py:207-212, 221: running totals; the total output of the last action is negated *)
Fixpoint fast_totals (tin tout : Q) (acts : list faction) : list route :=
  match acts with
  | [] => []
  | a :: acts =>
    let tin := tin + fa_input a in let tout := tout + fa_output a in
    mkRoute (fa_index a) (fa_input a) (fa_output a) tin (match acts with [] => - tout | _ => tout end)
    :: fast_totals tin tout acts
  end.

Definition fsorter := (fquote -> fquote -> Z) -> list fquote -> list fquote.
(** fast_router.py:139-223 (with actions = [] the access actions[0] raises IndexError) *)
Definition fast_match (sort : fsorter) (trade : Q -> forder -> option frate) (cmp : fquote -> fquote -> Z)
    (orders : list forder) (x : Q) : option (list route) :=
  let x := Qabs x in
  do qs <- fast_quotes trade x orders;
  do acts <- fast_loop trade orders x (sort cmp qs);
  match acts with [] => None | _ => Some (fast_totals 0 0 acts) end.
(** fast_router.py:225-241; threshold_orders and support_partial are not used *)
Definition match_by_src (sort : fsorter) (floor : bool) (orders : list forder) (x : Q) : option (list route) :=
  fast_match sort (quote_by_source floor) cmp_min orders x.
(** fast_router.py:243-258 *)
Definition match_by_target (sort : fsorter) (floor : bool) (orders : list forder) (x : Q) : option (list route) :=
  fast_match sort (quote_by_target floor) cmp_max orders x.

(** the fast router as the simulator's matcher: [ab] gives the curve parameters S and B of an
    order (order.py:190-201, computed from the price range with square roots) *)
Definition fast_router (sort : fsorter) (ab : sorder -> Q * Q) (apps : list sorder) (rq : request) : option (list route) :=
  let orders := map (fun o => mkForder (so_y o) (so_yint o) (fst (ab o)) (snd (ab o))) apps in
  match rq_by rq with
  | BySource => match_by_src sort false orders (rq_x rq)
  | ByTarget => match_by_target sort false orders (rq_x rq)
  end.
