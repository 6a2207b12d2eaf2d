(** Model of benchmark/core/match/impl.py (greedy and optimal matching of a
    requested amount against a book of encoded orders).

    The order dict built by [execute] (lines 174-175) has keys 0..n-1; it is a list
    here and ids are list positions. Python's [sorted] is an argument [sort] of the
    matching functions: the theorems assume only that it returns a permutation, so
    they do not depend on which stable sorting algorithm Python uses (this matters
    because the comparator is not a strict weak order when a quote is 0/0). *)
From Coq Require Import ZArith QArith List Bool.
From Verif Require Import TradeModel.
Import ListNotations.
Local Open Scope Z_scope.

(** [while] loops: [step] either continues with a new state or exits with a result.
    [iterp p step s] performs at most [p] iterations and stops early on exit;
    if the bound is reached it returns [inl] of the last state. *)
Fixpoint iterp {S R : Type} (p : positive) (step : S -> S + R) (s : S) : S + R :=
  match p with
  | xH => step s
  | xO q => match iterp q step s with inl s' => iterp q step s' | inr r => inr r end
  | xI q => match step s with
            | inl s1 => match iterp q step s1 with inl s' => iterp q step s' | inr r => inr r end
            | inr r => inr r end
  end.

(** match/impl.py:7-10 *)
Record rate := mkRate { r_input : Z; r_output : Z }.
(** match/impl.py:12-15 *)
Record quote := mkQuote { q_id : nat; q_rate : rate }.
(** match/impl.py:17-21 *)
Record action := mkAction { a_id : nat; a_input : Z; a_output : Z }.

(** match/impl.py:23-32. The inner [while output > order['y']] loop lowers the input
    by one until the quote fits. The bound [input + 2] on the number of iterations is
    never reached when y >= 0 (C09); reaching it is reported as [None] (for a negative
    y the Python loop does not terminate). *)
Definition clamp_step (o : order) (s : Z * Z) : (Z * Z) + (Z * Z) :=
  let '(input, output) := s in
  if o_y o <? output then
    let input := input - 1 in inl (input, tradeBySourceAmount input o)
  else inr (input, output).
Definition rateBySourceAmount (sourceAmount : Z) (o : order) : option rate :=
  let input := sourceAmount in
  let output := tradeBySourceAmount input o in
  if o_y o <? output then
    let input := tradeByTargetAmount (o_y o) o in
    let output := tradeBySourceAmount input o in
    match iterp (Z.to_pos (input + 2)) (clamp_step o) (input, output) with
    | inr (input, output) => Some (mkRate input output)
    | inl _ => None
    end
  else Some (mkRate input output).

(** match/impl.py:34-37 *)
Definition rateByTargetAmount (targetAmount : Z) (o : order) : option rate :=
  let input := Z.min targetAmount (o_y o) in
  Some (mkRate input (tradeByTargetAmount input o)).

(** match/impl.py:39-47; Python bools subtract as 0/1. *)
Definition sortByMinRate (q1 q2 : quote) : Z :=
  let lhs := r_output (q_rate q1) * r_input (q_rate q2) in
  let rhs := r_output (q_rate q2) * r_input (q_rate q1) in
  let lt := lhs <? rhs in
  let gt := rhs <? lhs in
  let eq := negb lt && negb gt in
  let is_lt := lt || (eq && (r_output (q_rate q1) <? r_output (q_rate q2))) in
  let is_gt := gt || (eq && (r_output (q_rate q2) <? r_output (q_rate q1))) in
  (if is_lt then 1 else 0) - (if is_gt then 1 else 0).
(** match/impl.py:49-50 *)
Definition sortByMaxRate (q1 q2 : quote) : Z := sortByMinRate q2 q1.

(** match/impl.py:56-58 [getLimit] ([getParams], 52-54, decodes A and B) *)
Definition getLimit (o : order) : Z :=
  if 0 <? o_z o then (o_y o * decodeFloat (o_A o) + o_z o * decodeFloat (o_B o)) / o_z o else 0.
(** match/impl.py:60-62 *)
Definition equalizeByTargetAmount (o : order) (limit : Z) : Z :=
  let A := decodeFloat (o_A o) in let B := decodeFloat (o_B o) in
  if 0 <? A then (o_y o * A + o_z o * (B - limit)) / A else o_y o.
(** match/impl.py:64-65 *)
Definition equalizeBySourceAmount (o : order) (limit : Z) : Z :=
  tradeByTargetAmount (equalizeByTargetAmount o limit) o.

(** sequencing a list of computations that may fail *)
Fixpoint mapM {A B : Type} (f : A -> option B) (l : list A) : option (list B) :=
  match l with
  | [] => Some []
  | a :: l => do b <- f a; do bs <- mapM f l; Some (b :: bs)
  end.

(** match/impl.py:77-78 [sortedQuotes]: quotes in id order, then sorted. *)
Definition quotes_of (amount : Z) (orders : list order) (trade : Z -> order -> option rate)
  : option (list quote) :=
  mapM (fun io => do r <- trade amount (snd io); Some (mkQuote (fst io) r))
       (combine (seq 0 (length orders)) orders).

(** match/impl.py:174 default filter *)
Definition default_filter (r : rate) : bool := (0 <? r_input r) && (0 <? r_output r).

(** match/impl.py:88-106 [matchFast] *)
Fixpoint matchFast (amount : Z) (orders : list order) (quotes : list quote)
    (filter : rate -> bool) (trade : Z -> order -> option rate) : option (list action) :=
  match quotes with
  | [] => Some []
  | q :: qs =>
    let r := q_rate q in
    if r_input r <? amount then
      if filter r then
        do rest <- matchFast (amount - r_input r) orders qs filter trade;
        Some (mkAction (q_id q) (r_input r) (r_output r) :: rest)
      else matchFast amount orders qs filter trade
    else if amount =? r_input r then
      Some (if filter r then [mkAction (q_id q) (r_input r) (r_output r)] else [])
    else
      do o <- nth_error orders (q_id q);
      do t <- trade amount o;
      let r' := mkRate amount (r_output t) in
      Some (if filter r' then [mkAction (q_id q) (r_input r') (r_output r')] else [])
  end.

Definition sum_inputs (rs : list rate) : Z := fold_right (fun r s => r_input r + s) 0 rs.

(** match/impl.py:119 the sentinel order {y:0, z:0, A:0, B:0} *)
Definition zero_order : order := mkOrder 0 0 0 0.

(** match/impl.py:123 and 135: rates of the first orders at a common limit *)
Definition rates_at (prefix : list order) (limit : Z)
    (trade : Z -> order -> option rate) (equalize : order -> Z -> Z) : option (list rate) :=
  mapM (fun o => trade (equalize o limit) o) prefix.

(** match/impl.py:121-127, the [for n in range(1, len(orders))] loop; [prefix] is
    orders[:n], [rest] is orders[n:]. Returns (prefix, limit, rates, delta) at exit.
    An empty book leaves [delta] unbound (UnboundLocalError): [None]. *)
Fixpoint find_n (amount : Z) (prefix rest : list order)
    (trade : Z -> order -> option rate) (equalize : order -> Z -> Z)
  : option (list order * Z * list rate * Z) :=
  match rest with
  | [] => None
  | o :: rest' =>
    let limit := getLimit o in
    do rates <- rates_at prefix limit trade equalize;
    let delta := sum_inputs rates - amount in
    if 0 <=? delta then Some (prefix, limit, rates, delta)
    else match rest' with
         | [] => Some (prefix, limit, rates, delta)
         | _ => find_n amount (prefix ++ [o]) rest' trade equalize
         end
  end.

(** match/impl.py:132-143, body of [while lo + 1 < hi]; [None] = exception inside. *)
Definition bisect_step (amount : Z) (prefix : list order)
    (trade : Z -> order -> option rate) (equalize : order -> Z -> Z)
    (s : Z * Z * list rate * Z)
  : (Z * Z * list rate * Z) + option (list rate * Z) :=
  let '(lo, hi, rates, delta) := s in
  if lo + 1 <? hi then
    let limit := (lo + hi) / 2 in
    match rates_at prefix limit trade equalize with
    | None => inr None
    | Some rates =>
      let delta := sum_inputs rates - amount in
      if 0 <? delta then inl (limit, hi, rates, delta)
      else if delta <? 0 then inl (lo, limit, rates, delta)
      else inr (Some (rates, delta))
    end
  else inr (Some (rates, delta)).

(** The whole loop; at most [hi - lo + 1] iterations (never reached, see C11). *)
Definition bisect (amount : Z) (prefix : list order) trade equalize
    (lo hi : Z) (rates : list rate) (delta : Z) : option (list rate * Z) :=
  match iterp (Z.to_pos (hi - lo + 1)) (bisect_step amount prefix trade equalize) (lo, hi, rates, delta) with
  | inr r => r
  | inl _ => None
  end.

(** match/impl.py:145-151, the [reversed] correction loop, on the reversed lists. *)
Fixpoint correct_down (ros : list (rate * order)) (delta : Z)
    (trade : Z -> order -> option rate) : option (list rate) :=
  match ros with
  | [] => Some []
  | (r, o) :: ros' =>
    do r' <- trade (r_input r - delta) o;
    let delta := delta + (r_input r' - r_input r) in
    if delta <=? 0 then Some (r' :: map fst ros')
    else do rest <- correct_down ros' delta trade; Some (r' :: rest)
  end.

(** match/impl.py:152-158 *)
Fixpoint correct_up (ros : list (rate * order)) (delta : Z)
    (trade : Z -> order -> option rate) : option (list rate) :=
  match ros with
  | [] => Some []
  | (r, o) :: ros' =>
    do r' <- trade (r_input r - delta) o;
    let delta := delta + (r_input r' - r_input r) in
    if 0 <? delta then Some (map fst ros)
    else do rest <- correct_up ros' delta trade; Some (r' :: rest)
  end.

(** match/impl.py:118-158: the final rates, one per used order, before filtering. *)
Definition matchBestRates (amount : Z) (orders : list order) (quotes : list quote)
    (trade : Z -> order -> option rate) (equalize : order -> Z -> Z) : option (list rate) :=
  do os <- mapM (fun q => nth_error orders (q_id q)) quotes;
  match os ++ [zero_order] with
  | [] => None
  | o0 :: rest =>
    do res <- find_n amount [o0] rest trade equalize;
    let '(prefix, limit, rates, delta) := res in
    do rd <- (if 0 <? delta then
                bisect amount prefix trade equalize limit (getLimit (last prefix zero_order)) rates delta
              else Some (rates, delta));
    let '(rates, delta) := rd in
    if 0 <? delta then
      do rs <- correct_down (rev (combine rates prefix)) delta trade; Some (rev rs)
    else if delta <? 0 then correct_up (combine rates prefix) delta trade
    else Some rates
  end.

(** match/impl.py:159 *)
Definition matchBest (amount : Z) (orders : list order) (quotes : list quote)
    (filter : rate -> bool) trade equalize : option (list action) :=
  do rates <- matchBestRates amount orders quotes trade equalize;
  Some (map (fun qr => mkAction (q_id (fst qr)) (r_input (snd qr)) (r_output (snd qr)))
            (List.filter (fun qr => filter (snd qr)) (combine quotes rates))).

(** A sorting function in the sense of Python's [sorted(..., key=cmp_to_key(cmp))]. *)
Definition sorter := (quote -> quote -> Z) -> list quote -> list quote.

(** match/impl.py:161-172, per matching type and direction. *)
Definition matchBySourceFast (sort : sorter) (amount : Z) (orders : list order) : option (list action) :=
  do qs <- quotes_of amount orders rateBySourceAmount;
  matchFast amount orders (sort sortByMinRate qs) default_filter rateBySourceAmount.
Definition matchByTargetFast (sort : sorter) (amount : Z) (orders : list order) : option (list action) :=
  do qs <- quotes_of amount orders rateByTargetAmount;
  matchFast amount orders (sort sortByMaxRate qs) default_filter rateByTargetAmount.
Definition matchBySourceBest (sort : sorter) (amount : Z) (orders : list order) : option (list action) :=
  do qs <- quotes_of amount orders rateBySourceAmount;
  matchBest amount orders (sort sortByMinRate qs) default_filter rateBySourceAmount equalizeBySourceAmount.
Definition matchByTargetBest (sort : sorter) (amount : Z) (orders : list order) : option (list action) :=
  do qs <- quotes_of amount orders rateByTargetAmount;
  matchBest amount orders (sort sortByMaxRate qs) default_filter rateByTargetAmount equalizeByTargetAmount.

(** A concrete stable sort (insertion sort) for running the model. *)
Fixpoint insert_by (cmp : quote -> quote -> Z) (q : quote) (l : list quote) : list quote :=
  match l with
  | [] => [q]
  | p :: l' => if cmp q p <? 0 then q :: l else p :: insert_by cmp q l'
  end.
Definition isort (cmp : quote -> quote -> Z) (l : list quote) : list quote :=
  fold_left (fun acc q => insert_by cmp q acc) l [].
