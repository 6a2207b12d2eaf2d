(** Model of the benchmark's own tests: benchmark/core/__init__.py (assertAlmostEqual),
    benchmark/core/trade/spec.py with its square roots (the formulas alone are in TradeModel.v),
    benchmark/test_trade.py and benchmark/test_match.py.

    Decimals are real numbers (precision of 100 digits and rounding are left out); the numbers of
    an order are rational numbers, as they are read from decimal strings. Files and printing are
    left out, except that printing fails for an empty list. *)
From Coq Require Import Reals ZArith QArith Qreals List Bool.
From Verif Require Import TradeModel MatchModel CurveModel.
Import ListNotations.
Local Open Scope R_scope.

(** ** quotes *)
(** the dict of an order in a test file: liquidity, lowestRate, highestRate, marginalRate *)
Record text_order := mkText { t_liq : Q; t_lo : Q; t_hi : Q; t_mg : Q }.
Inductive method := BySource | ByTarget.

(** core/__init__.py:8-17. For expected = 0 the relative error is a division by zero; the error
    is not made positive when it is divided *)
Definition assertAlmostEqual (actual expected maxAbsErr maxRelErr : R) : res unit :=
  if req actual expected then Ret tt else
  let absErr := Rabs (actual - expected) in
  let* relErr := rdiv absErr expected in
  if rle absErr maxAbsErr || rle relErr maxRelErr then Ret tt else Raise AssertionError.

(** spec.py:3-9; the square root of a negative number raises *)
Definition spec_order (o : text_order) : res (R * R * R) :=
  let* L := rsqrt (Q2R (t_lo o)) in
  let* _ := rsqrt (Q2R (t_hi o)) in
  let* M := rsqrt (Q2R (t_mg o)) in Ret (Q2R (t_liq o), L, M).
(** spec.py:19-27 *)
Definition spec_source (x y L M : R) : res R := rdiv (M * M * x * y) (M * (M - L) * x + y).
Definition spec_target (x y L M : R) : res R := rdiv (x * y) (M * (L - M) * x + M * M * y).
(** spec.py:29-43 *)
Definition spec_execute (m : method) (amount : Z) (o : text_order) : res R :=
  let* e := spec_order o in let '(y, L, M) := e in
  match m with BySource => spec_source (IZR amount) y L M | ByTarget => spec_target (IZR amount) y L M end.

(** trade/impl.py:36-46, 121-122; which exception encodeOrder raises is not modelled (ZeroDivision) *)
Definition encode (o : text_order) : option order := encodeOrder (t_liq o) (t_lo o) (t_hi o) (t_mg o).
Definition quote_by (m : method) (amount : Z) (o : order) : Z :=
  match m with BySource => tradeBySourceAmount amount o | ByTarget => tradeByTargetAmount amount o end.
Definition impl_execute (m : method) (amount : Z) (o : text_order) : res Z :=
  match encode o with Some e => Ret (quote_by m amount e) | None => Raise ZeroDivision end.

(** test_trade.py:8-11 *)
Definition trade_test (m : method) (amount : Z) (o : text_order) (maxAbsErr maxRelErr : R) : res unit :=
  let* i := impl_execute m amount o in
  let* s := spec_execute m amount o in
  assertAlmostEqual (IZR i) s maxAbsErr maxRelErr.

(** ** matchings *)
Local Open Scope Z_scope.
(** match/impl.py:161-175: both matchings; an exception in one of them is None *)
Definition match_fast (sort : sorter) (m : method) (amount : Z) (os : list order) : option (list action) :=
  match m with BySource => matchBySourceFast sort amount os | ByTarget => matchByTargetFast sort amount os end.
Definition match_best (sort : sorter) (m : method) (amount : Z) (os : list order) : option (list action) :=
  match m with BySource => matchBySourceBest sort amount os | ByTarget => matchByTargetBest sort amount os end.
Definition match_execute (sort : sorter) (m : method) (amount : Z) (os : list text_order) : res (list action * list action) :=
  match mapM encode os with
  | None => Raise ZeroDivision
  | Some es => match match_fast sort m amount es, match_best sort m amount es with
               | Some f, Some b => Ret (f, b)
               | _, _ => Raise RuntimeError
               end
  end.
Definition total (f : action -> Z) (l : list action) : Z := fold_right Z.add 0 (map f l).
(** int() of a non-negative decimal *)
Definition liquidity (o : text_order) : Z := Qround.Qfloor (t_liq o).
(** test_match.py:33-34 for one action; line 34 quotes the order once more *)
Definition check_action (m : method) (os : list text_order) (a : action) : res unit :=
  match nth_error os (a_id a) with
  | None => Raise IndexError
  | Some o =>
    if negb ((match m with BySource => a_output a | ByTarget => a_input a end) <=? liquidity o) then Raise AssertionError else
    let* q := impl_execute m (a_input a) o in
    if a_output a =? q then Ret tt else Raise AssertionError
  end.
Fixpoint check_actions (m : method) (os : list text_order) (l : list action) : res unit :=
  match l with [] => Ret tt | a :: l => let* _ := check_action m os a in check_actions m os l end.
(** test_match.py:30-34 for one of the two matchings *)
Definition check_matching (m : method) (amount : Z) (os : list text_order) (l : list action) : res unit :=
  if total a_input l <=? amount then check_actions m os l else Raise AssertionError.
(** test_match.py:8-44. Lines 16-20: the largest of no lengths raises ValueError *)
Definition match_test (sort : sorter) (m : method) (amount : Z) (os : list text_order) : res unit :=
  let* fb := match_execute sort m amount os in let '(f, b) := fb in
  match f, b with
  | [], _ | _, [] => Raise ValueError
  | _, _ =>
    let* _ := check_matching m amount os f in
    let* _ := check_matching m amount os b in
    let le u v := if u <=? v then Ret tt else Raise AssertionError in
    match m with
    | BySource => let* _ := le (total a_input b) (total a_input f) in le (total a_output f) (total a_output b)
    | ByTarget => let* _ := le (total a_input f) (total a_input b) in le (total a_output b) (total a_output f)
    end
  end.
