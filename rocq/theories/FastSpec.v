(** Vocabulary for statements about the fast router. *)
From Coq Require Import ZArith QArith List Permutation Sorted.
From Verif Require Import SimModel SimSpec FastModel.
Import ListNotations.
Local Open Scope Q_scope.

(** orders with a proper curve: the price at the empty end is positive *)
Definition good_order (o : forder) : Prop := 0 <= fo_y o /\ 0 < fo_z o /\ 0 <= fo_A o /\ 0 < fo_B o.
(** marginal rate (square root of the price, times z) when [y] is left *)
Definition rate_at (o : forder) (y : Q) : Q := fo_A o * y + fo_B o * fo_z o.
(** what the curve charges for taking [dy], and gives for paying [dx] *)
Definition curve_cost (o : forder) (dy : Q) : Q :=
  dy * (fo_z o * fo_z o) / (rate_at o (fo_y o) * rate_at o (fo_y o - dy)).
Definition curve_gain (o : forder) (dx : Q) : Q :=
  dx * (rate_at o (fo_y o) * rate_at o (fo_y o)) / (fo_A o * dx * rate_at o (fo_y o) + fo_z o * fo_z o).
Definition qmin (a b : Q) : Q := if Qlt_le_dec a b then a else b.

(** price comparison of positive quotes *)
Definition unit_out (r : frate) : Q := fr_output r / fr_input r.
Definition positive (r : frate) : Prop := 0 < fr_input r /\ 0 < fr_output r.
(** [a] comes strictly before [b] when more output per input is better, ties by size *)
Definition ranks_before (a b : frate) : Prop :=
  unit_out b < unit_out a \/ (unit_out a == unit_out b /\ fr_output b < fr_output a).

(** integer-valued rationals *)
Definition is_int (q : Q) : Prop := exists n : Z, q == inject_Z n.

(** what is assumed of Python's [sorted]: it permutes its input ... *)
Definition perm_sort (sort : fsorter) : Prop := forall cmp l, Permutation (sort cmp l) l.
(** ... and, where the ranking matters, it sorts *)
(** a comparator is fit for sorting a list when it is a total preorder on it *)
Definition fit (cmp : fquote -> fquote -> Z) (l : list fquote) : Prop :=
  (forall a b, In a l -> In b l -> (cmp a b <= 0 \/ cmp b a <= 0)%Z) /\
  (forall a b, In a l -> In b l -> ((cmp a b <= 0)%Z <-> ~ (cmp b a < 0)%Z)) /\
  (forall a b c, In a l -> In b l -> In c l -> (cmp a b <= 0 -> cmp b c <= 0 -> cmp a c <= 0)%Z).
(** Python's [sorted] with cmp_to_key, on comparators for which sorting makes sense *)
Definition sorts (sort : fsorter) : Prop := forall cmp l, fit cmp l ->
  StronglySorted (fun a b => (cmp a b <= 0)%Z) (sort cmp l).

(** a simulator that uses the fast router (without floor division) *)
Definition runs_fast (e : env) : Prop := e_fast e = true /\ exists sort ab, perm_sort sort /\ forall apps rq, e_router e apps rq = fast_router sort ab apps rq.

(** the order whose exact curve the integer formulas approximate *)
Definition unscale (o : forder) : forder := mkForder (fo_y o) (fo_z o) (fo_A o / inject_Z (2 ^ 32)) (fo_B o / inject_Z (2 ^ 32)).
Definition integral (o : forder) : Prop := is_int (fo_y o) /\ is_int (fo_z o) /\ is_int (fo_A o) /\ is_int (fo_B o).
