(** Independent vocabulary for statements about Carbon orders: the exact curve,
    over the rationals, in terms of the order's real parameters
    a = sqrt(p_high) - sqrt(p_low), b = sqrt(p_low), capacity z and balance y. *)
From Coq Require Import ZArith QArith.
From Verif Require Import TradeModel.
Local Open Scope Q_scope.

(** Amount of the sold token an exact Carbon curve pays out for [x] units paid in. *)
Definition exact_out (a b y z x : Q) : Q :=
  if Qeq_bool a 0 then x * (b * b)                        (* constant price b^2 *)
  else x * (a*y + b*z) * (a*y + b*z) / (a * x * (a*y + b*z) + z * z).

(** Amount that has to be paid in to receive exactly [x] of the sold token. *)
Definition exact_in (a b y z x : Q) : Q :=
  if Qeq_bool a 0 then x / (b * b)
  else x * (z * z) / ((a*y + b*z) * (a*y + b*z - a*x)).

(** Largest / smallest integer below / above a rational: characterisations. *)
Definition is_floor (q : Q) (n : Z) : Prop := inject_Z n <= q /\ q < inject_Z (n + 1).
Definition is_ceil (q : Q) (n : Z) : Prop := inject_Z (n - 1) < q /\ q <= inject_Z n.

(** The real parameter denoted by a stored 48-bit fixed point number. *)
Definition fix48 (v : Z) : Q := inject_Z v / inject_Z (2 ^ 48).

(** The integer denoted by a compressed number: 48-bit mantissa in the low bits,
    exponent above. *)
Definition denoted (v : Z) : Z := (v mod 2 ^ 48 * 2 ^ (v / 2 ^ 48))%Z.

(** The amount [x] can be delivered: the exact price formula has a positive
    denominator (stored integers A, B; a constant-price order needs B > 0). *)
Definition deliverable (A B y z x : Z) : Prop :=
  ((A = 0 /\ 0 < B) \/ (0 < A /\ A * x < y * A + z * B))%Z.

Local Open Scope Z_scope.
(** All stored fields of an encoded order are non-negative integers. *)
Definition nonneg_order (o : order) : Prop := 0 <= o_y o /\ 0 <= o_z o /\ 0 <= o_A o /\ 0 <= o_B o.

(** Conditions under which nothing is rescaled: the intermediate products stay
    below 2^256 (and the denominator does not vanish). *)
Definition source_fits (A B y z x : Z) : Prop :=
  (A = 0 /\ B * B < 2 ^ 256) \/
  (0 < A /\ y * A + z * B < 2 ^ 256 /\
   0 < (z * 2 ^ 48) * (z * 2 ^ 48) + A * x * (y * A + z * B) < 2 ^ 256).
Definition target_fits (A B y z : Z) : Prop :=
  (A = 0 /\ 0 < B /\ B * B < 2 ^ 256) \/
  (0 < A /\ (y * A + z * B) * (y * A + z * B) < 2 ^ 256 /\ (z * 2 ^ 48) * (z * 2 ^ 48) < 2 ^ 256).

(** Conditions under which no intermediate value is refused; the products of two of them may
    exceed 2^256 and are then rescaled by the code. *)
Definition source_in_range (A B y z x : Z) : Prop :=
  (A = 0 /\ B * B < 2 ^ 256) \/
  (0 < A /\ y * A + z * B < 2 ^ 256 /\ z * 2 ^ 48 < 2 ^ 256 /\ (y * A + z * B) * x < 2 ^ 256).
Definition target_in_range (A B y z : Z) : Prop :=
  (A = 0 /\ 0 < B /\ B * B < 2 ^ 256) \/
  (0 < A /\ y * A + z * B < 2 ^ 256 /\ z * 2 ^ 48 < 2 ^ 256).
