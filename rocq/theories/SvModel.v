(** Model of the comparisons, unary operations, conversions and copies of
    carbon/helpers/sharedvar.py (class SharedVar); the binary and in-place operations on
    names are modelled in SharedModel.v.

    Numbers are Python ints (Z) or floats (Q: rounding, infinities and NaN are not
    modelled). As in SharedModel.v the content of a SharedVar is a number or an inner
    SharedVar (adding two SharedVars creates such inner ones); a tree is enough for the
    operations that only read. Copies with unary + share the inner object, so these are
    modelled with a heap. Not modelled: hashing, complex, hex, oct and the representation. *)
From Coq Require Import ZArith QArith Qround List Bool.
Import ListNotations.
Local Open Scope Q_scope.

(** Python numbers *)
Inductive num := I (z : Z) | F (q : Q).
Definition val (n : num) : Q := match n with I z => inject_Z z | F q => q end.
(** sharedvar.py:33-34: what a value can be: a number, or a SharedVar with its content *)
Inductive sv := Num (n : num) | Box (v : sv).
(** sharedvar.py:226-236 [__int__], [__float__] go down to the number *)
Fixpoint number (v : sv) : num := match v with Num n => n | Box v => number v end.

(** ** lines 51-72: comparisons. Python compares ints and floats by their exact values *)
Inductive rel := Lt | Le | Gt | Ge | Eq.
Definition num_rel (r : rel) (a b : num) : bool :=
  match r with
  | Lt => negb (Qle_bool (val b) (val a)) | Le => Qle_bool (val a) (val b)
  | Gt => negb (Qle_bool (val a) (val b)) | Ge => Qle_bool (val b) (val a)
  | Eq => Qeq_bool (val a) (val b)
  end.
(** the method Python tries on the right operand if the left one is a number *)
Definition swapped (r : rel) : rel := match r with Lt => Gt | Le => Ge | Gt => Lt | Ge => Le | Eq => Eq end.
(** [v r a] for a number [a]: lines 56-57, 62-72, [self._value r other] *)
Fixpoint rel_num (r : rel) (v : sv) (a : num) : bool := match v with Num b => num_rel r b a | Box v => rel_num r v a end.
(** [v r w] *)
Fixpoint sv_rel (r : rel) (v w : sv) : bool :=
  match v with
  | Num a => match w with Num b => num_rel r a b | Box w => rel_num (swapped r) w a end
  | Box v => sv_rel r v w
  end.
(** [v != w]: line 59 misspells the method, so Python's default runs: the opposite of == *)
Definition sv_ne (v w : sv) : bool :=
  match v with
  | Num a => match w with Num b => negb (num_rel Eq a b) | Box w => negb (rel_num Eq w a) end
  | Box v => negb (sv_rel Eq v w)
  end.

(** ** lines 79-98: unary operations; each wraps the result of the operation on the content *)
Definition num_abs (n : num) : num := match n with I z => I (Z.abs z) | F q => F (if Qle_bool 0 q then q else - q) end.
(** int(x): towards zero *)
Definition truncate (n : num) : Z := match n with I z => z | F q => if Qle_bool 0 q then Qfloor q else Qceiling q end.
Definition num_floor (n : num) : num := match n with I z => I z | F q => I (Qfloor q) end.
Definition num_ceil (n : num) : num := match n with I z => I z | F q => I (Qceiling q) end.
Definition num_trunc (n : num) : num := I (truncate n).
(** the nearest integer, ties to the even one *)
Definition half_even (q : Q) : Z :=
  let f := Qfloor q in
  match Qcompare (q - inject_Z f) (1 # 2) with Datatypes.Lt => f | Datatypes.Gt => (f + 1)%Z | Datatypes.Eq => if Z.even f then f else (f + 1)%Z end.
(** round(x, n) *)
Definition num_round (d : Z) (n : num) : num :=
  match n with
  | I z => I (if (0 <=? d)%Z then z else (half_even (inject_Z z * (10 ^ d)) * 10 ^ (- d))%Z)
  | F q => F (inject_Z (half_even (q * (10 ^ d))) * (10 ^ (- d)))
  end.
Fixpoint sv_map (f : num -> num) (v : sv) : sv := match v with Num n => Num (f n) | Box v => Box (sv_map f v) end.
Inductive unary := UAbs | UFloor | UCeil | UTrunc | URound (d : Z).
Definition on_num (u : unary) : num -> num :=
  match u with UAbs => num_abs | UFloor => num_floor | UCeil => num_ceil | UTrunc => num_trunc | URound d => num_round d end.
(** lines 85-98: [abs], [math.floor], [math.ceil], [math.trunc], [round(x, n)] *)
Definition unary_op (u : unary) (v : sv) : sv := sv_map (on_num u) v.
(** line 247-248 [__index__]: what list indices, range etc. use *)
Definition index (v : sv) : Z := truncate (number v).

(** ** Copies. Lines 79-80 [__pos__]: [_wrap(self._value)] puts the same content into a new
    object; if the content is an inner SharedVar it is shared by both. *)
Inductive content := CNum (n : num) | CRef (l : nat).
Definition heap := list content.
Definition num_add (a b : num) : num := match a, b with I x, I y => I (x + y) | _, _ => F (val a + val b) end.
Fixpoint put (h : heap) (l : nat) (c : content) : heap :=
  match h, l with [], _ => [] | _ :: h, O => c :: h | d :: h, S l => d :: put h l c end.
(** lines 33-34 *)
Definition new (h : heap) (n : num) : heap * nat := (h ++ [CNum n], List.length h).
(** lines 79-80 *)
Definition pos (h : heap) (x : nat) : option (heap * nat) :=
  match nth_error h x with Some c => Some (h ++ [c], List.length h) | None => None end.
(** lines 172-174 with a number: [self._value += n], in place if the content is a SharedVar.
    [fuel] is Python's recursion limit *)
Fixpoint add_num (fuel : nat) (h : heap) (x : nat) (n : num) : option heap :=
  match fuel with
  | O => None
  | S fuel => match nth_error h x with
              | Some (CNum m) => Some (put h x (CNum (num_add m n)))
              | Some (CRef i) => add_num fuel h i n
              | None => None end
  end.
(** lines 103-105: [n + y]: a new object for every level of [y]; gives the content of the outermost *)
Fixpoint plus_content (fuel : nat) (h : heap) (y : nat) (n : num) : option (heap * content) :=
  match fuel with
  | O => None
  | S fuel => match nth_error h y with
              | Some (CNum m) => Some (h, CNum (num_add m n))
              | Some (CRef j) => match plus_content fuel h j n with Some (h', c) => Some (h' ++ [c], CRef (List.length h')) | None => None end
              | None => None end
  end.
(** lines 172-174 with a SharedVar: [x += y] *)
Fixpoint add_var (fuel : nat) (h : heap) (x y : nat) : option heap :=
  match fuel with
  | O => None
  | S fuel => match nth_error h x with
              | Some (CNum m) => match plus_content fuel h y m with Some (h', c) => Some (put (h' ++ [c]) x (CRef (List.length h'))) | None => None end
              | Some (CRef i) => add_var fuel h i y
              | None => None end
  end.
