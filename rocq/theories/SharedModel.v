(** Model of carbon/helpers/sharedvar.py (class SharedVar): mutable numbers shared by
    several names.

    Numbers are integers. Python's identity and mutability are modelled by a heap of
    objects and an environment that binds names to numbers or objects. The content of an
    object is normally a number; adding two SharedVars, however, puts a SharedVar inside
    another one, see [bin]. Such inner objects are always freshly created, therefore they
    are part of the content (a tree) and not of the heap. Not modelled: [setval] with a
    SharedVar as argument, taking an inner object out with [.value] and binding it to a
    name, division with floats ([/], [**]), shifts and comparisons. *)
From Coq Require Import ZArith List Bool String.
Import ListNotations.
Local Open Scope Z_scope.

(** sharedvar.py:33-34: what [_value] can hold: a number, or an inner SharedVar *)
Inductive sv := Num (z : Z) | Box (v : sv).

(** the arithmetic operations, sharedvar.py:103-168 and 172-222 *)
Inductive op := OAdd | OSub | OMul | OFloordiv | OMod | OAnd | OOr | OXor.

(** Python's operation on integers; [None] is ZeroDivisionError *)
Definition op_int (o : op) (a b : Z) : option Z :=
  match o with
  | OAdd => Some (a + b)
  | OSub => Some (a - b)
  | OMul => Some (a * b)
  | OFloordiv => if b =? 0 then None else Some (a / b)
  | OMod => if b =? 0 then None else Some (a mod b)
  | OAnd => Some (Z.land a b)
  | OOr => Some (Z.lor a b)
  | OXor => Some (Z.lxor a b)
  end.

(** operations whose reflected method is the method itself (105, 114, 160, 164, 168) *)
Definition reflected_same (o : op) : bool :=
  match o with OAdd | OMul | OAnd | OOr | OXor => true | _ => false end.

(** [v op a] for a number [a]: sharedvar.py:103-168, wrapped by [_wrap] (75-77) *)
Fixpoint lop (o : op) (v : sv) (a : Z) : option sv :=
  match v with
  | Num b => option_map Num (op_int o b a)
  | Box v => option_map Box (lop o v a)
  end.
(** [a op v] for a number [a]: if [v] is a SharedVar the reflected method runs *)
Fixpoint rop (o : op) (a : Z) (v : sv) : option sv :=
  match v with
  | Num b => option_map Num (op_int o a b)
  | Box v => option_map Box (if reflected_same o then lop o v a else rop o a v)
  end.
(** [v op w]: if [v] is a SharedVar its method computes [wrap(self._value op w)] *)
Fixpoint bin (o : op) (v w : sv) : option sv :=
  match v with
  | Num a => rop o a w
  | Box v => option_map Box (bin o v w)
  end.
(** sharedvar.py:82-83 [__neg__] *)
Fixpoint neg (v : sv) : sv := match v with Num a => Num (- a) | Box v => Box (neg v) end.

(** sharedvar.py:226-236 [__int__], [__float__]: the number a SharedVar stands for *)
Fixpoint number (v : sv) : Z := match v with Num z => z | Box v => number v end.

(** names are bound to plain numbers or to objects (heap locations) *)
Inductive binding := Plain (z : Z) | Obj (l : nat).
Record state := mkState { env : list (string * binding); heap : list sv }.

Fixpoint lookup (x : string) (e : list (string * binding)) : option binding :=
  match e with
  | [] => None
  | (y, b) :: e => if String.eqb y x then Some b else lookup x e
  end.
Definition bind_name (x : string) (b : binding) (s : state) : state := mkState ((x, b) :: env s) (heap s).
Fixpoint replace (n : nat) (v : sv) (h : list sv) : list sv :=
  match h, n with
  | [], _ => []
  | _ :: h, O => v :: h
  | w :: h, S n => w :: replace n v h
  end.

(** the Python value of a binding as a tree *)
Definition tree (s : state) (b : binding) : option sv :=
  match b with
  | Plain z => Some (Num z)
  | Obj l => option_map Box (nth_error (heap s) l)
  end.

(** binding a name to a freshly computed value: numbers are bound directly, a SharedVar
    becomes a new object *)
Definition bind_value (x : string) (v : sv) (s : state) : state :=
  match v with
  | Num z => bind_name x (Plain z) s
  | Box v => mkState ((x, Obj (List.length (heap s))) :: env s) (heap s ++ [v])
  end.

Inductive operand := Const (z : Z) | Var (y : string).
Definition operand_tree (s : state) (e : operand) : option sv :=
  match e with
  | Const z => Some (Num z)
  | Var y => match lookup y (env s) with Some b => tree s b | None => None end
  end.

(** statements of a program using shared variables *)
Inductive cmd :=
| New (x : string) (z : Z)                     (* x = SharedVar(z) *)
| Alias (x y : string)                         (* x = y *)
| Assign (x : string) (z : Z)                  (* x = z *)
| SetVal (x : string) (z : Z)                  (* x.setval(z)   sharedvar.py:46-49 *)
| Inplace (o : op) (x : string) (e : operand)  (* x op= e       sharedvar.py:172-222 *)
| Compute (o : op) (x : string) (e e' : operand)  (* x = e op e' *)
| Negate (x : string) (e : operand).           (* x = -e *)

(** one statement; [None] is an exception (NameError, AttributeError, ZeroDivisionError),
    which leaves the state as it was *)
Definition exec (s : state) (c : cmd) : option state :=
  match c with
  | New x z => Some (bind_value x (Box (Num z)) s)
  | Alias x y => match lookup y (env s) with Some b => Some (bind_name x b s) | None => None end
  | Assign x z => Some (bind_name x (Plain z) s)
  | SetVal x z =>
    match lookup x (env s) with
    | Some (Obj l) => Some (mkState (env s) (replace l (Num z) (heap s)))
    | _ => None
    end
  | Inplace o x e =>
    match lookup x (env s), operand_tree s e with
    | Some (Obj l), Some w =>
      match nth_error (heap s) l with
      | Some c =>
        (* self._value op= other; an inner SharedVar is changed in place by the same
           method, which gives the same tree *)
        match bin o c w with
        | Some c' => Some (mkState (env s) (replace l c' (heap s)))
        | None => None
        end
      | None => None
      end
    | Some (Plain a), Some w => option_map (fun v => bind_value x v s) (bin o (Num a) w)
    | _, _ => None
    end
  | Compute o x e e' =>
    match operand_tree s e, operand_tree s e' with
    | Some v, Some w => option_map (fun r => bind_value x r s) (bin o v w)
    | _, _ => None
    end
  | Negate x e => option_map (fun v => bind_value x (neg v) s) (operand_tree s e)
  end.
Definition step (s : state) (c : cmd) : state := match exec s c with Some s' => s' | None => s end.
Definition run (s : state) (cs : list cmd) : state := fold_left step cs s.
Definition start : state := mkState [] [].

(** what reading a name gives: [float(x)] *)
Definition read (s : state) (x : string) : option Z :=
  match lookup x (env s) with
  | Some b => option_map number (tree s b)
  | None => None
  end.

(** sharedvar.py:41-44 [x.value]: the content of the object a name refers to *)
Definition value (s : state) (x : string) : option sv :=
  match lookup x (env s) with
  | Some (Obj l) => nth_error (heap s) l
  | _ => None
  end.
