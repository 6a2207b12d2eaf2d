(** Reference semantics of programs with shared mutable integers, independent of
    SharedModel.v: names refer to integers or to cells, a cell contains an integer. *)
From Coq Require Import ZArith List String.
From Verif Require Import SharedModel.
Import ListNotations.
Local Open Scope Z_scope.

(** meaning of the operations; [None]: undefined *)
Definition meaning (o : op) (a b : Z) : option Z :=
  match o with
  | OAdd => Some (a + b)
  | OSub => Some (a - b)
  | OMul => Some (a * b)
  | OFloordiv => if b =? 0 then None else Some (a / b)
  | OMod => if b =? 0 then None else Some (a mod b)
  | OAnd => Some (Z.land a b)
  | OOr => Some (Z.lor a b)
  | OXor => Some (Z.lxor a b)
  end.

Inductive ref := RNone | RInt (z : Z) | RCell (n : nat).
Record rstate := mkR { names : string -> ref; cells : nat -> Z; fresh : nat }.

Definition upd_name (x : string) (r : ref) (f : string -> ref) : string -> ref :=
  fun y => if String.eqb x y then r else f y.
Definition upd_cell (n : nat) (z : Z) (f : nat -> Z) : nat -> Z :=
  fun m => if Nat.eqb n m then z else f m.

(** the integer a name stands for *)
Definition rvalue (s : rstate) (x : string) : option Z :=
  match names s x with RNone => None | RInt z => Some z | RCell n => Some (cells s n) end.
Definition rop_value (s : rstate) (e : operand) : option Z :=
  match e with Const z => Some z | Var y => rvalue s y end.
Definition is_cell (s : rstate) (e : operand) : bool :=
  match e with Const _ => false | Var y => match names s y with RCell _ => true | _ => false end end.

(** a computed value becomes a new cell if a cell was involved *)
Definition put (x : string) (shared : bool) (z : Z) (s : rstate) : rstate :=
  if shared then mkR (upd_name x (RCell (fresh s)) (names s)) (upd_cell (fresh s) z (cells s)) (S (fresh s))
  else mkR (upd_name x (RInt z) (names s)) (cells s) (fresh s).

Definition rstep (s : rstate) (c : cmd) : rstate :=
  match c with
  | New x z => put x true z s
  | Alias x y => match names s y with RNone => s | r => mkR (upd_name x r (names s)) (cells s) (fresh s) end
  | Assign x z => put x false z s
  | SetVal x z => match names s x with RCell n => mkR (names s) (upd_cell n z (cells s)) (fresh s) | _ => s end
  | Inplace o x e =>
    match rvalue s x, rop_value s e with
    | Some a, Some b =>
      match meaning o a b with
      | Some r =>
        match names s x with
        | RCell n => mkR (names s) (upd_cell n r (cells s)) (fresh s)
        | _ => put x (is_cell s e) r s
        end
      | None => s
      end
    | _, _ => s
    end
  | Compute o x e e' =>
    match rop_value s e, rop_value s e' with
    | Some a, Some b =>
      match meaning o a b with Some r => put x (is_cell s e || is_cell s e') r s | None => s end
    | _, _ => s
    end
  | Negate x e => match rop_value s e with Some a => put x (is_cell s e) (- a) s | None => s end
  end.
Definition rrun (cs : list cmd) : rstate := fold_left rstep cs (mkR (fun _ => RNone) (fun _ => 0) 0).

(** two names of the model refer to the same object *)
Definition linked (s : state) (x y : string) : Prop :=
  exists l, lookup x (env s) = Some (Obj l) /\ lookup y (env s) = Some (Obj l).

(** the name is (re)bound by the statement *)
Definition rebinds (s : state) (x : string) (c : cmd) : Prop :=
  match c with
  | New y _ | Alias y _ | Assign y _ | Compute _ y _ _ | Negate y _ => x = y
  | SetVal _ _ => False
  | Inplace _ y _ => x = y /\ exists z, lookup y (env s) = Some (Plain z)
  end.

(** the expression refers to an object *)
Definition is_object (s : state) (e : operand) : Prop :=
  match e with Const _ => False | Var y => exists l, lookup y (env s) = Some (Obj l) end.

(** the statement combines two shared variables *)
Definition combines (s : state) (c : cmd) : Prop :=
  match c with
  | Inplace _ x e => is_object s (Var x) /\ is_object s e
  | Compute _ _ e e' => is_object s e /\ is_object s e'
  | _ => False
  end.
