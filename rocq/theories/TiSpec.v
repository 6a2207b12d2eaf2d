(** Vocabulary for the properties of the optimizer's tables: what a table shows in a row and a
    column, and what pools receive and give by a list of instructions. *)
From Coq Require Import Reals List String.
From Verif Require Import CpcModel OptModel OptSpec TiModel.
Import ListNotations.
Local Open Scope R_scope.

(** the cell under the heading [t] in a row *)
Fixpoint under (cols : list string) (r : list cell) (t : string) : option cell :=
  match cols, r with a :: cols, c :: r => if string_dec a t then Some c else under cols r t | _, _ => None end.
Definition cell_at (f : frame) (n : nat) (t : string) : option cell :=
  match nth_error (f_rows f) n with Some r => under (f_cols f) (snd r) t | None => None end.
Definition label_at (f : frame) (n : nat) : option cell := option_map fst (nth_error (f_rows f) n).

(** the headings of a table of instructions that are not tokens *)
Definition headings : list string := ["pair"; "pairp"; "tknin"; "tknout"]%string.
Definition plain (t : string) : Prop := ~ In t ("cid"%string :: headings).
(** an instruction as they are made: two tokens, nothing of the wrong sign *)
Definition sane (i : instruction) : Prop := tknin i <> tknout i /\ 0 <= amtin i /\ amtout i <= 0.
Definition names (t : string) (l : list instruction) : Prop := exists i, In i l /\ (tknin i = t \/ tknout i = t).
Definition shows (t : string) (i : instruction) (c : cell) : Prop :=
  (tknin i = t -> c = Amt (amtin i)) /\ (tknout i = t -> c = Amt (amtout i)) /\ (tknin i <> t -> tknout i <> t -> c = Hole).
(** what the pools receive and give of a token in total *)
Fixpoint receipts (l : list instruction) (t : string) : R :=
  match l with [] => 0 | i :: l => (if string_dec (tknin i) t then amtin i else 0) + receipts l t end.
Fixpoint payouts (l : list instruction) (t : string) : R :=
  match l with [] => 0 | i :: l => (if string_dec (tknout i) t then - amtout i else 0) + payouts l t end.
(** the instructions are to make those trades: one for each that moves something *)
Definition implements (l : list instruction) (trades : list (cpc * R * R)) : Prop :=
  NoDup (map ti_cid l) /\ (forall i, In i l -> exists e, nth_error trades (ti_cid i) = Some e /\ instructs i e) /\
  (forall n c dx dy, nth_error trades n = Some (c, dx, dy) -> dx <> 0 \/ dy <> 0 -> exists i, In i l /\ ti_cid i = n).

(** the headings of the table of trades per curve *)
Definition xy_headings (inclk : bool) : list string :=
  (["pair"; "tknx"; "tkny"; "x"; "y"; "xa"; "ya"] ++ (if inclk then ["k"; "kpost"] else []) ++ ["kk"])%list%string.
Definition xy_plain (inclk : bool) (t : string) : Prop := ~ In t ("cid"%string :: xy_headings inclk).
Definition product_after (e : cpc * R * R) : R := let '(c, dx, dy) := e in (x c + dx) * (y c + dy).
Definition sum_over {A} (g : A -> R) (l : list A) : R := fold_right (fun a s => g a + s) 0 l.
