(** Vocabulary for statements about the helper modules, independent of HelperModel.v. *)
From Coq Require Import ZArith List Ascii String.
Import ListNotations.
Local Open Scope Z_scope.

(** [bd] is an acceptable implementation of "number of binary digits": exact, or (because
    of the rounding of math.log2) one less for a number that exceeds a power of two by
    less than one part in 2^40 *)
Definition bindig_ok (bd : Z -> Z) : Prop :=
  forall n, 0 < n ->
    bd n = Z.log2 n + 1 \/
    (bd n = Z.log2 n /\ n < 2 ^ Z.log2 n + 2 ^ (Z.log2 n - 40)).

(** lexicographic order on lists of integers, a proper prefix being smaller *)
Inductive lex_le : list Z -> list Z -> Prop :=
| lex_nil l : lex_le [] l
| lex_lt a b l m : a < b -> lex_le (a :: l) (b :: m)
| lex_eq a l m : lex_le l m -> lex_le (a :: l) (a :: m).

(** decimal notation *)
Definition digit (c : ascii) (v : Z) : Prop :=
  In (c, v) [("0", 0); ("1", 1); ("2", 2); ("3", 3); ("4", 4); ("5", 5); ("6", 6);
             ("7", 7); ("8", 8); ("9", 9)]%char.
Inductive decimal : string -> Z -> Prop :=
| decimal_one c v : digit c v -> decimal (String c "") v
| decimal_more s n c v : decimal s n -> digit c v -> decimal (s ++ String c "") (10 * n + v).

(** components joined by dots *)
Fixpoint join_dots (ss : list string) : string :=
  match ss with
  | [] => EmptyString
  | [s] => s
  | s :: ss => (s ++ "." ++ join_dots ss)%string
  end.

(** ASCII white space *)
Definition white (c : ascii) : Prop :=
  In (nat_of_ascii c) [9; 10; 11; 12; 13; 28; 29; 30; 31; 32]%nat.
Fixpoint all_chars (P : ascii -> Prop) (s : string) : Prop :=
  match s with EmptyString => True | String c s => P c /\ all_chars P s end.

(** the rest of a version string: empty or starting with a character that is neither a
    digit nor a dot *)
Definition version_rest (s : string) : Prop :=
  match s with
  | EmptyString => True
  | String c _ => c <> "."%char /\ forall v, ~ digit c v
  end.

(** the string contains the character *)
Fixpoint has_char (x : ascii) (s : string) : Prop :=
  match s with EmptyString => False | String c s => c = x \/ has_char x s end.
