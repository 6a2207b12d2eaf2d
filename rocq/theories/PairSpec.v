(** Vocabulary for statements about token pairs. *)
From Coq Require Import String Ascii.
From Verif Require Import PairModel.
Local Open Scope string_scope.

(** the string contains no slash *)
Definition slash_free (s : string) : Prop := ~ exists a b, s = a ++ "/" ++ b.

(** the string contains no dot *)
Definition dot_free (s : string) : Prop := ~ exists a b, s = a ++ "." ++ b.

(** [p] can be obtained by constructing a pair from strings *)
Definition built (p : pair) : Prop :=
  exists s b q d, (forall t, b = Some t -> slash_free t) /\ (forall t, q = Some t -> slash_free t) /\
    mk_pair (match s with Some s => SlashStr s | None => NoSlash end) b q d = Some p.

(** same tokens in the same roles *)
Definition same_tokens (p q : pair) : Prop := tknb p = tknb q /\ tknq p = tknq q.
