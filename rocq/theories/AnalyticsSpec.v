(** What the statements about sim_analytics.py talk about. *)
From Coq Require Import ZArith QArith List Bool String.
From Verif Require Import PairModel CurveModel SimModel AnalyticsModel.
Import ListNotations.

(** the float is finite and has the value [q] *)
Definition is (a : fl) (q : Q) : Prop := exists x, a = Fin x /\ (x == q)%Q.
(** the element number [i] of a vector of numbers, and of a vector of floats *)
Definition at_ (v : list Q) (i : nat) : Q := nth i v 0%Q.
Definition fat (l : list fl) (i : nat) : fl := nth i l NaN.
(** the book shows these amounts *)
Definition shows (b : book) (src trg : list Q) : Prop := b_src b = map Fin src /\ b_trg b = map Fin trg /\ List.length src = List.length trg.
(** slope of the amounts between the points [i] and [i+1] *)
Definition slope (src trg : list Q) (i : nat) : Q := ((at_ trg (S i) - at_ trg i) / (at_ src (S i) - at_ src i))%Q.
Definition increasing (v : list Q) : Prop := forall i, (S i < List.length v)%nat -> (at_ v i < at_ v (S i))%Q.
(** the slopes move away from the best price: up in an ask book, down in a bid book *)
Definition worsening (rev : bool) (src trg : list Q) : Prop := forall i, (S (S i) < List.length src)%nat ->
  if rev then (slope src trg (S i) < slope src trg i)%Q else (slope src trg i < slope src trg (S i))%Q.
(** the number a float counts for in a sum of products: NaN counts as zero, infinities do not count *)
Definition counts (a : fl) (q : Q) : Prop := a = NaN /\ (q == 0)%Q \/ is a q.
Fixpoint sumproduct (l l' : list Q) : Q := match l, l' with a :: l, b :: l' => (a * b + sumproduct l l')%Q | _, _ => 0%Q end.
