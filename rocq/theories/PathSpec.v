(** What the statements about PathModel.v talk about. *)
From Coq Require Import Reals ZArith List Bool String.
From Verif Require Import CurveModel UiModel PathModel.
Import ListNotations.
Local Open Scope R_scope.

(** the random walk: the sum of the first [n] numbers drawn *)
Fixpoint walk (z : nat -> R) (n : nat) : R := match n with O => 0 | S n => walk z n + z n end.
(** neighbours of a list *)
Definition next_to {A} (p q : A) (l : list A) : Prop := exists l1 l2, l = l1 ++ p :: q :: l2.
(** the points of the first list, in their order, among those of the second *)
Inductive among {A} : list A -> list A -> Prop :=
| among_nil : among [] []
| among_keep a l l' : among l l' -> among (a :: l) (a :: l')
| among_skip a l l' : among l l' -> among l (a :: l').
(** arithmetic and geometric progressions *)
Definition arithmetic (l : list R) : Prop := exists d, forall i, (S i < List.length l)%nat -> nth (S i) l 0 - nth i l 0 = d.
Definition geometric (l : list R) : Prop := exists k, forall i, (S i < List.length l)%nat -> nth (S i) l 0 / nth i l 0 = k.
(** [v] lies at time [t] on the line from [p] to [q] *)
Definition on_line (p q : R * R) (t v : R) : Prop := fst p <= t <= fst q /\ (v - snd p) * (fst q - fst p) = (snd q - snd p) * (t - fst p).
(** the points that a resampling with this period keeps: those at least one period before the next one, and the last one *)
Fixpoint survivors (period : R) (path : list (R * R)) : list (R * R) :=
  match path with
  | p :: ((q :: _) as r) => if Rlt_dec (fst q - fst p) period then survivors period r else p :: survivors period r
  | _ => path
  end.
(** the bounds of the window read, for a series from [t0] to [t1]: times, or fractions of the whole time *)
Definition win_from (t0 t1 : R) (from_ts from_pc : option R) : R :=
  match from_ts, from_pc with Some t, _ => Rmax t0 t | _, Some pc => Rmax t0 (t0 + pc * (t1 - t0)) | _, _ => t0 end.
Definition win_to (t0 t1 lo : R) (period_days period_pc : option R) : R :=
  match period_days, period_pc with Some d, _ => lo + d | _, Some pc => lo + pc * (t1 - t0) | _, _ => t1 end.
Definition not_before (m : option R) (t : R) : Prop := match m with None => True | Some m => m <= t end.
Definition between (lo hi : R) (m : option R) (t : R) : bool :=
  (match m with None => true | Some m => if Rle_dec m t then true else false end) && (if Rle_dec lo t then true else false) && (if Rle_dec t hi then true else false).
(** how many points: one for the last point, and for every pair of neighbours the number of periods between them, rounded *)
Fixpoint points (period : R) (path : series) : Z :=
  match path with p :: ((q :: _) as r) => ((if Rlt_dec (fst q - fst p) period then 0 else round0 ((fst q - fst p) / period)) + points period r)%Z | [] => 0%Z | _ => 1%Z end.
