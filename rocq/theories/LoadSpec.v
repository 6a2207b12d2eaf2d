(** Vocabulary for C137. *)
From Coq Require Import Reals ZArith List Bool String Lra.
From Verif Require Import CurveModel OrderModel LoadModel.
Import ListNotations.
Local Open Scope R_scope.

(** a record with the numbers B, S, the balance y and the capacity z (default: the balance) *)
Definition complete (r : jrec) (b s y z : R) : Prop := j_B r = JNum b /\ j_S r = JNum s /\ j_y r = JNum y /\ ((j_yint r = JAbsent /\ z = y) \/ j_yint r = JNum z).
Definition has_null (r : jrec) : Prop := j_S r = JNull \/ j_B r = JNull \/ j_y r = JNull \/ j_yint r = JNull.
Definition lacks (r : jrec) : Prop := ~ has_null r /\ (j_S r = JAbsent \/ j_B r = JAbsent \/ j_y r = JAbsent).
(** the order a record describes *)
Definition describes (r : jrec) (o : order) : Prop := exists b s y z, complete r b s y z /\ o_B o = Some b /\ o_S o = Some s /\ o_y o = y /\ o_yint o = z /\
  o_plow o <= o_phigh o /\ ((o_plow o = b * b /\ o_phigh o = (b + s) * (b + s)) \/ (o_phigh o = b * b /\ o_plow o = (b + s) * (b + s))).
(** the same with floor division: the square roots of the prices are cut to integers first *)
Definition describes_floor (r : jrec) (o : order) : Prop := exists b s y z h l, complete r b s y z /\ o_y o = y /\ o_yint o = z /\
  o_plow o <= o_phigh o /\ ((o_plow o = b * b /\ o_phigh o = (b + s) * (b + s)) \/ (o_phigh o = b * b /\ o_plow o = (b + s) * (b + s))) /\
  IZR l <= sqrt (o_plow o) < IZR l + 1 /\ IZR h <= sqrt (o_phigh o) < IZR h + 1 /\ o_B o = Some (IZR l * 2 ^ 32) /\ o_S o = Some (IZR h * 2 ^ 32 - IZR l * 2 ^ 32).
(** how many of n records are read *)
Definition to_read (num : option Z) (n : nat) : nat := match num with None => Nat.min 10 n | Some k => if Z.leb k 0 then n else Nat.min (Z.to_nat k) n end.
