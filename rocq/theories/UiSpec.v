(** What the statements about UiModel.v talk about. *)
From Coq Require Import Reals ZArith List Bool String.
From Verif Require Import PairModel PairSpec CurveModel CurveSpec UiModel.
From Verif Require SdkModel.
Import ListNotations.
Local Open Scope R_scope.

(** the name from_SDK gives to a token: the ticker if the address happens to be one, else a placeholder *)
Definition names_as (tokens : SdkModel.container) (addr dflt n : string) : Prop :=
  match SdkModel.dget (upper addr) (SdkModel.c_byticker tokens) with Some t => n = SdkModel.t_T t | None => n = dflt end.
(** a name that pairs keep as it is *)
Definition plain (n : string) : Prop := upper n = n /\ slash_free n.

(** the curve sells [t] on the pair [p] *)
Definition sells_on (p : pair) (t : string) (u : ui) : bool := String.eqb (pair_iso (u_pair u)) (pair_iso p) && String.eqb (u_tkn u) t.
(** the object fits together *)
Definition fits (u : ui) : Prop := c_base (u_curve u) = has_basetoken (u_pair u) (u_tkn u) /\ valid (u_curve u).
Definition rises (ps : list R) : Prop := forall i, (S i < List.length ps)%nat -> nth i ps 0 < nth (S i) ps 0.
(** density times width, summed over the cells of the grid; a missing density counts as zero *)
Definition known (x : option R) : R := match x with Some v => v | None => 0 end.
Fixpoint weighted (l : list (option R)) (ps : list R) : R :=
  match l, ps with
  | x :: l, a :: ((b :: _) as r) => known x * (b - a) + weighted l r
  | _, _ => 0
  end.
Fixpoint total_of (f : ui -> R) (us : list ui) : R := match us with [] => 0 | u :: r => f u + total_of f r end.
(** the part of the price range of the curve between [a] and [b]; a curve with a single price is inside or outside *)
Definition share (c : curve) (a b : R) : R :=
  if Rlt_dec 0 (c_S c) then overlap (lowest c) (highest c) a b / (highest c - lowest c)
  else if Rle_dec a (lowest c) then (if Rlt_dec (lowest c) b then 1 else 0) else 0.
(** the price at which the part between [a] and [b] is converted: the geometric mean of its ends *)
Definition middle (c : curve) (a b : R) : R := if Rlt_dec 0 (c_S c) then sqrt (Rmax a (lowest c) * Rmin b (highest c)) else lowest c.
(** the holding of the curve in proportion to that part, in base tokens or in quote tokens *)
Definition worth (c : curve) (in_base : bool) (a b : R) : R :=
  (if Bool.eqb in_base (c_base c) then c_y c else if c_base c then c_y c * middle c a b else c_y c / middle c a b) * share c a b.
