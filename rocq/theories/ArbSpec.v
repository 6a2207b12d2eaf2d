(** Specification vocabulary for the graphs of optimizer results (C158) and the calls of the
    optimizer (C159). *)
From Coq Require Import Reals List String.
From Verif Require Import CpcModel ContainerModel OptModel OptSpec GraphModel GraphSpec.
Import ListNotations.
Local Open Scope R_scope.

(** the trades that move something, with their positions *)
Fixpoint moving (i : nat) (l : list (cpc * R * R)) : list (nat * (cpc * R * R)) :=
  match l with
  | [] => []
  | (c, dx, dy) :: l => if Req_EM_T dx 0 then if Req_EM_T dy 0 then moving (S i) l else (i, (c, dx, dy)) :: moving (S i) l else (i, (c, dx, dy)) :: moving (S i) l
  end.
(** the edge [e] shows the trade: from the token the pool receives to the token it pays, with these amounts *)
Definition shows (cid : nat -> string) (g : graph) (n : nat * (cpc * R * R)) (e : edge) : Prop :=
  let '(i, (c, dx, dy)) := n in
  e_uid e = Some (cid i) /\ e_inv e = false /\
  ((0 < dx /\ dy < 0 /\ name g (e_in e) = Some (tknx c) /\ e_ain e = dx /\ name g (e_out e) = Some (tkny c) /\ e_aout e = - dy) \/
   (dx < 0 /\ 0 < dy /\ name g (e_in e) = Some (tkny c) /\ e_ain e = dy /\ name g (e_out e) = Some (tknx c) /\ e_aout e = - dx)).
(** the value, at prices [P], of what the edge pays minus that of what it takes *)
Definition edge_gain (P : string -> R) (g : graph) (e : edge) : R :=
  (match name g (e_out e) with Some t => P t * e_aout e | None => 0 end) - (match name g (e_in e) with Some t => P t * e_ain e | None => 0 end).
Definition total_gain (P : string -> R) (g : graph) : R := fold_right (fun e s => edge_gain P g e + s) 0 (g_edges g).
