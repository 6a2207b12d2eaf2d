(** Specification vocabulary for constant product curves (C49-C51, C74). *)
From Coq Require Import Reals List String.
From Verif Require Import CpcModel.
Local Open Scope R_scope.

(** a pool in operation: positive reserves, and the actual reserves are part of the virtual ones *)
Definition pool_ok (c : cpc) : Prop := 0 < k c /\ 0 < x c /\ 0 <= x_act c <= x c /\ 0 <= y_act c <= k c / x c.

(** the same pool with the roles of the two tokens exchanged *)
Definition mirror (c : cpc) : cpc := mkCpc (k c) (k c / x c) (y_act c) (x_act c) (tkny c) (tknx c).

(** [v] lies above / below an optional bound *)
Definition above (o : option R) (v : R) : Prop := exists m, o = Some m /\ m < v.
Definition below (o : option R) (v : R) : Prop := exists m, o = Some m /\ v < m.
