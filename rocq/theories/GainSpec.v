(** Vocabulary for statements about what a sequence of trades can take out of the simulator. *)
From Coq Require Import QArith Qabs List Bool String.
From Verif Require Import PairModel SimModel SimSpec FastModel FastSpec.
Import ListNotations.
Local Open Scope Q_scope.

(** what the order of a route receives; see [sold_of] *)
Definition bought_of (e : env) (b : match_by) (r : route) : Q :=
  match b with
  | BySource => Qabs (rt_input r)
  | ByTarget => if e_fast e then Qabs (rt_output r) else Qabs (rt_input r)
  end.
(** prices as the simulator stores them (order.py:170 refuses negative ones) *)
Definition proper (o : sorder) : Prop := 0 <= so_plow o /\ so_plow o <= so_phigh o.
(** assumption on a router: no order gives more, per unit it receives, than its upper price
    (prices of an order are tokens sold per token received) *)
Definition router_priced (e : env) : Prop := forall apps rq routes r o,
  (forall o, In o apps -> 0 < so_y o /\ so_y o <= so_yint o /\ proper o) -> e_router e apps rq = Some routes -> In r routes ->
  nth_error apps (rt_index r) = Some o -> sold_of e (rq_by rq) r <= so_phigh o * bought_of e (rq_by rq) r.

(** the curve parameters S and B of an order keep it below its upper price; with exact square
    roots (S + B)^2 is the upper and B^2 the lower price (order.py:190-201) *)
Definition fits_high (ab : sorder -> Q * Q) (o : sorder) : Prop :=
  0 <= fst (ab o) /\ 0 <= snd (ab o) /\ (fst (ab o) + snd (ab o)) * (fst (ab o) + snd (ab o)) <= so_phigh o.
Definition fits_low (ab : sorder -> Q * Q) (o : sorder) : Prop := 0 < snd (ab o) /\ so_plow o <= snd (ab o) * snd (ab o).
(** a simulator with the fast router whose curves stay below the upper prices of the orders
    that can trade *)
Definition runs_fast_priced (e : env) : Prop := e_fast e = true /\ exists sort ab, perm_sort sort /\
  (forall o, proper o -> 0 < so_y o -> so_y o <= so_yint o -> fits_high ab o) /\ forall apps rq, e_router e apps rq = fast_router sort ab apps rq.

(** the worth of a balance, of a strategy and of a book, for a price list [w] *)
Definition worth_of (w : string -> Q) (o : sorder) : Q := w (so_tkn o) * so_y o.
Definition book_worth (w : string -> Q) (os : list (nat * sorder)) : Q := qsum (fun ko => worth_of w (snd ko)) os.
(** at the prices [w] the order does not sell its token for less than it is worth *)
Definition no_bargain (w : string -> Q) (o l : sorder) : Prop := so_phigh o * w (so_tkn o) <= w (so_tkn l).
(** the same for all orders of the book *)
Definition no_bargains (w : string -> Q) (os : list (nat * sorder)) : Prop :=
  forall k o l, In (k, o) os -> In (so_lid o, l) os -> no_bargain w o l.
Definition is_trade (o : op) : Prop := match o with OpBuy _ | OpSell _ => True | _ => False end.
