(** What the statements about tables of curves (C149-C151) talk about. *)
From Coq Require Import Reals Bool List String Permutation Sorting.Sorted.
From Verif Require Import CurveModel PairModel HelperModel CpcModel ContainerModel ContainerSpec TabModel.
From Verif Require FileSpec.
Import ListNotations.
Local Open Scope R_scope.

(** the table has the value in the row and the column with these labels *)
Definition cell_is {A} (t : table A) (a b : string) (v : A) : Prop :=
  exists i j row, nth_error (t_rows t) i = Some a /\ nth_error (t_cols t) j = Some b /\ nth_error (t_cells t) i = Some row /\ nth_error row j = Some v.
(** the labels are these strings, each once, in alphabetical order *)
Definition labelled (l src : list string) : Prop := FileSpec.sorted l /\ NoDup l /\ forall s, In s l <-> In s src.
(** the pairs asked for: none given means all *)
Definition chosen (ps : option (list (string * string))) (c : cpc) : bool :=
  match ps with None => true | Some l => existsb (fun e => on_tokens_b (fst e) (snd e) c) l end.
Definition proper (ps : option (list (string * string))) : Prop := forall l, ps = Some l -> Forall slash_free l.
Definition asked (ps : option (list (string * string))) : option (list string) := option_map (map str_of) ps.
(** the curves of the container on these pairs *)
Definition curves_on (h : heap) (cc : container) (ps : option (list (string * string))) : list cpc := filter (chosen ps) (map (obj h) (curves cc)).
(** the curves from [b] on the x axis to [q] on the y axis *)
Definition from_to (b q : string) (l : list cpc) : list cpc := filter (fun c => String.eqb (tknx c) b && String.eqb (tkny c) q) l.
(** the price dy/dx of a curve, and the price in the primary direction of its pair *)
Definition spot (c : cpc) : R := k c / x c / x c.
Definition primary_spot (c : cpc) : R := if isprimary norm_cpc (tknx c) (tkny c) then spot c else / spot c.
(** the record says what the curve behind the reference is *)
Definition says (h : heap) (r : nat) (e : rec) : Prop := exists o c, nth_error h r = Some o /\ c_cid o = Some c /\ r_cid e = c /\
  r_tknx e = tknx (body o) /\ r_tkny e = tkny (body o) /\ r_tknb e = tknx (body o) /\ r_tknq e = tkny (body o) /\
  r_pair e = (tknx (body o) ++ "/" ++ tkny (body o))%string /\ r_isprimary e = isprimary norm_cpc (tknx (body o)) (tkny (body o)) /\
  r_primary e = (if r_isprimary e then tknx (body o) ++ "/" ++ tkny (body o) else tkny (body o) ++ "/" ++ tknx (body o))%string /\
  r_p e = spot (body o) /\ r_pp e = primary_spot (body o) /\ r_x e = x (body o) /\ r_xa e = x_act (body o) /\ r_y e = k (body o) / x (body o) /\ r_ya e = y_act (body o).
Definition targets : list string :=
  ["list"; "listdf"; "volumes"; "vaggr"; "pivotxy"; "pivotxys"; "pivotbq"; "pivotbqs"; "prices"; "max"; "min"; "std"; "stdpc"; "pricelist"; "plaggr"]%string.
(** sum of squared differences to the mean *)
Definition spread (l : list R) : R := total (map (fun v => (v - mean l) ^ 2) l).
(** the amounts of a token in a curve: virtual and real ones *)
Definition virtual_amounts (t : string) (c : cpc) : list R := (if String.eqb (tknx c) t then [x c] else []) ++ (if String.eqb (tkny c) t then [k c / x c] else []).
Definition real_amounts (t : string) (c : cpc) : list R := (if String.eqb (tknx c) t then [x_act c] else []) ++ (if String.eqb (tkny c) t then [y_act c] else []).
Definition all_amounts (f : cpc -> list R) (l : list cpc) : list R := flat_map f l.
(** concentration: the sum of the squared shares *)
Definition shares (l : list R) : R := total (map (fun v => (v / total l) ^ 2) l).
(** the two rows of a curve in the list of volumes *)
Definition rows_of (h : heap) (r : nat) : list vrow :=
  [mkVol (tknx (obj h r)) (cid_of h r) (x (obj h r)) (x_act (obj h r)); mkVol (tkny (obj h r)) (cid_of h r) (k (obj h r) / x (obj h r)) (y_act (obj h r))].
(** order of ids: numbers before texts *)
Definition cid_before (a b : cid) : Prop :=
  match a, b with CInt n, CInt m => (n <= m)%nat | CInt _, CStr _ => True | CStr _, CInt _ => False | CStr s, CStr t => FileSpec.before s t end.
Definition row_before (a b : vrow) : Prop := v_tkn a <> v_tkn b /\ FileSpec.before (v_tkn a) (v_tkn b) \/ v_tkn a = v_tkn b /\ cid_before (v_cid a) (v_cid b).
(** the curves behind the selected references *)
Definition refs_on (h : heap) (cc : container) (ps : option (list (string * string))) : list nat := filter (fun r => chosen ps (obj h r)) (curves cc).
(** the curves with this pair and this id *)
Definition with_key (h : heap) (b q : string) (c : cid) (l : list nat) : list nat :=
  filter (fun r => String.eqb (tknx (obj h r)) b && String.eqb (tkny (obj h r)) q && cid_eqb (cid_of h r) c) l.
Definition primary_name (b q : string) : string := if isprimary norm_cpc b q then (b ++ "/" ++ q)%string else (q ++ "/" ++ b)%string.
(** the token is one of both lists *)
Definition both (xs ys : list string) (a : string) : Prop := In a xs /\ In a ys.
(** the curve has another one in the same direction of the same pair *)
Definition several (cs : list cpc) (c : cpc) : bool := Nat.leb 2 (List.length (from_to (tknx c) (tkny c) cs)).
(** what identifies a row of the list of prices *)
Definition pl_key (e : plrow) : string * string * cid := (l_tknb e, l_tknq e, l_cid e).
(** the price of a token in "WETH-6Cc2": the mean of the quotes of the curves of the container
    between the two *)
Definition eth_price (h : heap) (cc : container) (t : string) : option R :=
  if String.eqb t "WETH-6Cc2" then Some 1
  else match trading h cc t "WETH-6Cc2" with
       | [] => None
       | T => Some (if isprimary norm_cpc t "WETH-6Cc2" then mean (map (quote t) T) else / mean (map (quote "WETH-6Cc2") T))
       end.
(** the row of a token: sums, numbers and concentrations of its virtual and real amounts,
    their values at a price, and the ratio of the two *)
Definition token_row (cs : list cpc) (t : string) (pr : option R) (e : varow) : Prop :=
  let v := all_amounts (virtual_amounts t) cs in let a := all_amounts (real_amounts t) cs in
  g_tkn e = t /\ g_amtv e = total v /\ g_amt e = total a /\ g_n e = List.length a /\ g_price e = pr /\
  (total v <> 0 -> g_amtv_h e = Some (shares v) /\ g_amtv_hn e = Some (/ shares v)) /\ (total a <> 0 -> g_amt_h e = Some (shares a) /\ g_amt_hn e = Some (/ shares a)) /\
  match pr with
  | None => g_amtv_eth e = None /\ g_amt_eth e = None /\ g_lvg e = None
  | Some q => g_amtv_eth e = Some (total v * q) /\ g_amt_eth e = Some (total a * q) /\ (total a <> 0 -> g_lvg e = Some (total v / total a))
  end.
