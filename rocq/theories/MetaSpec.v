(** What the statements about token scales, curve objects and their dicts (C152-C155) talk about. *)
From Coq Require Import Reals QArith Qreals Bool List String Ascii.
From Verif Require Import CurveModel PairModel HelperModel CpcModel ContainerModel ContainerSpec OptModel OptSpec MetaModel.
From Verif Require SdkModel CcModel PairSpec.
Import ListNotations.
Local Open Scope R_scope.

(** in this state the action builds a container of these curves with this scale object *)
Inductive builds (w : sworld) : saction -> list nat -> nat -> Prop :=
| by_default l : (forall r, In r l -> r < List.length (w_heap (s_base w)))%nat -> builds w (SContainer l None) l 0
| by_scale l s : (forall r, In r l -> r < List.length (w_heap (s_base w)))%nat -> (s < List.length (s_scales w))%nat -> builds w (SContainer l (Some s)) l s
| by_selection i l cc s : nth_error (w_ccs (s_base w)) i = Some cc -> nth_error (s_cont w) i = Some s -> incl l (curves cc) -> builds w (SSelect i l) l s.
(** none of the actions, started after [l1], builds a container with the curve *)
Definition untouched (l1 l2 : list saction) (r : nat) : Prop :=
  forall m a m' l s, l2 = (m ++ a :: m')%list -> builds (srun (l1 ++ m)) a l s -> ~ In r l.
(** the curve, the container has the scale object *)
Definition curve_has (w : sworld) (r s : nat) : Prop := nth_error (s_curve w) r = Some s.
Definition cont_has (w : sworld) (i s : nat) : Prop := nth_error (s_cont w) i = Some s.
(** what a scale object says about a token: the number last set for it, 1/100 if none was set, 1
    for the trivial scale *)
Definition last_set (d : scale_dct) (t : string) (o : option Q) : Prop :=
  match o with
  | Some v => exists l1 l2, d = (l1 ++ (t, v) :: l2)%list /\ ~ In t (map fst l1)
  | None => ~ In t (map fst d)
  end.
Definition tells (o : tscale) (t : string) (v : R) : Prop :=
  match o with
  | None => v = 1
  | Some d => (exists q, last_set d t (Some q) /\ v = Q2R q) \/ (last_set d t None /\ v = / 100)
  end.

(** the amounts of a token, each multiplied by the scale of its curve *)
Fixpoint weighted (l : list mentry) (t : string) : R :=
  match l with [] => 0 | (c, sc, vx, vy) :: l => sc t * flow t (mreported (c, sc, vx, vy)) + weighted l t end.
Definition positive_scales (l : list mentry) : Prop := Forall (fun e : mentry => forall t, 0 < snd (fst (fst e)) t) l.
(** the entries are those of the container *)
Definition entries_of (w : sworld) (cc : container) (l : list mentry) : Prop :=
  Forall2 (fun r (e : mentry) => fst (fst (fst e)) = obj (w_heap (s_base w)) r /\ forall t, snd (fst (fst e)) t = curve_scale w r t) (curves cc) l.

(** the first entry of a key *)
Definition entry_at {A} (d : list (string * A)) (a : string) (v : A) : Prop := exists l1 l2, d = (l1 ++ (a, v) :: l2)%list /\ ~ In a (map fst l1).
Definition same_entry {A} (d d' : list (string * A)) (a : string) : Prop := forall v, entry_at d a v <-> entry_at d' a v.
(** a path of keys leads to a value *)
Inductive leads : pval -> list string -> pval -> Prop :=
| leads_here v : leads v [] v
| leads_on d f fs v w : entry_at d f v -> leads v fs w -> leads (PDict d) (f :: fs) w.
Definition is_dict (v : pval) : Prop := exists d, v = PDict d.
(** on the path a dict lacks the next key *)
Definition lacks (v : pval) (fs : list string) : Prop :=
  exists f1 f f2 d, fs = (f1 ++ f :: f2)%list /\ leads v f1 (PDict d) /\ ~ In f (map fst d).
(** on the path a value that is no dict comes too early *)
Definition stuck (v : pval) (fs : list string) : Prop :=
  exists f1 f f2 w, fs = (f1 ++ f :: f2)%list /\ leads v f1 w /\ ~ is_dict w.

(** the name a constructor stands for *)
Definition name_of (h : how) : string :=
  match h with
  | Kx _ _ _ _ => "kx" | Ky _ _ _ _ => "ky" | Xy _ _ _ _ => "xy" | Pk _ _ _ _ => "pk" | Px _ _ _ _ => "px" | Py _ _ _ _ => "py"
  | Pkpp _ _ _ _ (Some n) => n | Pkpp _ _ _ _ None => "pkpp" | Univ2 _ _ _ => "uv2" | Univ3 _ _ _ _ => "uv3" | Carbon _ _ _ _ _ _ _ _ => "carb"
  end.
(** the numbers of the curve, see C82-C84 *)
Definition curve_of (h : how) (b q : string) : res cpc :=
  match h with
  | Kx k x xa ya => from_kx k x xa ya b q | Ky k y xa ya => from_ky k y xa ya b q | Xy x y xa ya => from_xy x y xa ya b q
  | Pk p k xa ya => from_pk p k xa ya b q | Px p x xa ya => from_px p x xa ya b q | Py p y xa ya => from_py p y xa ya b q
  | Pkpp p k lo hi _ => from_pkpp p k lo hi b q | Univ2 x y k => from_univ2 x y k b q
  | Univ3 Pm L Pa Pb => from_univ3 Pm L Pa Pb b q | Carbon yint y pa pb A B tkn d => from_carbon yint y pa pb A B b q tkn d
  end.
Definition named (h : how) : Prop := match h with Univ3 _ _ _ _ => False | Pkpp _ _ _ _ (Some _) => False | _ => True end.
Definition is_univ2 (h : how) : Prop := match h with Univ2 _ _ _ => True | _ => False end.
(** the parameters a constructor adds *)
Definition own_keys (h : how) : list string :=
  match h with Univ3 _ _ _ _ => ["L"]%string | Carbon _ _ _ _ _ _ _ _ => ["y"; "yint"; "A"; "B"]%string | _ => [] end.

Fixpoint times_x (n : nat) : string := match n with O => "" | S n => ("-x" ++ times_x n)%string end.
(** the trade the order asks for; without amounts it is dx = 0 *)
Definition given_dx (t : order) : option R := match t_dx t, t_dy t with None, None => Some 0 | o, _ => o end.
(** all but the fee, where nothing may have become nan *)
Definition as_read (c : ocurve) (fee : nfee) : ncurve := mkN (o_body c) (o_cid c) fee (o_descr c) (o_constr c) (o_params c).
Definition plain_fee (c : ocurve) : nfee := match o_fee c with Some v => Fee v | None => NoFee end.
(** a curve object as constructors make it *)
Definition well_made (c : ocurve) : Prop := x (o_body c) <> 0 /\ PairSpec.slash_free (tknx (o_body c)) /\ PairSpec.slash_free (tkny (o_body c)).
(** the text names the path: keys without colons, joined by colons, with blanks around *)
Definition blank (s : string) : Prop := forall a c b, s = (a ++ String c b)%string -> SdkModel.is_space c = true.
Definition spells (pstr : string) (fs : list string) : Prop :=
  fs <> [] /\ (forall f a b, In f fs -> f <> (a ++ ":" ++ b)%string) /\
  exists pre post, pstr = (pre ++ String.concat ":" fs ++ post)%string /\ blank pre /\ blank post /\
  (forall c r, String.concat ":" fs = String c r -> SdkModel.is_space c = false) /\ (forall c r, String.concat ":" fs = (r ++ String c "")%string -> SdkModel.is_space c = false).
(** what a trade recorded *)
Definition recorded (c c' : ocurve) (t : order) (rx ry : pval) : Prop :=
  if t_verbose t then rx = PNum (x (o_body c') - x (o_body c)) /\ ry = PNum (y_act (o_body c') - y_act (o_body c))
  else rx = match given_dx t with Some v => PNum v | None => PNone end /\ ry = match t_dy t with Some v => PNum v | None => PNone end.
Definition shown (text : R -> string) (v : pval) : string := match v with PNum v => text v | _ => "None" end.
(** the trades, each with the curve it was made on and the curve it gave *)
Inductive history (text : R -> string) : ocurve -> list (order * ocurve) -> Prop :=
| no_trade c : history text c []
| trade c t c' l : execute_obj text c (t_dx t) (t_dy t) (t_ib t) (t_verbose t) = Ret c' -> history text c' l -> history text c ((t, c') :: l).
Definition final (c : ocurve) (l : list (order * ocurve)) : ocurve := last (map snd l) c.
(** what a container makes of curves that were read *)
Definition placed (i : nat) (n : ncurve) : ncurve := mkN (n_body n) (match n_cid n with None => Some (CInt i) | o => o end) (n_fee n) (n_descr n) (n_constr n) (n_params n).
(** the fee in a data frame *)
Definition some_fee (l : list ocurve) : bool := existsb (fun c => match o_fee c with Some _ => true | None => false end) l.
Definition frame_fee (mixed : bool) (c : ocurve) : nfee := match o_fee c with Some v => Fee v | None => if mixed then NaNFee else NoFee end.
