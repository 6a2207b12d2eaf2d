(** Model of the class CPCContainer of carbon/tools/cpc.py (lines 862-1546) and of the
    aggregator functions AF (1659-1690).

    Curves are Python objects that several containers can share; their only mutable field
    is cid, which can be set once. They are kept in a heap, and a container holds
    references (positions in the heap). Floats are real numbers, Python sets are lists
    without duplicates, dictionaries are association lists in insertion order. Inverters
    are unwrapped before anything else happens (lines 895, 957-958), so a container is
    given references to the curves themselves. Token scales, data frames, plots and
    formatting are not modelled. *)
From Coq Require Import Reals Bool List String Ascii Arith.
From Verif Require Import CurveModel PairModel HelperModel CpcModel.
Import ListNotations.
Local Open Scope R_scope.

(** cpc.py:206-215: cid is any value; here an integer or a string *)
Inductive cid := CInt (n : nat) | CStr (s : string).
Definition cid_eqb (a b : cid) : bool :=
  match a, b with CInt m, CInt n => Nat.eqb m n | CStr s, CStr t => String.eqb s t | _, _ => false end.
Definition ocid_eqb (a b : option cid) : bool :=
  match a, b with Some a, Some b => cid_eqb a b | None, None => true | _, _ => false end.
(** a curve object; [c_tag] stands for fee and descr, the other fields that are compared *)
Record ccurve := mkCC { body : cpc; c_cid : option cid; c_tag : string }.
(** == of the dataclass (line 186; constr and params are not compared) *)
Definition same (a b : ccurve) : bool :=
  req (k (body a)) (k (body b)) && req (x (body a)) (x (body b)) && req (x_act (body a)) (x_act (body b)) && req (y_act (body a)) (y_act (body b))
  && String.eqb (tknx (body a)) (tknx (body b)) && String.eqb (tkny (body a)) (tkny (body b)) && ocid_eqb (c_cid a) (c_cid b) && String.eqb (c_tag a) (c_tag b).
Definition heap := list ccurve.
(** the curve behind a reference; references always exist, the default is never used *)
Definition no_curve : ccurve := mkCC (mkCpc 0 0 0 0 "" "") None "".
Definition deref (h : heap) (r : nat) : ccurve := nth r h no_curve.
Definition obj (h : heap) (r : nat) : cpc := body (deref h r).
(** lines 302-306 *)
Fixpoint setcid (h : heap) (r : nat) (c : cid) : heap :=
  match h, r with
  | [], _ => []
  | o :: h, O => mkCC (body o) (Some c) (c_tag o) :: h
  | o :: h, S r => o :: setcid h r c
  end.
Definition pair_of (c : cpc) : string := pair_str (tknx c) (tkny c).
(** Pair.primary (163-166) of the curve's pair *)
Definition primary_of (c : cpc) : string := primary norm_cpc (tknx c) (tkny c).
(** lines 640-643 and 159-161 *)
Definition pp (c : cpc) : res R := if isprimary norm_cpc (tknx c) (tkny c) then Ret (CpcModel.p c) else rdiv 1 (CpcModel.p c).

(** lines 881-882, 904-913: the list and the three dictionaries; a key of [ix_by_curve] is
    the curve object that was inserted first, compared by == *)
Record container := mkCont { curves : list nat; by_cid : list (cid * nat); ix_by_curve : list (nat * nat); by_primary : list (string * list nat) }.

Fixpoint cset (d : list (cid * nat)) (c : cid) (r : nat) : list (cid * nat) :=
  match d with [] => [(c, r)] | (c', r') :: d => if cid_eqb c' c then (c', r) :: d else (c', r') :: cset d c r end.
Fixpoint cget (d : list (cid * nat)) (c : cid) : option nat :=
  match d with [] => None | (c', r) :: d => if cid_eqb c' c then Some r else cget d c end.
Fixpoint xset (h : heap) (d : list (nat * nat)) (r i : nat) : list (nat * nat) :=
  match d with [] => [(r, i)] | (r', i') :: d => if same (deref h r') (deref h r) then (r', i) :: d else (r', i') :: xset h d r i end.
Fixpoint xget (h : heap) (d : list (nat * nat)) (r : nat) : option nat :=
  match d with [] => None | (r', i) :: d => if same (deref h r') (deref h r) then Some i else xget h d r end.
Fixpoint pappend (d : list (string * list nat)) (p : string) (r : nat) : list (string * list nat) :=
  match d with [] => [(p, [r])] | (p', l) :: d => if String.eqb p' p then (p', l ++ [r])%list :: d else (p', l) :: pappend d p r end.
Fixpoint pget (d : list (string * list nat)) (p : string) : option (list nat) :=
  match d with [] => None | (p', l) :: d => if String.eqb p' p then Some l else pget d p end.
(** the id of a curve; after numbering there always is one *)
Definition cid_of (h : heap) (r : nat) : cid := match c_cid (deref h r) with Some c => c | None => CInt 0 end.

(** lines 897-903: curves without id get their position *)
Fixpoint number (h : heap) (l : list nat) (i : nat) : heap :=
  match l with
  | [] => h
  | r :: l => number (match c_cid (deref h r) with None => setcid h r (CInt i) | Some _ => h end) l (S i)
  end.
(** one curve recorded in the list and the dictionaries (lines 904-913, 968-976) *)
Definition record (h : heap) (cc : container) (r : nat) : container :=
  mkCont (curves cc ++ [r]) (cset (by_cid cc) (cid_of h r) r) (xset h (ix_by_curve cc) r (List.length (curves cc))) (pappend (by_primary cc) (primary_of (obj h r)) r).
Definition no_curves : container := mkCont [] [] [] [].
(** lines 884-913 *)
Definition new_container (h : heap) (l : list nat) : heap * container :=
  let h := number h l 0 in (h, fold_left (record h) l no_curves).
(** lines 956-977: one curve *)
Definition add_curve (h : heap) (cc : container) (r : nat) : heap * container :=
  let h := match c_cid (deref h r) with None => setcid h r (CInt (List.length (curves cc))) | Some _ => h end in (h, record h cc r).
(** lines 948-953: an iterable other than the container itself *)
Fixpoint add_curves (h : heap) (cc : container) (l : list nat) : heap * container :=
  match l with [] => (h, cc) | r :: l => let (h, cc) := add_curve h cc r in add_curves h cc l end.
(** the same loop over the container itself: the list grows while it is read. [None]: not
    finished after [fuel] rounds *)
Fixpoint add_self (fuel : nat) (h : heap) (cc : container) (i : nat) : option (heap * container) :=
  match fuel with
  | O => None
  | S fuel => match nth_error (curves cc) i with
              | None => Some (h, cc)
              | Some r => let (h, cc) := add_curve h cc r in add_self fuel h cc (S i)
              end
  end.

(** ** programs using several containers over the same curves *)
Record world := mkWorld { w_heap : heap; w_ccs : list container }.
Inductive action :=
| NewCurve (c : ccurve)                  (* a curve object, see [constructible] *)
| NewContainer (l : list nat)            (* CPCContainer(l) *)
| AddTo (i : nat) (l : list nat)         (* i-th container += l *)
| AddCont (i j : nat).                   (* i-th container += j-th container *)
Definition valid_refs (h : heap) (l : list nat) : bool := forallb (fun r => Nat.ltb r (List.length h)) l.
Fixpoint put {A} (l : list A) (i : nat) (a : A) : list A :=
  match l, i with [], _ => [] | _ :: l, O => a :: l | b :: l, S i => b :: put l i a end.
(** what the constructor of a curve (lines 217-246) needs: the pair has two parts (line
    238) and x is not 0 (line 243); otherwise there is no curve *)
Definition constructible (c : ccurve) : bool :=
  match parse_pair (pair_of (body c)) with Some _ => negb (req (x (body c)) 0) | None => false end.
(** actions on objects that do not exist do nothing, and so does adding a container to
    itself (see [add_self]) *)
Definition act (w : world) (a : action) : world :=
  match a with
  | NewCurve c => if constructible c then mkWorld (w_heap w ++ [c]) (w_ccs w) else w
  | NewContainer l => if valid_refs (w_heap w) l then let (h, cc) := new_container (w_heap w) l in mkWorld h (w_ccs w ++ [cc]) else w
  | AddTo i l =>
    match nth_error (w_ccs w) i with
    | Some cc => if valid_refs (w_heap w) l then let (h, cc) := add_curves (w_heap w) cc l in mkWorld h (put (w_ccs w) i cc) else w
    | None => w
    end
  | AddCont i j =>
    match nth_error (w_ccs w) i, nth_error (w_ccs w) j with
    | Some cc, Some dd => if Nat.eqb i j then w else let (h, cc) := add_curves (w_heap w) cc (curves dd) in mkWorld h (put (w_ccs w) i cc)
    | _, _ => w
    end
  end.
Definition no_world : world := mkWorld [] [].
Definition run (l : list action) : world := fold_left act l no_world.

(** ** reading a container *)
(** lines 1300-1306, 1003-1004 *)
Definition curveix (h : heap) (cc : container) (r : nat) : option nat := xget h (ix_by_curve cc) r.
Definition contains (h : heap) (cc : container) (r : nat) : bool := match curveix h cc r with Some _ => true | None => false end.
Definition bycid (cc : container) (c : cid) : option nat := cget (by_cid cc) c.
(** the sum of values that may raise *)
Fixpoint rmap {A B} (f : A -> res B) (l : list A) : res (list B) :=
  match l with [] => Ret [] | a :: l => let* b := f a in let* bs := rmap f l in Ret (b :: bs) end.
Definition rsum (l : list R) : R := fold_left Rplus l 0.
(** lines 981-988; [None] is Python's None *)
Definition price (h : heap) (cc : container) (tknb tknq : string) : res (option R) :=
  match pget (by_primary cc) (primary norm_cpc tknb tknq) with
  | None => Ret None
  | Some l =>
    let* ps := rmap (fun r => pp (obj h r)) l in
    let* m := rdiv (rsum ps) (INR (List.length l)) in
    if isprimary norm_cpc tknb tknq then Ret (Some m) else let* q := rdiv 1 m in Ret (Some q)
  end.
(** lines 1308-1322; KeyError for an id that is not there (unless excluded) *)
Definition cid_in (c : cid) (l : list cid) : bool := existsb (cid_eqb c) l.
Definition bycids (h : heap) (cc : container) (include : option (list cid)) (exclude : list cid) : res (list nat) :=
  match include with
  | None => Ret (filter (fun r => negb (cid_in (cid_of h r) exclude)) (curves cc))
  | Some l => rmap (fun c => match bycid cc c with Some r => Ret r | None => Raise KeyError end) (filter (fun c => negb (cid_in c exclude)) l)
  end.
(** lines 1324-1330 *)
Fixpoint join_slash (l : list string) : string :=
  match l with [] => "" | [s] => s | s :: l => (s ++ "/" ++ join_slash l)%string end.
Definition reversed (pair : string) : string := join_slash (rev (split_slash pair)).
Definition bypair (h : heap) (cc : container) (pair : string) (directed : bool) : list nat :=
  let one p := filter (fun r => String.eqb (pair_of (obj h r)) p) (curves cc) in
  (one pair ++ (if directed then [] else one (reversed pair)))%list.
(** lines 1336-1356, for a collection of pairs; ValueError for a pair that does not have
    two parts (only read when the direction is ignored) *)
Definition str_in (s : string) (l : list string) : bool := existsb (String.eqb s) l.
Definition bypairs (h : heap) (cc : container) (pairs : option (list string)) (directed : bool) : res (list nat) :=
  match pairs with
  | None => Ret (curves cc)
  | Some ps =>
    let* rs := (if directed then Ret [] else rmap (fun s => match parse_pair s with Some (b, q) => Ret (pair_str q b) | None => Raise ValueError end) ps) in
    Ret (filter (fun r => str_in (pair_of (obj h r)) (ps ++ rs)) (curves cc))
  end.
(** lines 1362-1382 *)
Definition bytknx (h : heap) (cc : container) (t : string) : list nat := filter (fun r => String.eqb (tknx (obj h r)) t) (curves cc).
Definition bytkny (h : heap) (cc : container) (t : string) : list nat := filter (fun r => String.eqb (tkny (obj h r)) t) (curves cc).
(** lines 1292-1298: the selected curves as a new container; all have an id, and the heap
    does not change, see ContainerProofs.v *)
Definition select (h : heap) (l : list nat) : heap * container := new_container h l.
(** lines 1358-1360 *)
Definition copy (h : heap) (cc : container) : heap * container := new_container h (curves cc).
(** lines 1006-1050 *)
Definition as_set (l : list string) : list string := nodup string_dec l.
Definition tkns (h : heap) (cc : container) : list string :=
  as_set (map (fun r => tknx (obj h r)) (curves cc) ++ map (fun r => tkny (obj h r)) (curves cc)).
Definition pairs (h : heap) (cc : container) (standardize : bool) : list string :=
  as_set (map (fun r => if standardize then primary_of (obj h r) else pair_of (obj h r)) (curves cc)).
(** lines 1533-1546: positions of the curves having the token on the x and on the y axis *)
Definition positions (h : heap) (cc : container) (f : cpc -> string) (t : string) : list nat :=
  map fst (filter (fun e => String.eqb (f (obj h (snd e))) t) (combine (seq 0 (List.length (curves cc))) (curves cc))).
Definition tokentable (h : heap) (cc : container) : list (string * (list nat * list nat)) :=
  filter (fun e => Nat.ltb 0 (List.length (fst (snd e)) + List.length (snd (snd e))))
    (map (fun t => (t, (positions h cc tknx t, positions h cc tkny t))) (tkns h cc)).

(** ** lines 1076-1130: filter_pairs. A condition has a name and a collection of tokens *)
Inductive anyall := Any | All | Other.
Definition meets (name : string) (ts : list string) (b q : string) : res bool :=
  let n := before "_"%char name in
  if String.eqb n "bothin" then Ret (str_in b ts && str_in q ts) else
  if String.eqb n "contains" || String.eqb n "onein" then Ret (str_in b ts || str_in q ts) else
  if String.eqb n "notin" then Ret (negb (str_in b ts) && negb (str_in q ts)) else
  if String.eqb n "tknbin" then Ret (str_in b ts) else
  if String.eqb n "tknbnotin" then Ret (negb (str_in b ts)) else
  if String.eqb n "tknqin" then Ret (str_in q ts) else
  if String.eqb n "tknqnotin" then Ret (negb (str_in q ts)) else Raise ValueError.
(** the pairs that meet one condition; an unknown name raises even if there are no pairs *)
Fixpoint meeting (name : string) (ts : list string) (ps : list (string * string)) : res (list string) :=
  match ps with
  | [] => let* _ := meets name ts "" "" in Ret []
  | (b, q) :: ps => let* m := meets name ts b q in let* r := meeting name ts ps in Ret (if m then pair_str b q :: r else r)
  end.
Definition filter_pairs (h : heap) (cc : container) (ps : option (list string)) (mode : anyall) (conditions : list (string * list string)) : res (list string) :=
  let ps := match ps with Some l => l | None => pairs h cc true end in
  match conditions with [] => Ret ps | _ :: _ =>
  let* parsed := rmap (fun s => match parse_pair s with Some bq => Ret bq | None => Raise ValueError end) ps in
  let* results := rmap (fun c => meeting (fst c) (snd c) parsed) conditions in
  match mode with
  | Any => Ret (as_set (List.concat results))
  | All => Ret (as_set (filter (fun s => forallb (str_in s) results) (hd [] results)))
  | Other => Raise ValueError
  end end.

(** ** lines 1431-1471: price_estimate *)
(** one curve of the pair, with its price and its weight sqrt(k) *)
Definition estimate_item (b q : string) (inverse : bool) (c : cpc) : res (option (R * R)) :=
  let* bd := at_boundary c in
  if bd then Ret None else
  if negb (if inverse then String.eqb (tknx c) q && String.eqb (tkny c) b else String.eqb (tkny c) q && String.eqb (tknx c) b) then Ret None else
  let* pr := (if inverse then rdiv 1 (CpcModel.p c) else Ret (CpcModel.p c)) in
  let* w := rsqrt (k c) in Ret (Some (pr, w)).
Definition somes {A} (l : list (option A)) : list A := flat_map (fun o => match o with Some a => [a] | None => [] end) l.
Definition estimate_data (h : heap) (cc : container) (b q : string) : res (list (R * R)) :=
  let* l := rmap (fun r => estimate_item b q false (obj h r)) (curves cc) in
  let* l' := rmap (fun r => estimate_item b q true (obj h r)) (curves cc) in
  Ret (somes l ++ somes l')%list.
(** np.average with weights; a sum of weights of zero is a ZeroDivisionError *)
Definition average (l : list (R * R)) : res R := rdiv (rsum (map (fun e => fst e * snd e) l)) (rsum (map snd l)).
Definition price_estimate (h : heap) (cc : container) (b q : string) (raiseonerror : bool) : res (option R) :=
  if String.eqb q b then Ret (Some 1) else
  let* d := estimate_data h cc b q in
  match d with
  | [] => if raiseonerror then Raise ValueError else Ret None
  | _ :: _ => let* a := average d in Ret (Some a)
  end.
(** lines 1473-1516: the table of the estimates, quote tokens outside, base tokens inside;
    ValueError if one is missing. triangulate is not implemented in the code either. *)
Definition price_estimates (h : heap) (cc : container) (tknqs tknbs : list string) (raiseonerror : bool) : res (list (list (option R))) :=
  let* m := rmap (fun q => rmap (fun b => price_estimate h cc b q false) tknbs) tknqs in
  if raiseonerror && existsb (existsb (fun o => match o with None => true | Some _ => false end)) m then Raise ValueError else Ret m.

(** ** lines 1659-1690: AF, on a column of numbers (numpy divides by zero without raising;
    here that is ZeroDivision) *)
Definition herfindahl (l : list R) : res R := rdiv (rsum (map (fun v => v ^ 2) l)) (rsum l ^ 2).
Definition herfindahlN (l : list R) : res R := let* x := herfindahl l in rdiv 1 x.
Definition maxl (l : list R) : R := match l with [] => 0 | a :: r => fold_left Rmax r a end.
Definition minl (l : list R) : R := match l with [] => 0 | a :: r => fold_left Rmin r a end.
Definition rangepc (l : list R) : R := if req (maxl l) 0 then 0 else (maxl l - minl l) / maxl l.
