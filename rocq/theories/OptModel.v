(** Model of carbon/tools/optimizer.py: the numerical helpers of OptimizerBase, the
    self-financing constraints, the optimisation problem posed by nofees_optimizer,
    simple_optimizer with a target token, margp_optimizer, its result and the trade
    instructions.

    Floats (and numpy floats) are real numbers, exceptions are values ([res] of
    CurveModel.v). A division by zero raises, although numpy floats would give inf or nan; a
    logarithm of a number that is not positive raises, where numpy gives nan. Python sets
    are lists without duplicates in an arbitrary order. Method names, error messages,
    timings, prints, pickles and data frames are left out. Curves are those of CpcModel.v;
    the id of a curve only labels results and is its position here. The convex solver cvxpy
    is not modelled, only the problem that is handed to it; np.linalg.solve/lstsq is an
    arbitrary function. *)
From Coq Require Import Reals Bool List String ZArith.
From Verif Require Import CurveModel PairModel HelperModel CpcModel ContainerModel.
Import ListNotations.
Local Open Scope R_scope.

(** ** OptimizerBase *)
(** lines 201-219: a result, or an object with an error message *)
Inductive simple := SOk (r : R) | SError.
(** lines 208-211 *)
Definition simple_float (s : simple) : res R := match s with SOk r => Ret r | SError => Raise ValueError end.

(** lines 222-229 *)
Definition DERIVEPS : R := / 10 ^ 6.
Definition deriv (f : R -> res R) (x : R) : res R :=
  let h := DERIVEPS in
  let* a := f (x + h) in let* b := f (x - h) in Ret ((a - b) / (2 * h)).
(** lines 231-237 *)
Definition deriv2 (f : R -> res R) (x : R) : res R :=
  let h := DERIVEPS in
  let* a := f (x + h) in let* m := f x in let* b := f (x - h) in Ret ((a - 2 * m + b) / (h * h)).

(** lines 239-257 *)
Fixpoint descend (f : R -> res R) (rate : R) (n : nat) (x : R) : res R :=
  match n with
  | O => Ret x
  | S n => let* d := deriv f x in descend f rate n (x - rate * d)
  end.
Definition findmin_gd (f : R -> res R) (x0 rate : R) (n : nat) : res R := descend f rate n x0.
Fixpoint ascend (f : R -> res R) (rate : R) (n : nat) (x : R) : res R :=
  match n with
  | O => Ret x
  | S n => let* d := deriv f x in ascend f rate n (x + rate * d)
  end.
Definition findmax_gd (f : R -> res R) (x0 rate : R) (n : nat) : res R := ascend f rate n x0.

(** lines 259-277: every exception becomes an error result *)
Definition nr_step (f : R -> res R) (x : R) : res R :=
  let* d := deriv f x in let* d2 := deriv2 f x in let* q := rdiv d d2 in Ret (x - q).
Fixpoint findminmax_nr (f : R -> res R) (x : R) (n : nat) : simple :=
  match n with
  | O => SOk x
  | S n => match nr_step f x with Ret x' => findminmax_nr f x' n | Raise _ => SError end
  end.

(** lines 279-300. An exact hit is returned as a plain number, everything else as a
    SimpleResult. The loop has no bound, [None] means that it has not finished after [fuel]
    rounds. *)
Definition GOALSEEKEPS : R := / 10 ^ 6.
Inductive sought := Plain (c : R) | Found (c : R).
Fixpoint seek (fuel : nat) (f : R -> res R) (a b : R) : res (option sought) :=
  match fuel with
  | O => Ret None
  | S fuel =>
    if rlt GOALSEEKEPS (b - a) then
      let c := (a + b) / 2 in
      let* fc := f c in
      if req fc 0 then Ret (Some (Plain c)) else
      let* fa := f a in
      if rlt (fa * fc) 0 then seek fuel f a c else seek fuel f c b
    else Ret (Some (Found ((a + b) / 2)))
  end.
Definition goalseek (fuel : nat) (f : R -> res R) (a b : R) : res (option sought) :=
  let* fa := f a in
  let* fb := f b in
  if rlt 0 (fa * fb) then Raise ValueError else seek fuel f a b.

(** lines 302-318 *)
Definition posx (v : list R) : list R := map (fun x => if rlt 0 x then x else 0) v.
Definition negx (v : list R) : list R := map (fun x => if rlt x 0 then x else 0) v.

(** ** self-financing constraints *)
(** lines 515-516: a value of data is a number or one of the strings, here any string *)
Inductive sfcval := Num (v : R) | Text (s : string).
Definition AMMPays := "AMMPays"%string.
Definition AMMReceives := "AMMReceives"%string.
Definition OptimizationVar := "OptimizationVar"%string.
Definition is_ov (v : sfcval) : bool :=
  match v with Num _ => false | Text s => String.eqb s AMMPays || String.eqb s AMMReceives || String.eqb s OptimizationVar end.
Record sfc := mkSfc { s_data : list (string * sfcval); s_tokens : list string; s_ov : string }.
(** lines 518-530; tokens as a comma separated string is left out *)
Definition make_sfc (data : list (string * sfcval)) (tokens : option (list string)) : res sfc :=
  match map fst (filter (fun e => is_ov (snd e)) data) with
  | [v] =>
    match tokens with
    | None => Ret (mkSfc data (as_set (map fst data)) v)
    | Some ts => if forallb (fun t => str_in t ts) (map fst data) then Ret (mkSfc data (as_set ts) v) else Raise AssertionError
    end
  | _ => Raise AssertionError
  end.
(** lines 561-564 *)
Definition arb (target : string) : res sfc := make_sfc [(target, Text OptimizationVar)] None.
(** lines 598-604 *)
Definition SFC (cs : list cpc) (data : list (string * sfcval)) : res sfc :=
  make_sfc data (Some (as_set (map tknx cs ++ map tkny cs))).
Fixpoint sget (d : list (string * sfcval)) (t : string) : option sfcval :=
  match d with [] => None | (t', v) :: d => if String.eqb t' t then Some v else sget d t end.
(** lines 566-569 *)
Definition sfc_get (s : sfc) (t : string) : res sfcval :=
  if str_in t (s_tokens s) then Ret (match sget (s_data s) t with Some v => v | None => Num 0 end) else Raise AssertionError.
(** lines 571-582 *)
Definition is_optimizationvar (s : sfc) (t : string) : res bool :=
  if str_in t (s_tokens s) then Ret (String.eqb t (s_ov s)) else Raise AssertionError.
Definition is_constraint (s : sfc) (t : string) : res bool := let* b := is_optimizationvar s t in Ret (negb b).
(** lines 584-591 *)
Definition is_arbsfc (s : sfc) : bool :=
  Nat.eqb (List.length (s_data s)) 1 ||
  Nat.eqb (List.length (filter (fun e => match snd e with Num v => negb (req v 0) | Text _ => true end) (s_data s))) 1.
(** lines 547-554 *)
Definition sfc_items (s : sfc) : res (list (string * sfcval)) :=
  rmap (fun t => let* v := sfc_get s t in Ret (t, v)) (s_tokens s).

(** ** the problem posed by nofees_optimizer *)
(** one entry of the vector of curves with its two raw variables dx[i], dy[i] *)
Definition entry : Type := cpc * R * R.
(** lines 716-748, default parameters: the geometric mean is defined for non-negative
    arguments. [sc] is the scale of a token, cpc.py:269-288. *)
Definition curve_constraints (sc : string -> R) (e : entry) : Prop :=
  let '(c, vx, vy) := e in
  0 <= x c + vx / sc (tknx c) /\ 0 <= y c + vy / sc (tkny c) /\
  sqrt (k c) <= sqrt ((x c + vx / sc (tknx c)) * (y c + vy / sc (tkny c))) /\
  dx_min c <= vx / sc (tknx c) /\ dy_min c <= vy / sc (tkny c).
(** the sums at lines 759 and 773, over the positions of the token in the token table *)
Definition raw_sum (l : list entry) (t : string) : R :=
  rsum (map (fun e : entry => let '(c, vx, vy) := e in vy) (filter (fun e : entry => String.eqb (tkny (fst (fst e))) t) l)) +
  rsum (map (fun e : entry => let '(c, vx, vy) := e in vx) (filter (fun e : entry => String.eqb (tknx (fst (fst e))) t) l)).
(** lines 755-761; the items are those of the constraint object *)
Definition financing (sc : string -> R) (items : list (string * sfcval)) (l : list entry) : Prop :=
  Forall (fun i => match snd i with Num v => raw_sum l (fst i) = v * sc (fst i) | Text _ => True end) items.
(** lines 713-774: feasibility and objective; the objective is minimised *)
Definition nofees_feasible (sc : string -> R) (s : sfc) (l : list entry) : Prop :=
  Forall (curve_constraints sc) l /\ (exists items, sfc_items s = Ret items /\ financing sc items l).
Definition nofees_objective (s : sfc) (l : list entry) : R := raw_sum l (s_ov s).
(** lines 103-118, 796-797: the reported dx and dy *)
Definition reported (sc : string -> R) (e : entry) : entry :=
  let '(c, vx, vy) := e in (c, vx / sc (tknx c), vy / sc (tkny c)).

(** ** simple_optimizer *)
(** cpc.py:1692-1711: a curve, or a curve behind an inverter *)
Inductive side := Direct (c : cpc) | Inverted (c : cpc).
Definition wrap (c : cpc) : side := if isprimary norm_cpc (tknx c) (tkny c) then Direct c else Inverted c.
Definition side_tknx (s : side) : string := match s with Direct c => tknx c | Inverted c => inv_tknx c end.
Definition side_tkny (s : side) : string := match s with Direct c => tkny c | Inverted c => inv_tkny c end.
Definition side_pair (s : side) : string := pair_str (side_tknx s) (side_tkny s).
Definition side_p (s : side) : res R := match s with Direct c => Ret (CpcModel.p c) | Inverted c => inv_p c end.
(** the first two components of dxdyfromp_f *)
Definition side_dxdy (s : side) (p : R) : res (R * R) :=
  let* r := match s with Direct c => dxdyfromp_f c (Some p) false | Inverted c => inv_dxdyfromp_f c (Some p) false end in
  Ret (fst r).
(** lines 961-977 *)
Definition dxdy_vec (l : list side) (p : R) : res (list (R * R)) := rmap (fun s => side_dxdy s p) l.
Definition dxdy_sum (l : list side) (p : R) : res (R * R) :=
  let* v := dxdy_vec l p in Ret (rsum (map fst v), rsum (map snd v)).
Definition dxdy_valy (l : list side) (p : R) : res R := let* s := dxdy_sum l p in Ret (fst s * p + snd s * 1).
Definition dxdy_valx (l : list side) (p : R) : res R := let* v := dxdy_valy l p in rdiv v p.
(** np.min and np.max *)
Definition rmin_list (l : list R) : R := match l with [] => 0 | a :: l => fold_left Rmin l a end.
Definition rmax_list (l : list R) : R := match l with [] => 0 | a :: l => fold_left Rmax l a end.
(** lines 952-959: the wrapped curves, which must be on one pair *)
Definition one_pair (cs : list cpc) : res (list side) :=
  let l := map wrap cs in
  match as_set (map side_pair l) with [_] => Ret l | _ => Raise AssertionError end.
Record so_result := mkSO { so_result_ : R; so_p : R; so_curves : list side }.
(** lines 952-959, 979-983 and 994-1034, with a target token and no result type. At line
    1009 the plain number that goalseek returns for an exact hit has no is_error. *)
Definition simple_optimizer (fuel : nat) (cs : list cpc) (target : string) : res (option so_result) :=
  let* l := one_pair cs in
  let* ps := rmap side_p l in
  match l with
  | [] => Raise AssertionError
  | c0 :: _ =>
    if negb (String.eqb target (side_tknx c0) || String.eqb target (side_tkny c0)) then Raise AssertionError else
    let inx := String.eqb target (side_tknx c0) in
    let f p := let* s := dxdy_sum l p in Ret (if inx then snd s else fst s) in
    let* o := goalseek fuel f (rmin_list ps * (99 / 100)) (rmax_list ps * (101 / 100)) in
    match o with
    | None => Ret None
    | Some o =>
      let p := match o with Plain c => c | Found c => c end in
      let* s := dxdy_sum l p in
      match o with
      | Plain _ => Raise AttributeError
      | Found _ => Ret (Some (mkSO (if inx then fst s else snd s) p l))
      end
    end
  end.

(** lines 952-959 and 985-993, 1009-1034 without a target token: findmax is findminmax_nr with
    [n] = 20 rounds (lines 259, 277), whose error result makes float(p_optimal) raise *)
Definition simple_globalmax (n : nat) (cs : list cpc) : res so_result :=
  let* l := one_pair cs in
  let* ps := rmap side_p l in
  let* avg := rdiv (rsum ps) (INR (List.length ps)) in
  let* p := simple_float (findminmax_nr (dxdy_valx l) avg n) in
  let* v := dxdy_valx l p in
  Ret (mkSO v p l).

(** ** margp_optimizer *)
(** lines 1047-1065: the list of columns; [None] for the default step *)
Definition JACEPS : R := / 10 ^ 5.
Fixpoint add_at (j : nat) (d : R) (v : list R) : list R :=
  match v, j with [], _ => [] | a :: v, O => (a + d) :: v | a :: v, S j => a :: add_at j d v end.
Fixpoint zipw (f : R -> R -> R) (u v : list R) : list R :=
  match u, v with a :: u, b :: v => f a b :: zipw f u v | _, _ => [] end.
Definition jacobian (f : list R -> res (list R)) (v : list R) (eps : option R) : res (list (list R)) :=
  let eps := dflt eps JACEPS in
  let* w := f v in
  rmap (fun j => let xj := nth j v 0 in
                 let D := if req xj 0 then eps else Rabs xj * eps in
                 let* w' := f (add_at j D v) in
                 rmap (fun d => rdiv d D) (zipw Rminus w' w)) (seq 0 (List.length v)).

(** np.log10, np.exp(p * np.log(10)) and np.linalg.norm *)
Definition rlog10 (v : R) : res R := if rlt 0 v then Ret (ln v / ln 10) else Raise ValueError.
Definition pow10 (v : R) : R := exp (v * ln 10).
Definition norm (v : list R) : R := sqrt (rsum (map (fun a => a * a) v)).

(** lines 1123-1126, 1153-1161. [ot] and [op] are the orders in which Python iterates over
    the set of tokens and the set of pairs. *)
Definition token_set (cs : list cpc) : list string := as_set (map tknx cs ++ map tkny cs).
Definition pair_set (cs : list cpc) : list string := as_set (map pair_of cs).
Definition tokens_t (ot : list string -> list string) (cs : list cpc) (target : string) : list string :=
  filter (fun t => negb (String.eqb t target)) (ot (token_set cs)).
(** lines 1155, 1189: the entry of the token in the price vector, 1 without an entry *)
Fixpoint price_of (ts : list string) (p : list R) (t : string) : R :=
  match ts, p with t' :: ts, v :: p => if String.eqb t' t then v else price_of ts p t | _, _ => 1 end.
Fixpoint add_to (d : list (string * R)) (t : string) (v : R) : list (string * R) :=
  match d with [] => [] | (t', w) :: d => if String.eqb t' t then (t', w + v) :: d else (t', w) :: add_to d t v end.
Fixpoint dget (d : list (string * R)) (t : string) : R :=
  match d with [] => 0 | (t', w) :: d => if String.eqb t' t then w else dget d t end.
(** lines 1187-1206: one pair; unpacking a pair that does not have two parts fails. All
    tokens have an entry in the dictionary. *)
Definition add_pair (cs : list cpc) (ts : list string) (p : list R) (d : list (string * R)) (pair : string) : res (list (string * R)) :=
  match split_slash pair with
  | [b; q] =>
    let* price := rdiv (price_of ts p b) (price_of ts p q) in
    let* v := rmap (fun c => let* r := dxdyfromp_f c (Some price) false in Ret (fst r)) (filter (fun c => String.eqb (pair_of c) pair) cs) in
    Ret (add_to (add_to d q (rsum (map snd v))) b (rsum (map fst v)))
  | _ => Raise ValueError
  end.
Fixpoint rfold {A B} (f : A -> B -> res A) (l : list B) (a : A) : res A :=
  match l with [] => Ret a | b :: l => let* a' := f a b in rfold f l a' end.
(** lines 1165-1220 with islog10=False: the dictionary and the vector *)
Definition dtkn_d (ot op : list string -> list string) (cs : list cpc) (target : string) (p : list R) : res (list (string * R) * list R) :=
  let ts := tokens_t ot cs target in
  if negb (Nat.eqb (List.length p) (List.length ts)) then Raise AssertionError else
  let* d := rfold (add_pair cs ts p) (op (pair_set cs)) (map (fun t => (t, 0)) (ot (token_set cs))) in
  Ret (d, map (dget d) ts).
(** the same function with islog10=True, asdct=False *)
Definition dtkn_log (ot op : list string -> list string) (cs : list cpc) (target : string) (plog : list R) : res (list R) :=
  let* r := dtkn_d ot op cs target (map pow10 plog) in Ret (snd r).

(** lines 1255-1307; [solve] is np.linalg.solve with the fallback lstsq, given the columns
    of the Jacobian and the right hand side. The result is the last value of i and p. *)
Fixpoint newton (solve : list (list R) -> list R -> list R) (f : list R -> res (list R)) (eps : R) (p0 : list R) (n i : nat) (plog : list R) : res (nat * list R) :=
  match n with
  | O => Raise NameError
  | S n =>
    let* dt := f plog in
    let* J := jacobian f plog None in
    let dp := solve J (map Ropp dt) in
    let plog' := zipw Rplus plog dp in
    if rlt (norm dp) eps then Ret (i, if Nat.eqb i 0 then p0 else map pow10 plog')
    else match n with O => Ret (i, map pow10 plog') | _ => newton solve f eps p0 n (S i) plog' end
  end.

Definition MOEPS : R := / 10 ^ 6.
Definition MOMAXITER : Z := 50.
(** lines 1343-1358; an error result has no prices. [m_minimal] stands for the fields that
    MO_MINIMAL sets to None. *)
Record margp := mkMargp { m_curves : list cpc; m_target : string; m_tokens : list string; m_p : list R; m_dtokens : list (string * R); m_dt : list R; m_n : nat; m_value : R; m_minimal : bool }.
Inductive outcome := Converged (m : margp) | NotConverged (n : nat).
(** lines 1113-1146: sfc as an object; pstart as a dictionary, or else the price estimates
    of the container, which are an argument here ([None] if they raise) *)
Definition start_prices (ts : list string) (pstart : option (list (string * R))) (estimates : option (list R)) : res (list R) :=
  match pstart with
  | Some d => rmap (fun t => match find (fun e => String.eqb (fst e) t) d with Some e => Ret (snd e) | None => Raise KeyError end) ts
  | None => match estimates with Some v => Ret v | None => Raise RuntimeError end
  end.
Definition opt_or {A} (zero : A -> bool) (o : option A) (d : A) : A := match o with Some v => if zero v then d else v | None => d end.
(** lines 1113-1340, for the result types MO_FULL and MO_MINIMAL *)
Definition margp_optimizer (ot op : list string -> list string) (solve : list (list R) -> list R -> list R) (cs : list cpc) (s : sfc)
    (eps : option R) (maxiter : option Z) (pstart : option (list (string * R))) (estimates : option (list R)) (minimal : bool) : res outcome :=
  if negb (is_arbsfc s) then Raise AssertionError else
  let target := s_ov s in
  let eps := opt_or (fun e => req e 0) eps MOEPS in
  let maxiter := Z.to_nat (opt_or (Z.eqb 0) maxiter MOMAXITER) in
  match cs with
  | [] => Raise AssertionError
  | _ =>
    if negb (str_in target (token_set cs)) then Raise AssertionError else
    let ts := tokens_t ot cs target in
    let* p0 := start_prices ts pstart estimates in
    let* plog := rmap rlog10 p0 in
    let* r := newton solve (dtkn_log ot op cs target) eps p0 maxiter 0 plog in
    let '(i, p) := r in
    if Nat.eqb i (maxiter - 1) then Ret (NotConverged i) else
    let* d := dtkn_d ot op cs target p in
    Ret (Converged (mkMargp cs target ts p (fst d) (snd d) i (dget (fst d) target) minimal))
  end.

(** ** the result of margp_optimizer *)
(** lines 1377-1380 *)
Definition m_price (m : margp) (tknb tknq : string) : res R :=
  if m_minimal m then Raise AssertionError else rdiv (price_of (m_tokens m) (m_p m) tknb) (price_of (m_tokens m) (m_p m) tknq).
(** lines 1382-1391 *)
Definition dxdyvalues (m : margp) : res (list (R * R)) :=
  if m_minimal m then Raise AssertionError else
  rmap (fun c => let* pr := m_price m (tknx c) (tkny c) in let* r := dxdyfromp_f c (Some pr) false in Ret (fst r)) (m_curves m).
(** lines 1393-1395, 1419-1440; [None] is Python's None. The container made of the new
    curves is their list. *)
Fixpoint execute_all (cs : list cpc) (dxs : list R) : res (list cpc) :=
  match cs, dxs with
  | c :: cs, dx :: dxs => let* c' := execute c (Some dx) None true in let* cs' := execute_all cs dxs in Ret (c' :: cs')
  | _, _ => Ret []
  end.
Definition adjust_curves (cs : list cpc) (dxs : option (list R)) (raiseonerror : bool) : res (option (list cpc)) :=
  match dxs with
  | None => fail raiseonerror ValueError
  | Some dxs => match execute_all cs dxs with Ret l => Ret (Some l) | Raise e => fail raiseonerror e end
  end.
(** lines 1401-1406 *)
Definition curves_new (m : margp) : res (option (list cpc)) :=
  let* v := dxdyvalues m in adjust_curves (m_curves m) (Some (map fst v)) false.

(** ** trade instructions *)
(** lines 1459-1470; the id is the position of the curve *)
Record instruction := mkTI { ti_cid : nat; tknin : string; amtin : R; tknout : string; amtout : R }.
Definition POSNEGEPS : R := / 10 ^ 8.
(** lines 1474-1490 *)
Definition make_ti (cid : nat) (tin : string) (ain : R) (tout : string) (aout : R) : res instruction :=
  let* a := if rlt (ain * aout) 0 then Ret (ain, aout)
            else if rlt (Rabs ain) POSNEGEPS && rlt (Rabs aout) POSNEGEPS then Ret (0, 0) else Raise ValueError in
  if negb (rle 0 (fst a)) then Raise AssertionError else
  if negb (rle (snd a) 0) then Raise AssertionError else
  Ret (mkTI cid tin (fst a) tout (snd a)).
(** lines 1493-1510; eps is not used *)
Definition new_ti (cid : nat) (tkn1 : string) (amt1 : R) (tkn2 : string) (amt2 : R) : res instruction :=
  if String.eqb tkn1 tkn2 then Raise AssertionError else
  if rlt 0 amt1 then make_ti cid tkn1 amt1 tkn2 amt2 else make_ti cid tkn2 amt2 tkn1 amt1.
(** lines 1512-1515 *)
Definition is_empty (t : instruction) : bool := req (amtin t) 0 || req (amtout t) 0.
(** lines 1578-1591 *)
Definition price_outperin (t : instruction) : res R := rdiv (- amtout t) (amtin t).
Definition price_inperout (t : instruction) : res R := rdiv (- amtin t) (amtout t).
(** lines 1408-1416, as objects *)
Definition trade_instructions (m : margp) : res (list instruction) :=
  let* v := dxdyvalues m in
  rmap (fun e : nat * (cpc * (R * R)) => let '(i, (c, (dx, dy))) := e in new_ti i (tknx c) dx (tkny c) dy)
    (filter (fun e : nat * (cpc * (R * R)) => negb (req (fst (snd (snd e))) 0) || negb (req (snd (snd (snd e))) 0))
      (combine (seq 0 (List.length v)) (combine (m_curves m) v))).
