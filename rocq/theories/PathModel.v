(** Model of carbon/helpers/pathinterpolation.py, pathgenerator.py and pdread.py: random price
    paths, their interpolation, and the reading of a window of a stored series.

    Floats are real numbers; so are points in time and time differences, in days (pandas keeps
    nanoseconds). A series is the list of its (time, value) entries. Random numbers are an
    argument: [z k] is the k-th standard normal number drawn, and numpy's normal(loc, scale) and
    lognormal(mean, sigma) are loc + scale z and exp(mean + sigma z). *)
From Coq Require Import Reals ZArith List Bool String.
From Verif Require Import PairModel CurveModel UiModel.
From Verif Require SdkModel.
Import ListNotations.
Local Open Scope R_scope.

Definition series := list (R * R).
Definition asum (l : list R) : R := fold_right Rplus 0 l.
(** np.cumsum(np.insert(l, 0, a)) and the same with np.cumprod *)
Fixpoint running (op : R -> R -> R) (a : R) (l : list R) : list R := a :: match l with [] => [] | x :: r => running op (op a x) r end.
Definition put_last (b : R) (l : list R) : list R := match l with [] => [] | _ => removelast l ++ [b] end.

(** ** pathinterpolation.py *)
(** 20-43; numpy refuses a negative scale; [last/0] is nan in numpy, and the assertion fails *)
Definition gaussian_bridge (a b sig : R) (numsegs : Z) (z : nat -> R) : res (list R) :=
  if (numsegs =? 0)%Z then Ret [a; b] else
  if (numsegs <? 0)%Z then Raise ValueError else
  let n := IZR numsegs in
  let scale := sqrt (1 / n) * sig * (a + b) / 2 in
  if rlt scale 0 then Raise ValueError else
  let incs := map (fun k => scale * z k) (seq 0 (Z.to_nat numsegs)) in
  let c := (- asum incs + b - a) / n in
  let path := running Rplus a (map (fun x => x + c) incs) in
  if req b 0 then Raise AssertionError else
  if rlt (Rabs (last path 0 / b - 1)) (/ 10 ^ 8) then Ret (put_last b path) else Raise AssertionError.
(** np.std: the population standard deviation; np.diff *)
Definition mean (l : list R) : R := asum l / INR (List.length l).
Definition std (l : list R) : R := sqrt (mean (map (fun x => (x - mean l) ^ 2) l)).
Fixpoint rdiff (l : list R) : list R := match l with a :: ((b :: _) as r) => (b - a) :: rdiff r | _ => [] end.
(** 45-61; a zero time period gives inf or nan in numpy, here an exception; the prices are taken
    to be positive (np.log) *)
Definition estimate_vol_np (path : list R) (time_period : R) : res (R * R) :=
  let steps := IZR (Z.of_nat (List.length path) - 1) in
  let* dt := rdiv time_period steps in
  if rlt dt 0 then Raise ValueError else
  let* sd := rdiv (std (rdiff path)) (sqrt dt) in
  let* sig := rdiv (std (rdiff (map ln path))) (sqrt dt) in
  Ret (sd, sig).
(** 63-74 *)
Definition YEAR : R := 36525 / 100.
Definition time_of (s : series) : R := fst (last s (0, 0)) - fst (hd (0, 0) s).
Definition estimate_vol (s : series) : res (R * R) :=
  match s with [] => Raise IndexError | _ => estimate_vol_np (map snd s) (time_of s / YEAR) end.
(** 76-98, for a segment from [p] to [q] *)
Definition interpolate_segment (p q : R * R) (sig period : R) (z : nat -> R) : res series :=
  let td := fst q - fst p in
  if rlt td period then Ret [p] else
  let* ratio := rdiv td period in
  let n := round0 ratio in
  let* period_act := rdiv td (IZR n) in
  if rlt (td / YEAR) 0 then Raise ValueError else
  let* path := gaussian_bridge (snd p) (snd q) (sig * sqrt (td / YEAR)) n z in
  Ret (combine (map (fun i => fst p + INR i * period_act) (seq 0 (Z.to_nat (n + 1)))) path).
(** 100-122; [draw i] are the random numbers of segment [i]; the last point of every segment is
    removed; pd.concat refuses an empty list *)
Fixpoint interpolate_from (draw : nat -> nat -> R) (i : nat) (path : series) (sig period : R) : res series :=
  match path with
  | p :: ((q :: _) as r) =>
    let* s := interpolate_segment p q sig period (draw i) in
    let* rest := interpolate_from draw (S i) r sig period in
    Ret (removelast s ++ rest)
  | _ => Ret path
  end.
Definition interpolate (draw : nat -> nat -> R) (path : series) (period : R) (sig sigfctr : option R) (enable : bool) : res series :=
  if negb enable then Ret path else
  let* sig := match sig with
              | Some s => Ret s
              | None => let* v := estimate_vol path in Ret (match sigfctr with None => snd v | Some f => snd v * f end)
              end in
  match path with
  | _ :: _ :: _ => interpolate_from draw 0 path sig period
  | _ => Raise ValueError
  end.

(** ** pathgenerator.py *)
(** 36-67; the start of the time axis is taken as zero; a wrong start date is not modelled *)
Record generator := mkGen { g_mu : R; g_sig : R; g_s0 : R; g_time : R; g_N : Z; g_dt : R }.
Definition dflt (d : R) (x : option R) : R := match x with None => d | Some v => v end.
Definition new_generator (mu sig s0 time : option R) (N : option Z) : res generator :=
  let time := dflt 1 time in
  let N := match N with None => 200%Z | Some n => n end in
  let* dt := rdiv time (IZR N) in
  if rlt dt 0 then Raise ValueError else
  Ret (mkGen (dflt 0 mu) (dflt (5 / 10) sig) (dflt 100 s0) time N dt).
(** 64-65: the times in years and the dates in days *)
Definition times (g : generator) : list R := map (fun i => INR i * g_dt g) (seq 0 (Z.to_nat (g_N g + 1))).
Definition datetimes (g : generator) : list R := map (fun i => INR i * (g_dt g * YEAR)) (seq 0 (Z.to_nat (g_N g + 1))).
(** 69-84; a negative size or sigma is refused by numpy *)
Definition gen_path (g : generator) (z : nat -> R) : res (list R) :=
  let m := g_mu g * g_dt g - 5 / 10 * g_sig g * g_sig g * g_dt g in
  let s := g_sig g * sqrt (g_dt g) in
  if rlt s 0 then Raise ValueError else
  if (g_N g <? 0)%Z then Raise ValueError else
  Ret (running Rmult (g_s0 g) (map (fun k => exp (m + s * z k)) (seq 0 (Z.to_nat (g_N g))))).

(** ** pdread.py *)
(** a stored frame: the names of the columns, and the rows in the order of their times *)
Record frame := mkFrame { f_cols : list string; f_rows : list (R * list R) }.
Inductive datacol := AllCols | ByName (n : string) | ByIndex (i : Z) | BadCol.
Inductive pdresult := Whole (f : frame) | OneCol (s : series) | WithTokens (s : series) (b q : string).
(** 13-22 *)
Definition tknpair (slashpair : string) (invert : bool) : string * string :=
  let r := match split_slash slashpair with [a; b] => (SdkModel.strip a, SdkModel.strip b) | _ => ("RSK"%string, "CSH"%string) end in
  if invert then (snd r, fst r) else r.
Definition first_ts (rows : list (R * list R)) : res R := match rows with [] => Raise IndexError | r :: _ => Ret (fst r) end.
Definition last_ts (rows : list (R * list R)) : res R := match rows with [] => Raise IndexError | r :: _ => Ret (fst (last rows r)) end.
(** 54-84: the bounds of the window; times in days *)
Definition window (rows : list (R * list R)) (from_ts from_pc period_days period_pc : option R) : res (R * R) :=
  let* pd := match period_days, period_pc with
             | Some _, Some _ => Raise ValueError
             | _, Some pc => let* a := first_ts rows in let* b := last_ts rows in Ret (Some (pc * (b - a)))
             | p, None => Ret p
             end in
  let* fr := match from_ts, from_pc with
             | Some _, Some _ => Raise ValueError
             | _, Some pc => let* a := first_ts rows in let* b := last_ts rows in Ret (Some (a + pc * (b - a)))
             | f, None => Ret f
             end in
  let* a := first_ts rows in
  let* b := last_ts rows in
  let fr := match fr with None => a | Some f => if rlt f a then a else f end in
  Ret (fr, match pd with None => b | Some d => fr + d end).
(** the position of a column (the first one with the name) *)
Fixpoint col_pos (n : string) (cols : list string) : option nat :=
  match cols with [] => None | c :: r => if String.eqb c n then Some O else option_map S (col_pos n r) end.
Definition column (i : nat) (rows : list (R * list R)) : series := map (fun r => (fst r, nth i (snd r) 0)) rows.
(** the reciprocal of zero is inf in numpy, not modelled *)
Definition reciprocal (invert : bool) (s : series) : series := if invert then map (fun p => (fst p, 1 / snd p)) s else s.
(** 24-108; [min_dt]: None or a time *)
Definition pdread (f : frame) (dc : datacol) (from_ts from_pc period_days period_pc min_dt : option R) (invert tkns : bool) : res pdresult :=
  let rows := match min_dt with None => f_rows f | Some m => filter (fun r => rle m (fst r)) (f_rows f) end in
  let* w := window rows from_ts from_pc period_days period_pc in
  let rows := filter (fun r => rle (fst w) (fst r) && rle (fst r) (snd w)) rows in
  let give i name := let s := reciprocal invert (column i rows) in
                     if tkns then Ret (WithTokens s (fst (tknpair name invert)) (snd (tknpair name invert))) else Ret (OneCol s) in
  match dc with
  | AllCols => if invert then Raise ValueError else Ret (Whole (mkFrame (f_cols f) rows))
  | ByName n => match col_pos n (f_cols f) with None => Raise KeyError | Some i => give i n end
  | ByIndex i =>
    let k := Z.of_nat (List.length (f_cols f)) in
    let i := if (i <? 0)%Z then (i + k)%Z else i in
    if ((i <? 0) || (k <=? i))%Z then Raise IndexError else give (Z.to_nat i) "RSK/CSH"%string
  | BadCol => Raise ValueError
  end.
(** 120-134 *)
Definition pathtime_days (s : series) : res R := match s with [] => Raise IndexError | _ => Ret (time_of s) end.
Definition pathtime_yrs (s : series) : res R := let* d := pathtime_days s in Ret (d / YEAR).
