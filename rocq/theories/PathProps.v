(** Properties C123-C127 of carbon/helpers/pathinterpolation.py, pathgenerator.py and pdread.py. *)
From Coq Require Import Reals ZArith List Bool String Lra Lia Sorting.Sorted.
From Verif Require Import PairModel PairProofs CurveModel CurveProofs UiModel UiProofs PathModel PathSpec PathProofs PathProofs2 PathProofs3.
From Verif Require SdkModel.
Import ListNotations.
Local Open Scope R_scope.

(** ** C123: Gaussian bridges *)
Theorem C123_bridge a b sig n z : (0 < n)%Z -> 0 <= sig * (a + b) -> b <> 0 ->
  exists path, gaussian_bridge a b sig n z = Ret path /\ List.length path = S (Z.to_nat n) /\
   forall i, (i <= Z.to_nat n)%nat -> nth i path 0 = a + (b - a) * (INR i / IZR n) + sig * (a + b) / 2 * sqrt (1 / IZR n) * (walk z i - INR i / IZR n * walk z (Z.to_nat n)).
Proof. exact (bridge_spec a b sig n z). Qed.
Print Assumptions C123_bridge.
Theorem C123_ends a b sig n z path : (0 <= n)%Z -> gaussian_bridge a b sig n z = Ret path -> hd 0 path = a /\ last path 0 = b.
Proof. exact (bridge_ends a b sig n z path). Qed.
Print Assumptions C123_ends.
Theorem C123_errors a b sig n z : ((n < 0)%Z -> gaussian_bridge a b sig n z = Raise ValueError) /\ ((0 < n)%Z -> sig * (a + b) < 0 -> gaussian_bridge a b sig n z = Raise ValueError) /\
  ((0 < n)%Z -> 0 <= sig * (a + b) -> b = 0 -> gaussian_bridge a b sig n z = Raise AssertionError) /\ gaussian_bridge a b sig 0 z = Ret [a; b].
Proof. exact (bridge_errors a b sig n z). Qed.
Print Assumptions C123_errors.
(** a bridge from 100 to 104 in four steps with no volatility *)
Example C123_ex : exists path, gaussian_bridge 100 104 0 4 (fun _ => 1) = Ret path /\ List.length path = 5%nat /\ nth 1 path 0 = 101 /\ nth 3 path 0 = 103.
Proof.
  destruct (C123_bridge 100 104 0 4 (fun _ => 1)) as (path & E & L & V); [lia|lra|lra|]. exists path. split; [exact E|]. split; [exact L|]. rewrite !V by (vm_compute; lia). cbn [INR]. split; lra.
Qed.
(** "a bridge between positive prices consists of positive prices" is false *)
Theorem C123_positive_refuted : exists a b sig n z path i, 0 < a /\ 0 < b /\ 0 < sig /\ gaussian_bridge a b sig n z = Ret path /\ (i < List.length path)%nat /\ nth i path 0 < 0.
Proof.
  destruct (C123_bridge 1 1 1 4 (fun k => match k with O => -100 | S O => 100 | _ => 0 end)) as (path & E & L & V); [lia|lra|lra|].
  exists 1, 1, 1, 4%Z, (fun k => match k with O => -100 | S O => 100 | _ => 0 end), path, 1%nat. repeat split; try lra; [exact E|rewrite L; cbn; lia|]. rewrite V by (vm_compute; lia).
  replace (sqrt (1 / 4)) with (1 / 2); [change (Z.to_nat 4) with 4%nat; cbn [walk INR]; lra|]. symmetry. replace (1 / 4) with ((1 / 2) * (1 / 2)) by field. apply sqrt_square. lra.
Qed.
Print Assumptions C123_positive_refuted.
(** "the bridge has numsegs+2 points" (the documentation) is false *)
Theorem C123_length_refuted : exists a b sig n z path, (0 < n)%Z /\ gaussian_bridge a b sig n z = Ret path /\ Z.of_nat (List.length path) <> (n + 2)%Z.
Proof. destruct (C123_bridge 1 1 1 4 (fun k => 0)) as (path & E & L & _); [lia|lra|lra|]. exists 1, 1, 1, 4%Z, (fun _ => 0), path. split; [lia|]. split; [exact E|]. rewrite L. discriminate. Qed.
Print Assumptions C123_length_refuted.

(** ** C124: interpolated paths *)
(** a period no longer than any time step: nothing of the path is lost, and the new steps are close to the period *)
Theorem C124_fine draw path period sig f : (2 <= List.length path)%nat -> 0 < period -> 0 <= sig -> Forall (fun p => 0 < snd p) path -> (forall p q, next_to p q path -> period <= fst q - fst p) ->
  exists new, interpolate draw path period (Some sig) f true = Ret new /\ among path new /\ hd (0, 0) new = hd (0, 0) path /\ last new (0, 0) = last path (0, 0) /\ (forall u v, next_to u v new -> 3 / 4 * period <= fst v - fst u <= 3 / 2 * period).
Proof. exact (interpolate_fine draw path period sig f). Qed.
Print Assumptions C124_fine.
(** any period: the points kept, and how many there are *)
Theorem C124_kept draw path period sig f : (2 <= List.length path)%nat -> 0 < period -> 0 <= sig -> Forall (fun p => 0 < snd p) path ->
  exists new, interpolate draw path period (Some sig) f true = Ret new /\ among (survivors period path) new /\ last new (0, 0) = last path (0, 0) /\ Z.of_nat (List.length new) = points period path.
Proof. exact (interpolate_main draw path period sig f). Qed.
Print Assumptions C124_kept.
(** every new point lies between two neighbours of the path, without volatility on the line between them *)
Theorem C124_between draw path period sig f new : (2 <= List.length path)%nat -> 0 < period -> 0 <= sig -> Forall (fun p => 0 < snd p) path -> (forall p q, next_to p q path -> fst p <= fst q) -> interpolate draw path period (Some sig) f true = Ret new ->
  forall u, In u new -> exists p q, next_to p q path /\ fst p <= fst u <= fst q /\ (sig = 0 -> on_line p q (fst u) (snd u)).
Proof. exact (interpolate_between draw path period sig f new). Qed.
Print Assumptions C124_between.
(** a period longer than every time step leaves only the last point *)
Theorem C124_coarse draw path period sig f : (2 <= List.length path)%nat -> (forall p q, next_to p q path -> fst q - fst p < period) -> interpolate draw path period (Some sig) f true = Ret [last path (0, 0)].
Proof. exact (interpolate_coarse draw path period sig f). Qed.
Print Assumptions C124_coarse.
Theorem C124_options draw path period : (forall s f, interpolate draw path period s f false = Ret path) /\
  (forall s f f', interpolate draw path period (Some s) f true = interpolate draw path period (Some s) f' true) /\
  (forall s f, (List.length path < 2)%nat -> interpolate draw path period (Some s) f true = Raise ValueError) /\
  (interpolate draw [] period None None true = Raise IndexError) /\
  (forall p f, path = [p] -> interpolate draw path period None f true = Raise ZeroDivision) /\
  (forall sd sig f, estimate_vol path = Ret (sd, sig) -> interpolate draw path period None f true = interpolate draw path period (Some (match f with None => sig | Some x => sig * x end)) None true).
Proof. exact (interpolate_options draw path period). Qed.
Print Assumptions C124_options.
(** two points have no volatility: by default the interpolation is linear *)
Theorem C124_two_points draw p q period f : fst p < fst q -> 0 < snd p -> 0 < snd q -> interpolate draw [p; q] period None f true = interpolate draw [p; q] period (Some 0) None true.
Proof. exact (two_points_linear draw p q period f). Qed.
Print Assumptions C124_two_points.
Lemma next3 {A} (p q a b c : A) : next_to p q [a; b; c] -> (p = a /\ q = b) \/ (p = b /\ q = c).
Proof. intros (l1 & l2 & E). destruct l1 as [|x [|y [|w l1]]]; cbn in E; injection E; intros; subst; auto; try discriminate. destruct l1; discriminate. Qed.
Example C124_ex : exists new, interpolate (fun _ _ => 1) [(0, 100); (2, 110); (4, 90)] 1 (Some (1 / 2)) None true = Ret new /\ among [(0, 100); (2, 110); (4, 90)] new /\ (forall u v, next_to u v new -> 3 / 4 <= fst v - fst u <= 3 / 2).
Proof.
  destruct (C124_fine (fun _ _ => 1) [(0, 100); (2, 110); (4, 90)] 1 (1 / 2) None) as (new & E & A & _ & _ & S); [cbn; lia|lra|lra|repeat constructor; cbn; lra|intros p q N; apply next3 in N as [[-> ->]|[-> ->]]; cbn; lra|].
  exists new. split; [exact E|]. split; [exact A|]. intros u v N. specialize (S u v N). lra.
Qed.
(** "a period that is too long returns the original path" (the message printed) is false *)
Theorem C124_original_refuted : exists draw path period sig, Forall (fun p => 0 < snd p) path /\ (forall p q, next_to p q path -> fst p < fst q < fst p + period) /\ exists new, interpolate draw path period (Some sig) None true = Ret new /\ new <> path /\ ~ among path new.
Proof.
  exists (fun _ _ => 0), [(0, 100); (1, 101); (2, 102)], 5, 0. split; [repeat constructor; cbn; lra|]. split; [intros p q N; apply next3 in N as [[-> ->]|[-> ->]]; cbn; lra|]. eexists. split; [apply C124_coarse; [cbn; lia|intros p q N; apply next3 in N as [[-> ->]|[-> ->]]; cbn; lra]|].
  cbn [last]. split; [discriminate|]. intros A. inversion A as [|? ? ? A' E1 E2|? ? ? A' E1 E2]; subst; [inversion A'|]. inversion A'.
Qed.
Print Assumptions C124_original_refuted.

(** ** C125: estimated volatility *)
Theorem C125_volatility path t : (2 <= List.length path)%nat -> 0 < t -> Forall (fun x => 0 < x) path ->
  exists sd sig, estimate_vol_np path t = Ret (sd, sig) /\ 0 <= sd /\ 0 <= sig /\ (sd = 0 <-> arithmetic path) /\ (sig = 0 <-> geometric path) /\
   (forall k, 0 < k -> estimate_vol_np (map (Rmult k) path) t = Ret (k * sd, sig)) /\ (forall k, 0 < k -> estimate_vol_np path (k * t) = Ret (sd / sqrt k, sig / sqrt k)).
Proof. exact (vol_spec path t). Qed.
Print Assumptions C125_volatility.
Theorem C125_value path t : (2 <= List.length path)%nat -> 0 < t ->
  let n := INR (List.length path - 1) in let d i := nth (S i) path 0 - nth i path 0 in let e i := ln (nth (S i) path 0) - ln (nth i path 0) in
  let sdev f := sqrt (walk (fun i => (f i - walk f (List.length path - 1) / n) ^ 2) (List.length path - 1) / n) in
  estimate_vol_np path t = Ret (sdev d / sqrt (t / n), sdev e / sqrt (t / n)).
Proof. exact (vol_value path t). Qed.
Print Assumptions C125_value.
Theorem C125_errors path t s : (List.length path = 1%nat -> estimate_vol_np path t = Raise ZeroDivision) /\ ((2 <= List.length path)%nat -> t < 0 -> estimate_vol_np path t = Raise ValueError) /\ estimate_vol [] = Raise IndexError /\
  (s <> [] -> estimate_vol s = estimate_vol_np (map snd s) ((fst (last s (0, 0)) - fst (hd (0, 0) s)) / (36525 / 100))).
Proof. exact (vol_errors path t s). Qed.
Print Assumptions C125_errors.
Example C125_ex : exists sd sig, estimate_vol_np [100; 200; 400] 1 = Ret (sd, sig) /\ sig = 0 /\ 0 < sd.
Proof.
  destruct (C125_volatility [100; 200; 400] 1) as (sd & sig & E & A & B & C & D & _); [cbn; lia|lra|repeat constructor; lra|]. exists sd, sig. split; [exact E|]. split.
  - apply D. exists 2. intros [|[|i]] Hi; cbn in Hi |- *; try lra. lia.
  - destruct A as [A|A]; [exact A|]. exfalso. symmetry in A. apply C in A as (d & H). pose proof (H 0%nat ltac:(cbn; lia)) as H0. pose proof (H 1%nat ltac:(cbn; lia)) as H1. cbn in H0, H1. lra.
Qed.

(** ** C126: generated paths *)
Theorem C126_path g z : 0 <= g_sig g * sqrt (g_dt g) -> (0 <= g_N g)%Z -> exists path, gen_path g z = Ret path /\ List.length path = S (Z.to_nat (g_N g)) /\
  forall i, (i <= Z.to_nat (g_N g))%nat -> nth i path 0 = g_s0 g * exp ((g_mu g - g_sig g ^ 2 / 2) * (INR i * g_dt g) + g_sig g * sqrt (g_dt g) * walk z i).
Proof. exact (gen_spec g z). Qed.
Print Assumptions C126_path.
Theorem C126_positive g z path : (0 <= g_N g)%Z -> gen_path g z = Ret path -> hd 0 path = g_s0 g /\ (0 < g_s0 g -> Forall (fun x => 0 < x) path).
Proof. exact (gen_positive g z path). Qed.
Print Assumptions C126_positive.
Theorem C126_new mu sig s0 time N : let t := match time with Some t => t | None => 1 end in let n := match N with Some n => n | None => 200%Z end in
  (n = 0%Z -> new_generator mu sig s0 time N = Raise ZeroDivision) /\ (n <> 0%Z -> t / IZR n < 0 -> new_generator mu sig s0 time N = Raise ValueError) /\
  (n <> 0%Z -> 0 <= t / IZR n -> exists g, new_generator mu sig s0 time N = Ret g /\ g_mu g = match mu with Some v => v | None => 0 end /\ g_sig g = match sig with Some v => v | None => / 2 end /\ g_s0 g = match s0 with Some v => v | None => 100 end /\
     g_N g = n /\ g_dt g = t / IZR n).
Proof. exact (gen_new mu sig s0 time N). Qed.
Print Assumptions C126_new.
Theorem C126_times g : (0 <= g_N g)%Z -> List.length (times g) = S (Z.to_nat (g_N g)) /\ List.length (datetimes g) = S (Z.to_nat (g_N g)) /\
  forall i, (i <= Z.to_nat (g_N g))%nat -> nth i (times g) 0 = INR i * g_dt g /\ nth i (datetimes g) 0 = 36525 / 100 * (INR i * g_dt g).
Proof. exact (gen_times g). Qed.
Print Assumptions C126_times.
Theorem C126_errors g z : (g_sig g * sqrt (g_dt g) < 0 -> gen_path g z = Raise ValueError) /\ ((g_N g < 0)%Z -> gen_path g z = Raise ValueError).
Proof. exact (gen_errors g z). Qed.
Print Assumptions C126_errors.
Example C126_ex : exists g path, new_generator (Some 1) (Some 0) None (Some 2) (Some 4%Z) = Ret g /\ gen_path g (fun _ => 7) = Ret path /\ List.length path = 5%nat /\ nth 4 path 0 = 100 * exp 2.
Proof.
  destruct (C126_new (Some 1) (Some 0) None (Some 2) (Some 4%Z)) as (_ & _ & H). destruct H as (g & E & M & S & S0 & N & D); [discriminate|lra|]. destruct (C126_path g (fun _ => 7)) as (path & P & L & V); [rewrite S; lra|rewrite N; lia|].
  exists g, path. split; [exact E|]. split; [exact P|]. rewrite N in *. split; [exact L|]. rewrite V by (vm_compute; lia). rewrite M, S, S0, D. cbn [INR]. f_equal. f_equal. field.
Qed.

(** ** C127: the window read from a stored series *)
Theorem C127_window f r0 r1 from_ts from_pc days pc m : StronglySorted (fun a b => fst a <= fst b) (f_rows f) ->
  In r0 (f_rows f) -> not_before m (fst r0) -> In r1 (f_rows f) -> not_before m (fst r1) -> (forall r, In r (f_rows f) -> not_before m (fst r) -> fst r0 <= fst r <= fst r1) ->
  (from_ts = None \/ from_pc = None) -> (days = None \/ pc = None) ->
  let lo := win_from (fst r0) (fst r1) from_ts from_pc in let hi := win_to (fst r0) (fst r1) lo days pc in let rows := filter (fun r => between lo hi m (fst r)) (f_rows f) in
  let values i inv := map (fun r => (fst r, if (inv : bool) then 1 / nth i (snd r) 0 else nth i (snd r) 0)) rows in
  let read dc := pdread f dc from_ts from_pc days pc m in
  (forall t, read AllCols false t = Ret (Whole (mkFrame (f_cols f) rows))) /\ (forall t, read AllCols true t = Raise ValueError) /\
  (forall n i inv, nth_error (f_cols f) i = Some n -> ~ In n (firstn i (f_cols f)) -> read (ByName n) inv false = Ret (OneCol (values i inv)) /\ read (ByName n) inv true = Ret (WithTokens (values i inv) (fst (tknpair n inv)) (snd (tknpair n inv)))) /\
  (forall n inv t, ~ In n (f_cols f) -> read (ByName n) inv t = Raise KeyError) /\
  (forall i j inv, (0 <= i < Z.of_nat (List.length (f_cols f)))%Z -> (j = i \/ j = i - Z.of_nat (List.length (f_cols f)))%Z -> read (ByIndex j) inv false = Ret (OneCol (values (Z.to_nat i) inv)) /\
     read (ByIndex j) inv true = Ret (WithTokens (values (Z.to_nat i) inv) (if inv then "CSH" else "RSK")%string (if inv then "RSK" else "CSH")%string)) /\
  (forall i inv t, (i < - Z.of_nat (List.length (f_cols f)) \/ Z.of_nat (List.length (f_cols f)) <= i)%Z -> read (ByIndex i) inv t = Raise IndexError) /\
  (forall inv t, read BadCol inv t = Raise ValueError).
Proof. exact (pdread_spec f r0 r1 from_ts from_pc days pc m). Qed.
Print Assumptions C127_window.
Theorem C127_errors f dc from_ts from_pc days pc m inv t : (days <> None -> pc <> None -> pdread f dc from_ts from_pc days pc m inv t = Raise ValueError) /\
  ((exists r, In r (f_rows f) /\ not_before m (fst r)) -> from_ts <> None -> from_pc <> None -> pdread f dc from_ts from_pc days pc m inv t = Raise ValueError) /\
  ((forall r, In r (f_rows f) -> ~ not_before m (fst r)) -> pdread f dc from_ts from_pc days pc m inv t = Raise (match days, pc, from_ts, from_pc with Some _, Some _, _, _ => ValueError | _, None, Some _, Some _ => ValueError | _, _, _, _ => IndexError end)).
Proof. exact (pdread_errors f dc from_ts from_pc days pc m inv t). Qed.
Print Assumptions C127_errors.
Theorem C127_tokens a b : no_slash a = true -> no_slash b = true -> (forall inv, tknpair (a ++ "/" ++ b) inv = if inv then (SdkModel.strip b, SdkModel.strip a) else (SdkModel.strip a, SdkModel.strip b)) /\
  (forall c, tknpair c false = ("RSK", "CSH")%string \/ exists x y, c = (x ++ "/" ++ y)%string /\ no_slash x = true /\ no_slash y = true) /\ forall c, tknpair c true = (snd (tknpair c false), fst (tknpair c false)).
Proof. exact (tknpair_spec a b). Qed.
Print Assumptions C127_tokens.
Theorem C127_pathtime s : (s = [] -> pathtime_days s = Raise IndexError /\ pathtime_yrs s = Raise IndexError) /\ (s <> [] -> let d := fst (last s (0, 0)) - fst (hd (0, 0) s) in pathtime_days s = Ret d /\ pathtime_yrs s = Ret (d / (36525 / 100))).
Proof. exact (pathtime_spec s). Qed.
Print Assumptions C127_pathtime.
Example C127_ex : pdread (mkFrame ["ETH/USDC"%string] [(0, [100]); (1, [110]); (2, [120]); (3, [130])]) (ByName "ETH/USDC") (Some (-5)) None (Some 1) None None false true = Ret (WithTokens [(0, 100); (1, 110)] "ETH" "USDC").
Proof.
  destruct (C127_window (mkFrame ["ETH/USDC"%string] [(0, [100]); (1, [110]); (2, [120]); (3, [130])]) (0, [100]) (3, [130]) (Some (-5)) None (Some 1) None None) as (_ & _ & H & _).
  - repeat constructor; cbn; lra.
  - left. reflexivity.
  - exact I.
  - do 3 right. left. reflexivity.
  - exact I.
  - intros r R _. cbn in R. destruct R as [<-|[<-|[<-|[<-|[]]]]]; cbn; lra.
  - right. reflexivity.
  - right. reflexivity.
  - destruct (H "ETH/USDC"%string 0%nat false eq_refl ltac:(intros [])) as [_ E]. rewrite E. f_equal. change (fst (tknpair "ETH/USDC" false)) with "ETH"%string. change (snd (tknpair "ETH/USDC" false)) with "USDC"%string. f_equal.
    cbn [fst win_from win_to f_rows filter]. unfold between. rewrite Rmax_left by lra. repeat (destruct (Rle_dec _ _); try lra). reflexivity.
Qed.
