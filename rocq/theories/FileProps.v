(** Properties C134-C136 of carbon/helpers/{helpers,fls,stdimports}.py. *)
From Coq Require Import ZArith QArith Qabs List Bool String Ascii Permutation Sorted Lia.
From Verif Require Import CurveModel FileModel FileSpec FileProofs.
Import ListNotations.
Local Open Scope string_scope.
Local Open Scope nat_scope.

(** ** C134: directory listings *)
Theorem C134_sorted dir ext : sorted (listdir dir ext).
Proof. exact (listdir_sorted dir ext). Qed.
Print Assumptions C134_sorted.
Theorem C134_all dir : Permutation (listdir dir None) dir.
Proof. exact (listdir_all dir). Qed.
Print Assumptions C134_all.
Theorem C134_extension dir e : e <> "" -> exists ps rest, Permutation (listdir dir (Some e)) (map fst ps) /\ (forall p, In p ps -> same_upto_case (snd p) e) /\ Permutation dir (map (fun p => (fst p ++ snd p)%string) ps ++ rest)%list /\ forall fn x t, In fn rest -> fn = x ++ t -> ~ same_upto_case t e.
Proof. exact (listdir_ext dir e). Qed.
Print Assumptions C134_extension.
(** whatever order the system lists the files in *)
Theorem C134_order dir dir' ext : Permutation dir dir' -> listdir dir ext = listdir dir' ext.
Proof. exact (listdir_order dir dir' ext). Qed.
Print Assumptions C134_order.
Theorem C134_case dir e e' : same_upto_case e e' -> listdir dir (Some e) = listdir dir (Some e').
Proof. exact (listdir_case dir e e'). Qed.
Print Assumptions C134_case.
(** an empty extension lists nothing (file names are not empty) *)
Theorem C134_empty dir : ~ In "" dir -> listdir dir (Some "") = [].
Proof. exact (listdir_none dir). Qed.
Print Assumptions C134_empty.
Example C134_ex : listdir ["b.csv"; "a.CSV"; "x.pickle"; "b1.csv"] (Some ".Csv") = ["a"; "b"; "b1"] /\ listdir ["b"; "B"; "a"] None = ["B"; "a"; "b"].
Proof. split; reflexivity. Qed.
(** "a listed name with the extension is a file" and "no name is listed twice" are false *)
Theorem C134_file_refuted : exists dir e x, NoDup dir /\ In x (listdir dir (Some e)) /\ ~ In (x ++ e) dir.
Proof. exists ["a.CSV"], ".csv", "a". split; [repeat constructor; intros []|]. split; [left; reflexivity|]. intros [X|[]]. discriminate. Qed.
Print Assumptions C134_file_refuted.
Theorem C134_twice_refuted : exists dir e, NoDup dir /\ ~ NoDup (listdir dir (Some e)).
Proof. exists ["a.CSV"; "a.csv"], ".csv". split; [repeat constructor; cbn; intuition discriminate|]. intros N. inversion N as [|? ? X]. apply X. left. reflexivity. Qed.
Print Assumptions C134_twice_refuted.

(** ** C135: loading what was saved *)
Theorem C135_text {J} (L : libs J) fs s fn path : f_can fs (full path fn) = true -> exists fs', fsave L fs (Text s) fn path false false false None false = (Ret tt, fs') /\ holds fs' (full path fn) s /\ only (full path fn) fs fs' /\ fload L fs' fn path false false false None false = Ret (Text (universal s)) /\ fload L fs' fn path true false false None false = Ret (Bytes s).
Proof. exact (save_text L fs s fn path). Qed.
Print Assumptions C135_text.
(** text comes back unchanged iff it has no carriage returns *)
Theorem C135_newlines s : universal s = s <-> no_CR s.
Proof. exact (universal_iff s). Qed.
Print Assumptions C135_newlines.
Theorem C135_bytes {J} (L : libs J) fs s fn path : f_can fs (full path fn) = true -> exists fs', fsave L fs (Bytes s) fn path true false false None false = (Ret tt, fs') /\ holds fs' (full path fn) s /\ only (full path fn) fs fs' /\ fload L fs' fn path true false false None false = Ret (Bytes s).
Proof. exact (save_bytes L fs s fn path). Qed.
Print Assumptions C135_bytes.
Theorem C135_json {J} (L : libs J) fs d s fn path compressed : f_can fs (full path fn) = true -> gzip_ok L -> json_ok L d s -> exists fs', fsave L fs d fn path false true false None compressed = (Ret tt, fs') /\ only (full path fn) fs fs' /\ fload L fs' fn path false true false None compressed = Ret d.
Proof. exact (save_json L fs d s fn path compressed). Qed.
Print Assumptions C135_json.
(** compressed text comes back as bytes *)
Theorem C135_compressed {J} (L : libs J) fs s fn path binary : f_can fs (full path fn) = true -> gzip_ok L -> exists fs', fsave L fs (Text s) fn path binary false false None true = (Ret tt, fs') /\ only (full path fn) fs fs' /\ holds fs' (full path fn) (gz L s) /\ fload L fs' fn path binary false false None true = Ret (Bytes s).
Proof. exact (save_gz L fs s fn path binary). Qed.
Print Assumptions C135_compressed.
(** both directions wrap, none unwraps *)
Theorem C135_wrapper {J} (L : libs J) fs s fn path a b : f_can fs (full path fn) = true -> pystr L (Text s) = s -> pystr L (Text (universal s)) = universal s ->
  fsave L fs (Text s) fn path false false false (Some (a, b)) false = fsave L fs (Text (a ++ s ++ b)) fn path false false false None false /\
  exists fs', fsave L fs (Text s) fn path false false false None false = (Ret tt, fs') /\ fload L fs' fn path false false false (Some (a, b)) false = Ret (Text (a ++ universal s ++ b)).
Proof. exact (save_wrapped L fs s fn path a b). Qed.
Print Assumptions C135_wrapper.
Theorem C135_errors {J} (L : libs J) fs d fn path binary json w compressed :
  fsave L fs d fn path binary json true w compressed = (Raise AssertionError, fs) /\ fload L fs fn path binary json true w compressed = Raise AssertionError /\
  (absent fs (full path fn) -> fload L fs fn path binary json false w compressed = Raise OSError) /\
  (f_can fs (full path fn) = false -> exists e, fsave L fs d fn path binary json false w compressed = (Raise e, fs)) /\
  (forall e, json = true -> dumps L d = Raise e -> fsave L fs d fn path binary json false w compressed = (Raise e, fs)).
Proof. exact (save_errors L fs d fn path binary json w compressed). Qed.
Print Assumptions C135_errors.
(** data of the wrong type: the old contents are lost unless compressed *)
Theorem C135_type {J} (L : libs J) fs d fn path binary compressed : f_can fs (full path fn) = true ->
  (compressed = true -> (forall s, d <> Text s) -> fsave L fs d fn path binary false false None compressed = (Raise AttributeError, fs)) /\
  (compressed = false -> (forall s, d <> if binary then Bytes s else Text s) -> exists fs', fsave L fs d fn path binary false false None compressed = (Raise TypeError, fs') /\ holds fs' (full path fn) "" /\ only (full path fn) fs fs').
Proof. exact (save_type L fs d fn path binary compressed). Qed.
Print Assumptions C135_type.
Theorem C135_path path fn : (forall r, fn = "/" ++ r -> full path fn = fn) /\ ((forall r, fn <> "/" ++ r) -> full None fn = "./" ++ fn /\ full (Some "") fn = fn /\ forall p, full (Some (p ++ "/")) fn = p ++ "/" ++ fn /\ ((forall q, p <> q ++ "/") -> p <> "" -> full (Some p) fn = p ++ "/" ++ fn)).
Proof. exact (full_spec path fn). Qed.
Print Assumptions C135_path.
(** libraries that meet the hypotheses: a trivial compression, and json for one object *)
Definition demo_libs : libs nat := mkLibs (fun s => "z" ++ s) (fun s => match s with String _ r => Ret r | _ => Raise OSError end)
  (fun d => match d with Obj 7 => Ret "[7]" | _ => Raise TypeError end) (fun s => if String.eqb s "[7]" then Ret (Obj 7) else Raise ValueError)
  (fun d => match d with Text s => s | Bytes s => "b'" ++ s ++ "'" | Obj _ => "[7]" end).
Example C135_ex : gzip_ok demo_libs /\ json_ok demo_libs (Obj 7) "[7]" /\ let fs := mkFs [("./a", "old")] (fun _ => true) in
  let fs' := snd (fsave demo_libs fs (Obj 7) "a" None false true false None true) in f_files fs' = [("./a", "z[7]")] /\ fload demo_libs fs' "a" None false true false None true = Ret (Obj 7) /\
  fsave demo_libs fs (Bytes "x") "a" None false false false None false = (Raise TypeError, mkFs [("./a", "")] (fun _ => true)).
Proof. split; [intros s; reflexivity|]. split; [split; [reflexivity|split; [reflexivity|intros [X|[X|[X|[]]]]; discriminate X]]|]. split; [reflexivity|split; reflexivity]. Qed.
(** "loading gives back the text that was saved" is false for carriage returns and for compression *)
Theorem C135_text_refuted : exists s, let '(r, fs) := fsave demo_libs (mkFs [] (fun _ => true)) (Text s) "a" None false false false None false in r = Ret tt /\ fload demo_libs fs "a" None false false false None false <> Ret (Text s).
Proof. exists (String CR ""). split; [reflexivity|discriminate]. Qed.
Print Assumptions C135_text_refuted.
Theorem C135_compressed_refuted : exists s, let '(r, fs) := fsave demo_libs (mkFs [] (fun _ => true)) (Text s) "a" None false false false None true in r = Ret tt /\ fload demo_libs fs "a" None false false false None true <> Ret (Text s).
Proof. exists "x". split; [reflexivity|discriminate]. Qed.
Print Assumptions C135_compressed_refuted.

(** ** C136: comparison and exceptions in tests *)
Theorem C136_numbers a0 x rest eps r : iseq (Num a0) (Num x :: rest) eps = Ret r -> let e := match eps with None => (1 # 1000000)%Q | Some e => e end in
  ((a0 == 0)%Q -> (r = true <-> (Qabs x <= e)%Q)) /\ (~ (a0 == 0)%Q -> (r = true <-> (Qabs (x - a0) <= e * Qabs a0)%Q)).
Proof. exact (iseq_num a0 x rest eps r). Qed.
Print Assumptions C136_numbers.
(** further numbers are ignored *)
Theorem C136_rest a0 x rest rest' eps : iseq (Num a0) (x :: rest) eps = iseq (Num a0) (x :: rest') eps.
Proof. exact (iseq_rest a0 x rest rest' eps). Qed.
Print Assumptions C136_rest.
Theorem C136_outcome a0 args eps : (args = [] -> iseq a0 args eps = Raise ValueError) /\ (forall s rest q, args = Other s :: rest -> a0 = Num q -> iseq a0 args eps = Raise TypeError) /\ (forall x rest q, args = Num x :: rest -> a0 = Num q -> exists r, iseq a0 args eps = Ret r) /\ (forall s, a0 = Other s -> args <> [] -> exists r, iseq a0 args eps = Ret r /\ (r = true <-> forall a, In a args -> a = a0)).
Proof. exact (iseq_total a0 args eps). Qed.
Print Assumptions C136_outcome.
Theorem C136_raises o : (o = Returns -> raises o = Some VFalse) /\ (forall m, o = Raises m -> exists v, raises o = Some v /\ v <> VFalse /\ (truthy v = true <-> m <> "")) /\ (o = Exits -> raises o = None).
Proof. exact (raises_spec o). Qed.
Print Assumptions C136_raises.
Example C136_ex : iseq (Num 100) [Num (100 + (1 # 20000))] None = Ret true /\ iseq (Num 100) [Num (100 + (1 # 5000))] None = Ret false /\ iseq (Other "a") [Other "a"; Other "b"] None = Ret false /\ option_map truthy (raises (Raises "too small")) = Some true.
Proof. repeat split. Qed.
(** "True means that all arguments are equal", "the order does not matter", "an exception is
    reported as a true value" are false *)
Theorem C136_all_refuted : exists a x y, ~ (a == y)%Q /\ iseq (Num a) [Num x; Num y] (Some 0%Q) = Ret true.
Proof. exists 1%Q, 1%Q, 2%Q. split; [discriminate|reflexivity]. Qed.
Print Assumptions C136_all_refuted.
Theorem C136_symmetric_refuted : exists a b eps, iseq (Num a) [Num b] (Some eps) = Ret true /\ iseq (Num b) [Num a] (Some eps) = Ret false.
Proof. exists (2 # 1)%Q, 1%Q, (1 # 2)%Q. split; reflexivity. Qed.
Print Assumptions C136_symmetric_refuted.
Theorem C136_raises_refuted : exists m v, raises (Raises m) = Some v /\ truthy v = false.
Proof. exists "", (VMsg ""). split; reflexivity. Qed.
Print Assumptions C136_raises_refuted.
