(** Model of carbon/helpers/helpers.py (listdir), carbon/helpers/fls.py (fsave, fload) and of the
    test helpers of carbon/helpers/stdimports.py (iseq, raises).

    Characters are single bytes (text is not re-encoded). A file system maps full names to
    contents; names are not normalised. gzip, json and str() of other objects are functions
    collected in a record. Numbers are rational. *)
From Coq Require Import ZArith QArith Qabs List Bool String Ascii.
From Verif Require Import CurveModel.
From Verif Require SdkModel.
Import ListNotations.
Local Open Scope string_scope.

(** ** helpers.py: listdir *)
(** Python fn[-l:] and fn[:-l]; for l = 0 the whole string and the empty string *)
Definition tail_n (l : nat) (s : string) : string := if Nat.eqb l 0 then s else substring (String.length s - l) (String.length s) s.
Definition head_n (l : nat) (s : string) : string := if Nat.eqb l 0 then "" else substring 0 (String.length s - l) s.
(** list.sort() of strings, by the codes of the characters; the result is unique *)
Fixpoint insert_str (a : string) (l : list string) : list string := match l with [] => [a] | b :: l => if String.leb a b then a :: b :: l else b :: insert_str a l end.
Fixpoint sort_str (l : list string) : list string := match l with [] => [] | a :: l => insert_str a (sort_str l) end.
(** helpers.py:9-24: [dir] is what os.listdir returned *)
Definition listdir (dir : list string) (ext : option string) : list string :=
  match ext with
  | None => sort_str dir
  | Some e => let e := SdkModel.lower e in let l := String.length e in
    sort_str (map (head_n l) (filter (fun fn => String.eqb (SdkModel.lower (tail_n l fn)) e) dir))
  end.

(** ** fls.py *)
(** data: text, bytes, or another object *)
Inductive data (J : Type) := Text (s : string) | Bytes (s : string) | Obj (j : J).
Arguments Text {J}. Arguments Bytes {J}. Arguments Obj {J}.
(** gzip.compress/decompress, json.dumps/loads, str() as used by format *)
Record libs (J : Type) := mkLibs { gz : string -> string; gunzip : string -> res string; dumps : data J -> res string; loads : string -> res (data J); pystr : data J -> string }.
Arguments mkLibs {J}. Arguments gz {J}. Arguments gunzip {J}. Arguments dumps {J}. Arguments loads {J}. Arguments pystr {J}.
(** files, and which can be opened for writing *)
Record fsys := mkFs { f_files : list (string * string); f_can : string -> bool }.
Definition first_is (c : ascii) (s : string) : bool := match s with String d _ => Ascii.eqb c d | EmptyString => false end.
Fixpoint last_is (c : ascii) (s : string) : bool := match s with EmptyString => false | String d EmptyString => Ascii.eqb c d | String _ r => last_is c r end.
(** posix os.path.join of two names *)
Definition path_join (p f : string) : string := if first_is "/" f then f else if String.eqb p "" || last_is "/" p then p ++ f else p ++ "/" ++ f.
(** lines 46-48, 89-91 *)
Definition full (path : option string) (fn : string) : string := path_join (match path with None => "." | Some p => p end) fn.
(** text mode reading: universal newlines *)
Definition CR := ascii_of_nat 13.
Definition LF := ascii_of_nat 10.
Fixpoint universal (s : string) : string :=
  match s with
  | EmptyString => EmptyString
  | String c r => if Ascii.eqb c CR
                  then match r with
                       | String d r' => if Ascii.eqb d LF then String LF (universal r') else String LF (universal r)
                       | EmptyString => String LF EmptyString
                       end
                  else String c (universal r)
  end.
(** a wrapper with one field [{}]: what comes before and after it *)
Definition wrapper := (string * string)%type.
Definition wrap {J} (L : libs J) (w : option wrapper) (d : data J) : data J := match w with None => d | Some (a, b) => Text (a ++ pystr L d ++ b) end.
(** lines 29-68. Opening for writing empties the file; then text cannot be written to a binary
    file nor anything else to a text file *)
Definition fsave {J} (L : libs J) (fs : fsys) (d : data J) (fn : string) (path : option string) (binary json yaml : bool) (w : option wrapper) (compressed : bool) : res unit * fsys :=
  if yaml then (Raise AssertionError, fs) else
  let ffn := full path fn in
  let binary := if compressed then true else binary in
  match (if json then let* s := dumps L d in Ret (Text s) else Ret d) with
  | Raise e => (Raise e, fs)
  | Ret d => let d := wrap L w d in
    match (if compressed then match d with Text s => Ret (Bytes (gz L s)) | _ => Raise AttributeError end else Ret d) with
    | Raise e => (Raise e, fs)
    | Ret d => if f_can fs ffn then
        let opened := mkFs (SdkModel.dset ffn "" (f_files fs)) (f_can fs) in
        match d, binary with
        | Text s, false | Bytes s, true => (Ret tt, mkFs (SdkModel.dset ffn s (f_files fs)) (f_can fs))
        | _, _ => (Raise TypeError, opened)
        end
      else (Raise OSError, fs)
    end
  end.
(** lines 72-111 *)
Definition fload {J} (L : libs J) (fs : fsys) (fn : string) (path : option string) (binary json yaml : bool) (w : option wrapper) (compressed : bool) : res (data J) :=
  if yaml then Raise AssertionError else
  let ffn := full path fn in
  let binary := if compressed then true else binary in
  match SdkModel.dget ffn (f_files fs) with
  | None => Raise OSError
  | Some s =>
    let* d := (if compressed then let* s := gunzip L s in Ret (Bytes s) else Ret (if binary then Bytes s else Text (universal s))) in
    let* d := (if json then match d with Text s | Bytes s => loads L s | Obj _ => Raise TypeError end else Ret d) in
    Ret (wrap L w d)
  end.

(** ** stdimports.py *)
(** a number or something else *)
Inductive value := Num (q : Q) | Other (s : string).
Definition value_eqb (a b : value) : bool := match a, b with Num a, Num b => Qeq_bool a b | Other a, Other b => String.eqb a b | _, _ => false end.
(** stdimports.py:25-50; the numeric loops return in their first round. The default of eps is 1e-6 *)
Definition iseq (arg0 : value) (args : list value) (eps : option Q) : res bool :=
  let eps := match eps with None => (1 # 1000000) | Some e => e end in
  match args with
  | [] => Raise ValueError
  | arg :: _ =>
    match arg0 with
    | Num a0 => match arg with
                | Other _ => Raise TypeError
                | Num a => if Qeq_bool a0 0 then Ret (Qle_bool (Qabs a) eps) else Ret (Qle_bool (Qabs (a / a0 - 1)) eps)
                end
    | Other _ => Ret (forallb (fun a => value_eqb a arg0) args)
    end
  end.
(** what a call does: return, raise an Exception with a message, or raise something else
    (KeyboardInterrupt, SystemExit) *)
Inductive outcome := Returns | Raises (msg : string) | Exits.
Inductive verdict := VFalse | VMsg (s : string).
(** stdimports.py:52-64 *)
Definition raises (o : outcome) : option verdict := match o with Returns => Some VFalse | Raises m => Some (VMsg m) | Exits => None end.
(** the truth value of the result, as used by assert *)
Definition truthy (v : verdict) : bool := match v with VFalse => false | VMsg s => negb (String.eqb s "") end.
