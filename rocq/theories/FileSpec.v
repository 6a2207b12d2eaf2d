(** Vocabulary for C134-C136. *)
From Coq Require Import List Bool String Ascii Permutation Sorted.
From Verif Require Import CurveModel FileModel.
From Verif Require SdkModel.
Import ListNotations.
Local Open Scope string_scope.
Local Open Scope nat_scope.

(** alphabetical order by the codes of the characters *)
Definition before (s t : string) : Prop := (exists r, t = s ++ r) \/ exists p c d s' t', s = p ++ String c s' /\ t = p ++ String d t' /\ nat_of_ascii c < nat_of_ascii d.
Definition sorted (l : list string) : Prop := StronglySorted before l.
(** two characters are the same letter up to case *)
Definition same_letter (c d : ascii) : Prop := c = d \/ exists k, k < 26 /\ ((c = ascii_of_nat (65 + k) /\ d = ascii_of_nat (97 + k)) \/ (c = ascii_of_nat (97 + k) /\ d = ascii_of_nat (65 + k))).
Fixpoint chars (s : string) : list ascii := match s with EmptyString => [] | String c s => c :: chars s end.
Definition same_upto_case (s t : string) : Prop := Forall2 same_letter (chars s) (chars t).

(** the contents of a file *)
Definition holds (fs : fsys) (name content : string) : Prop := SdkModel.dget name (f_files fs) = Some content.
Definition absent (fs : fsys) (name : string) : Prop := SdkModel.dget name (f_files fs) = None.
(** nothing but this file differs *)
Definition only (name : string) (fs fs' : fsys) : Prop := f_can fs' = f_can fs /\ forall n, n <> name -> SdkModel.dget n (f_files fs') = SdkModel.dget n (f_files fs).
Definition no_CR (s : string) : Prop := ~ In CR (chars s).
(** the library functions are inverse to each other *)
Definition gzip_ok {J} (L : libs J) : Prop := forall s, gunzip L (gz L s) = Ret s.
Definition json_ok {J} (L : libs J) (d : data J) (s : string) : Prop := dumps L d = Ret s /\ loads L s = Ret d /\ no_CR s.
