(** Hexadecimal numbers, wei amounts, names and paths. *)
From Coq Require Import ZArith QArith Qround Qpower List Bool Ascii String Lia Lqa.
From Verif Require Import PairModel CurveModel SdkModel SdkSpec SdkProofs2.
Import ListNotations.
Local Open Scope string_scope.

(** ** white space *)
Definition nospace (s : string) : bool := all_chars (fun c => negb (is_space c)) s.
Lemma lstrip_nospace s : nospace s = true -> lstrip s = s.
Proof. destruct s as [|c s]; [reflexivity|]. unfold nospace. cbn [all_chars lstrip]. intros H. apply andb_true_iff in H as [H _]. apply negb_true_iff in H. rewrite H. reflexivity. Qed.
Lemma rstrip_nospace s : nospace s = true -> rstrip s = s.
Proof.
  induction s as [|c s IH]; [reflexivity|]. unfold nospace in *. cbn [all_chars rstrip]. intros H. apply andb_true_iff in H as [H H2]. rewrite (IH H2). apply negb_true_iff in H. destruct s; [rewrite H|]; reflexivity.
Qed.
Lemma strip_nospace s : nospace s = true -> strip s = s.
Proof. intros H. unfold strip. rewrite (lstrip_nospace s H). apply rstrip_nospace. exact H. Qed.

(** ** hexadecimal numbers *)
Lemma digit_cases d : (0 <= d < 16)%Z -> In d [0;1;2;3;4;5;6;7;8;9;10;11;12;13;14;15]%Z.
Proof. intros H. cbn [In]. lia. Qed.
Lemma hexval_hexchar d : (0 <= d < 16)%Z -> hexval (hexchar d) = Some d.
Proof. intros H. apply digit_cases in H. cbn [In] in H. repeat (destruct H as [<-|H]; [reflexivity|]). destruct H. Qed.
Lemma hexchar_nospace d : (0 <= d < 16)%Z -> is_space (hexchar d) = false.
Proof. intros H. apply digit_cases in H. cbn [In] in H. repeat (destruct H as [<-|H]; [reflexivity|]). destruct H. Qed.
Lemma hexdigits_value k : forall n rest, (0 <= n < 2 ^ Z.of_nat (S k))%Z -> hexbody true 0 (hexdigits (S k) n rest) = hexbody false n rest.
Proof.
  induction k as [|k IH]; intros n rest H; cbn [hexdigits]; assert (M := Z.mod_pos_bound n 16 ltac:(lia)); assert (D := Z.div_mod n 16 ltac:(lia)).
  - change (2 ^ Z.of_nat 1)%Z with 2%Z in H. assert (n / 16 = 0)%Z as E by (apply Z.div_small; lia). rewrite E. cbn [Z.eqb hexbody]. rewrite (hexval_hexchar _ M). f_equal. lia.
  - destruct (Z.eqb_spec (n / 16) 0) as [E|N].
    + cbn [hexbody]. rewrite (hexval_hexchar _ M). f_equal. lia.
    + change (if (n / 16 / 16 =? 0)%Z then String (hexchar ((n / 16) mod 16)) (String (hexchar (n mod 16)) rest) else hexdigits k (n / 16 / 16) (String (hexchar ((n / 16) mod 16)) (String (hexchar (n mod 16)) rest)))
        with (hexdigits (S k) (n / 16) (String (hexchar (n mod 16)) rest)).
      rewrite IH.
      * cbn [hexbody]. rewrite (hexval_hexchar _ M). f_equal. lia.
      * split; [apply Z.div_pos; lia|]. apply Z.div_lt_upper_bound; [lia|]. replace (Z.of_nat (S (S k))) with (Z.of_nat (S k) + 1)%Z in H by lia. rewrite Z.pow_add_r in H by lia. lia.
Qed.
Lemma hexdigits_first k : forall n rest, exists d r, (0 <= d < 16)%Z /\ hexdigits (S k) n rest = String (hexchar d) r.
Proof.
  induction k as [|k IH]; intros n rest.
  - exists (n mod 16)%Z, rest. split; [apply Z.mod_pos_bound; lia|]. cbn [hexdigits]. destruct (n / 16 =? 0)%Z; reflexivity.
  - change (hexdigits (S (S k)) n rest) with (let r := String (hexchar (n mod 16)) rest in if (n / 16 =? 0)%Z then r else hexdigits (S k) (n / 16) r). cbn zeta.
    destruct (n / 16 =? 0)%Z; [exists (n mod 16)%Z, rest; split; [apply Z.mod_pos_bound; lia|reflexivity]|apply IH].
Qed.
Lemma hexdigits_nospace k : forall n rest, nospace rest = true -> nospace (hexdigits k n rest) = true.
Proof.
  induction k as [|k IH]; intros n rest H; [exact H|]. cbn [hexdigits]. assert (nospace (String (hexchar (n mod 16)) rest) = true) as X.
  { unfold nospace in *. cbn [all_chars]. rewrite (hexchar_nospace (n mod 16)) by (apply Z.mod_pos_bound; lia). rewrite H. reflexivity. }
  destruct (n / 16 =? 0)%Z; [exact X|apply IH; exact X].
Qed.
Lemma hex_abs_num n : (0 <= n)%Z -> hexnum (hex_abs n) = Some n /\ nospace (hex_abs n) = true.
Proof.
  intros H. unfold hex_abs. split.
  - destruct (hexdigits_first (Z.to_nat (Z.log2 n)) n "") as (d & r & Hd & E). assert (V := hexdigits_value (Z.to_nat (Z.log2 n)) n "").
    cbn [append]. rewrite E in *. unfold hexnum. cbn [Ascii.eqb Bool.eqb orb].
    assert (X : forall (A : Type) (a b : A), match hexchar d with "_"%char => a | _ => b end = b).
    { intros A a b. apply digit_cases in Hd. cbn [In] in Hd. repeat (destruct Hd as [<-|Hd]; [reflexivity|]). destruct Hd. }
    rewrite X. rewrite V; [reflexivity|]. rewrite Nat2Z.inj_succ, Z2Nat.id by apply Z.log2_nonneg. destruct (Z.eq_dec n 0) as [->|N0]; [cbn; lia|]. assert (Y := Z.log2_spec n ltac:(lia)). lia.
  - unfold nospace. cbn [append all_chars]. change (is_space "0") with false. change (is_space "x") with false. cbn [negb andb]. apply hexdigits_nospace. reflexivity.
Qed.
Lemma hex_round n : int16 (hex n) = Some n.
Proof.
  unfold hex. destruct (Z.ltb_spec n 0).
  - destruct (hex_abs_num (- n) ltac:(lia)) as [A B]. unfold int16. rewrite strip_nospace by (unfold nospace in *; cbn [append all_chars]; rewrite B; reflexivity). cbn [append]. rewrite A. cbn [option_map]. f_equal. lia.
  - destruct (hex_abs_num n ltac:(lia)) as [A B]. unfold int16. rewrite strip_nospace by exact B. unfold hex_abs in *. cbn [append] in *. exact A.
Qed.
Lemma bn_round x : bn2int (int2bn x) = Ret (JInt (qtrunc x)).
Proof. unfold bn2int, int2bn. cbn [String.eqb Ascii.eqb Bool.eqb]. rewrite hex_round. reflexivity. Qed.
Lemma bn_other v : (forall h, v <> JDict (Some "BigNumber") h) -> bn2int v = Ret v.
Proof.
  intros H. destruct v as [z|q|s|ty h|]; try reflexivity. destruct ty as [ty|]; [|reflexivity]. unfold bn2int. destruct (String.eqb_spec ty "BigNumber") as [->|]; [|reflexivity]. exfalso. apply (H h). reflexivity.
Qed.

(** ** wei *)
Lemma ten_pos d : (0 < ten_to d)%Q.
Proof. unfold ten_to. destruct (Qlt_le_dec 0 (Qpower (10 # 1) d)) as [H|H]; [exact H|]. exfalso. assert (X := Qpower_pos (10 # 1) d ltac:(discriminate)). assert (Y : ~ (Qpower (10 # 1) d == 0)%Q) by (apply Qpower_not_0; discriminate). apply Y. lra. Qed.
Lemma qtrunc_comp a b : (a == b)%Q -> qtrunc a = qtrunc b.
Proof.
  intros H. unfold qtrunc. assert (E : Qle_bool 0 a = Qle_bool 0 b) by (rewrite H; reflexivity). rewrite E. destruct (Qle_bool 0 b); [apply Qfloor_comp|apply Qceiling_comp]; exact H.
Qed.
Lemma qtrunc_int z : qtrunc (inject_Z z) = z. Proof. unfold qtrunc. destruct (Qle_bool 0 (inject_Z z)); [apply Qfloor_Z|apply Qceiling_Z]. Qed.
Lemma wei_round t d w : t_d t = Some d -> exists x, w2t t (inject_Z w) = Ret x /\ (x * ten_to d == inject_Z w)%Q /\ t2w t x = Ret w.
Proof.
  intros H. unfold w2t, t2w. rewrite H. eexists. split; [reflexivity|]. assert (P := ten_pos d). assert (E : (inject_Z w / ten_to d * ten_to d == inject_Z w)%Q) by (field; lra).
  split; [exact E|]. rewrite (qtrunc_comp _ _ E), qtrunc_int. reflexivity.
Qed.
Lemma wei_down t d a : t_d t = Some d -> (0 <= a)%Q -> exists w x, t2w t a = Ret w /\ w2t t (inject_Z w) = Ret x /\ (0 <= w)%Z /\ (x <= a)%Q /\ (a < x + 1 / ten_to d)%Q.
Proof.
  intros H Ha. unfold w2t, t2w. rewrite H. do 2 eexists. split; [reflexivity|]. split; [reflexivity|]. assert (P := ten_pos d).
  assert (N : (0 <= a * ten_to d)%Q) by (apply Qmult_le_0_compat; lra). unfold qtrunc. assert (E := proj2 (Qle_bool_iff 0 (a * ten_to d)) N). rewrite E.
  assert (F := Qfloor_le (a * ten_to d)). assert (G := Qlt_floor (a * ten_to d)). rewrite inject_Z_plus in G. change (inject_Z 1) with 1%Q in G.
  split; [change 0%Z with (Qfloor 0); apply Qfloor_resp_le; exact N|]. set (w := inject_Z (Qfloor (a * ten_to d))) in *. split.
  - apply Qle_shift_div_r; [exact P|exact F].
  - setoid_replace (w / ten_to d + 1 / ten_to d)%Q with ((w + 1) / ten_to d)%Q by (field; lra). apply Qlt_shift_div_l; [exact P|exact G].
Qed.
Lemma wei_none t x : t_d t = None -> w2t t x = Raise TypeError /\ t2w t x = Raise TypeError.
Proof. intros H. unfold w2t, t2w. rewrite H. auto. Qed.

(** ** names *)
Lemma app_assoc_s a b c : (a ++ b) ++ c = a ++ (b ++ c). Proof. induction a as [|x a IH]; [reflexivity|]. cbn [append]. rewrite IH. reflexivity. Qed.
Lemma upper_letter c : is_upper c = true -> upper_ascii (lower_ascii c) = c /\ lower_ascii c <> "_"%char /\ is_letter (lower_ascii c) = true.
Proof. destruct c as [[] [] [] [] [] [] [] []]; vm_compute; intros H; try discriminate H; repeat split; discriminate. Qed.
Lemma lower_letter c : is_lower c = true -> lower_ascii c = c /\ c <> "_"%char /\ is_upper c = false /\ is_letter c = true.
Proof. destruct c as [[] [] [] [] [] [] [] []]; vm_compute; intros H; try discriminate H; repeat split; discriminate. Qed.
Lemma title_lower w : all_chars is_lower w = true -> title_from true w = w.
Proof.
  induction w as [|c w IH]; [reflexivity|]. cbn [all_chars title_from]. intros H. apply andb_true_iff in H as [H H2]. destruct (lower_letter c H) as (A & _ & _ & B). rewrite A, B, (IH H2). reflexivity.
Qed.
Lemma camel_words s : all_chars is_letter s = true -> exists w ws, split_us (snake s) = w :: ws /\ all_chars is_lower w = true /\ s = w ++ fold_right append "" (map title ws).
Proof.
  induction s as [|c s IH]; [exists "", []; repeat split|]. cbn [all_chars snake]. intros H. apply andb_true_iff in H as [H H2]. destruct (IH H2) as (w & ws & E & L & R). unfold is_letter in H. destruct (is_upper c) eqn:U.
  - destruct (upper_letter c U) as (A & B & C). cbn [split_us]. rewrite E. change (Ascii.eqb "_" "_") with true. cbn match. destruct (Ascii.eqb_spec (lower_ascii c) "_"); [congruence|].
    exists "", (String (lower_ascii c) w :: ws). split; [reflexivity|]. split; [reflexivity|]. cbn [map fold_right append]. unfold title at 1. cbn [title_from]. rewrite A, C, (title_lower w L). cbn [append]. rewrite <- R. reflexivity.
  - cbn [orb] in H. destruct (lower_letter c H) as (A & B & _ & C). cbn [split_us]. destruct (Ascii.eqb_spec c "_"); [congruence|]. rewrite E. exists (String c w), ws. split; [reflexivity|]. cbn [all_chars append]. rewrite H, L, <- R. auto.
Qed.
Lemma camel_round s : all_chars is_letter s = true -> starts is_lower s = true -> s2c (c2s s) = s.
Proof.
  intros H1 H2. unfold c2s. assert (E : lstrip_us (snake s) = snake s).
  { destruct s as [|c s]; [reflexivity|]. cbn [starts] in H2. destruct (lower_letter c H2) as (_ & B & U & _). cbn [snake]. rewrite U. cbn [lstrip_us]. destruct c as [[] [] [] [] [] [] [] []]; try reflexivity. exfalso. apply B. reflexivity. }
  rewrite E. destruct (camel_words s H1) as (w & ws & F & _ & R). unfold s2c. rewrite F. symmetry. exact R.
Qed.
Lemma lstrip_us_chars P s : all_chars P s = true -> all_chars P (lstrip_us s) = true.
Proof.
  induction s as [|c s IH]; [trivial|]. cbn [all_chars]. intros H. apply andb_true_iff in H as [H H2]. assert (X : lstrip_us (String c s) = String c s \/ lstrip_us (String c s) = lstrip_us s) by (destruct c as [[] [] [] [] [] [] [] []]; auto).
  destruct X as [->| ->]; [cbn [all_chars]; rewrite H, H2; reflexivity|apply IH; exact H2].
Qed.
Lemma snake_lower s : all_chars (fun c => negb (is_upper c)) (c2s s) = true.
Proof.
  unfold c2s. apply lstrip_us_chars. induction s as [|c s IH]; [reflexivity|]. cbn [snake]. destruct (is_upper c) eqn:U; cbn [all_chars]; rewrite IH, ?U; [|reflexivity].
  destruct c as [[] [] [] [] [] [] [] []]; try discriminate U; reflexivity.
Qed.

(** ** paths *)
Lemma last_char_snoc s c : last_char (s ++ String c "") = Some c.
Proof. induction s as [|d s IH]; [reflexivity|]. cbn [append last_char]. rewrite IH. destruct s; reflexivity. Qed.
Lemma droplast_snoc s c : droplast (s ++ String c "") = s.
Proof. induction s as [|d s IH]; [reflexivity|]. cbn [append droplast]. rewrite IH. destruct s; reflexivity. Qed.
Lemma last_char_ends s : s <> "" -> exists c, last_char s = Some c /\ (ends_slash s = Ascii.eqb c "/").
Proof.
  induction s as [|c s IH]; [congruence|]. intros _. destruct s as [|d s]; [exists c; auto|]. destruct (IH ltac:(discriminate)) as (e & A & B). exists e. split; [exact A|exact B].
Qed.
Lemma join_plain u p : u <> "" -> p <> "" -> ends_slash u = false -> starts_slash p = false -> join u p = Ret (u ++ "/" ++ p).
Proof.
  intros Hu Hp E S. unfold join. destruct (last_char_ends u Hu) as (c & -> & X). rewrite <- X, E. destruct p as [|d p]; [congruence|]. cbn [starts_slash] in S. rewrite S. reflexivity.
Qed.
Lemma join_slash u p : p <> "" -> starts_slash p = false -> join (u ++ "/") p = Ret (u ++ "/" ++ p) /\ join (u ++ "/") ("/" ++ p) = Ret (u ++ "/" ++ p).
Proof.
  intros Hp S. unfold join. rewrite last_char_snoc, droplast_snoc. change (Ascii.eqb "/" "/") with true. cbn match. split; [|reflexivity]. destruct p as [|d p]; [congruence|]. cbn [starts_slash] in S. rewrite S. reflexivity.
Qed.
Lemma join_slash2 u p : u <> "" -> ends_slash u = false -> join u ("/" ++ p) = Ret (u ++ "/" ++ p).
Proof. intros Hu E. unfold join. destruct (last_char_ends u Hu) as (c & -> & X). rewrite <- X, E. reflexivity. Qed.
Lemma join_empty u p : u = "" \/ p = "" -> join u p = Raise IndexError.
Proof. intros [->| ->]; [reflexivity|]. unfold join. destruct (last_char u); reflexivity. Qed.
Lemma call_spec d s : let b := match s with Some b => b | None => d end in
  fst (call_mode d s) = (if b then "scall" else "ascall") /\ (snd (call_mode d s) = negb b <-> ~ (s = None /\ d = true)).
Proof.
  cbn zeta. split; [reflexivity|]. destruct s as [[]|], d; cbn; split; try reflexivity; try (intros; reflexivity); try (intros _ [X _]; discriminate X); try (intros _ [_ X]; discriminate X).
  - intros X. discriminate X.
  - intros X. exfalso. apply X. auto.
Qed.
