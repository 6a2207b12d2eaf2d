From Coq Require Import ZArith QArith Lia List Bool Ascii String.
From Verif Require Import PairModel HelperModel HelperSpec.
Import ListNotations.
Local Open Scope Z_scope.

(** ** floatint *)

Lemma bindig_exact_ok : bindig_ok bindig_exact.
Proof.
  intros n Hn. left. unfold bindig_exact.
  assert (H := Z.log2_spec n Hn).
  apply Z.log2_up_unique; [assert (H0 := Z.log2_nonneg n); lia|]. 
  replace (Z.pred (Z.log2 n + 1)) with (Z.log2 n) by lia. lia.
Qed.

(** the canonical value *)
Definition fi_e (n : Z) : Z := Z.max 0 (Z.log2 n - 39).
Definition fi_trunc (n : Z) : Z := (n / 2 ^ fi_e n) * 2 ^ fi_e n.

Lemma fi_trunc_small n : 0 < n -> n < 2 ^ 40 -> fi_trunc n = n.
Proof.
  intros Hn H. assert (Z.log2 n < 40) by (apply Z.log2_lt_pow2; assumption).
  unfold fi_trunc, fi_e. rewrite Z.max_l by lia. rewrite Z.pow_0_r, Z.div_1_r. lia.
Qed.

Lemma fi_trunc_bounds n : 0 <= n -> fi_trunc n <= n < fi_trunc n + 2 ^ fi_e n.
Proof.
  intros Hn. unfold fi_trunc. assert (0 < 2 ^ fi_e n) by (apply Z.pow_pos_nonneg; unfold fi_e; lia).
  set (d := 2 ^ fi_e n) in *. clearbody d.
  assert (H1 := Z.div_mod n d ltac:(lia)). assert (H2 := Z.mod_pos_bound n d ltac:(lia)).
  rewrite Z.mul_comm. lia.
Qed.

(** what a successful conversion returns *)
Lemma from_int_ok bd n f : bindig_ok bd -> from_int bd n = FI f ->
  0 <= n /\ asint f = fi_trunc n /\ 0 <= exponent f <= fi_e n /\ exponent f <= 256 /\
  (exponent f = fi_e n \/ (exponent f = fi_e n - 1 /\ asint f = 2 ^ Z.log2 n)) /\
  0 <= significant f /\ asint f <= n < asint f + 2 ^ exponent f.
Proof.
  intros Hbd. unfold from_int.
  destruct (Z.ltb_spec n 0); [discriminate|]. destruct (Z.eqb_spec n 0) as [->|Hz].
  { intros E. injection E as <-. cbn. repeat split; lia. }
  unfold BITS_SIGNIFICANT, BITS_EXPONENT. change (2 ^ 8) with 256.
  destruct (Z.leb_spec (bd n - 40) 256) as [Hle|]; cbn [negb]; [|discriminate].
  assert (Hn : 0 < n) by lia. clear H Hz.
  assert (Hl := Z.log2_spec n Hn). assert (Hl0 := Z.log2_nonneg n).
  destruct (Z.leb_spec (bd n - 40) 0) as [Hs|Hs].
  - intros E. assert (Hf : f = mkFloat n 0) by congruence. subst f. clear E. unfold asint. cbn [significant exponent].
    rewrite Z.shiftl_0_r.
    destruct (Hbd n Hn) as [Hb|[Hb Hx]].
    + assert (fi_e n = 0) by (unfold fi_e; lia).
      assert (fi_trunc n = n). { unfold fi_trunc. rewrite H. rewrite Z.pow_0_r, Z.div_1_r. lia. }
      change (2 ^ 0) with 1. lia.
    + destruct (Z.lt_ge_cases (Z.log2 n) 40) as [Hlt|Hge].
      { rewrite (Z.pow_neg_r 2 (Z.log2 n - 40)) in Hx by lia. lia. }
      assert (Hlog : Z.log2 n = 40) by lia. rewrite Hlog in Hx. change (2 ^ (40 - 40)) with 1 in Hx.
      assert (n = 2 ^ 40). { rewrite Hlog in Hl. lia. }
      subst n. unfold fi_trunc, fi_e in *. rewrite Hlog. change (Z.max 0 (40 - 39)) with 1.
      change (2 ^ 40 / 2 ^ 1 * 2 ^ 1) with (2 ^ 40). change (2 ^ 0) with 1.
      split; [lia|]. split; [reflexivity|]. split; [lia|]. split; [lia|]. split; [right; split; [lia|reflexivity]|]. lia.
  - intros E. assert (Hf : f = mkFloat (Z.shiftr n (bd n - 40)) (bd n - 40)) by congruence. subst f. clear E. unfold asint. cbn [significant exponent].
    rewrite Z.shiftr_div_pow2, Z.shiftl_mul_pow2 by lia.
    set (e' := bd n - 40) in *.
    assert (Hp : 0 < 2 ^ e') by (apply Z.pow_pos_nonneg; lia).
    assert (H1 := Z.div_mod n (2 ^ e') ltac:(lia)). assert (H2 := Z.mod_pos_bound n (2 ^ e') ltac:(lia)).
    assert (H3 : 0 <= n / 2 ^ e') by (apply Z.div_pos; lia).
    assert (HB : n / 2 ^ e' * 2 ^ e' <= n < n / 2 ^ e' * 2 ^ e' + 2 ^ e') by (rewrite Z.mul_comm; lia).
    destruct (Hbd n Hn) as [Hb|[Hb Hx]].
    + assert (He : fi_e n = e') by (unfold fi_e, e'; lia).
      unfold fi_trunc. rewrite He. repeat split; try lia.
    + assert (He : fi_e n = e' + 1) by (unfold fi_e, e'; lia).
      set (L := Z.log2 n) in *.
      assert (HL : L = e' + 40) by (unfold e'; lia).
      assert (Hpow : 2 ^ L = 2 ^ 40 * 2 ^ e') by (rewrite HL, Z.pow_add_r by lia; lia).
      replace (L - 40) with e' in Hx by lia.
      assert (Hq : n / 2 ^ e' = 2 ^ 40).
      { symmetry. apply (Z.div_unique n (2 ^ e') (2 ^ 40) (n - 2 ^ L)); lia. }
      assert (Hq' : n / 2 ^ (e' + 1) = 2 ^ 39).
      { assert (Hp1 : 2 ^ (e' + 1) = 2 * 2 ^ e') by (rewrite Z.pow_add_r by lia; lia).
        symmetry. apply (Z.div_unique n (2 ^ (e' + 1)) (2 ^ 39) (n - 2 ^ L)); rewrite ?Hp1, ?Hpow; lia. }
      assert (HT : fi_trunc n = 2 ^ L).
      { unfold fi_trunc. rewrite He, Hq'. rewrite <- Z.pow_add_r by lia. f_equal. lia. }
      rewrite HT. rewrite Hq in *. rewrite <- Hpow in HB |- *.
      split; [lia|]. split; [reflexivity|]. split; [lia|]. split; [lia|].
      split; [right; split; [lia|reflexivity]|]. lia.
Qed.

Lemma from_int_total bd n : bindig_ok bd -> 0 <= n < 2 ^ 296 -> exists f, from_int bd n = FI f.
Proof.
  intros Hbd Hn. unfold from_int. destruct (Z.ltb_spec n 0); [lia|].
  destruct (Z.eqb_spec n 0); [eauto|]. unfold BITS_SIGNIFICANT, BITS_EXPONENT. change (2 ^ 8) with 256.
  assert (Z.log2 n < 296) by (apply Z.log2_lt_pow2; lia).
  assert (bd n <= 296) by (destruct (Hbd n ltac:(lia)) as [?|[? _]]; lia).
  destruct (Z.leb_spec (bd n - 40) 256); [|lia]. cbn [negb]. destruct (bd n - 40 <=? 0); eauto.
Qed.

Lemma from_int_overflow bd n : bindig_ok bd -> 2 ^ 296 + 2 ^ 256 <= n -> from_int bd n = FIName.
Proof.
  intros Hbd Hn. assert (P1 : 0 < 2 ^ 296) by (apply Z.pow_pos_nonneg; lia). assert (P2 : 0 < 2 ^ 256) by (apply Z.pow_pos_nonneg; lia).
  unfold from_int. destruct (Z.ltb_spec n 0); [lia|].
  destruct (Z.eqb_spec n 0); [lia|]. unfold BITS_SIGNIFICANT, BITS_EXPONENT. change (2 ^ 8) with 256.
  assert (HL : 296 <= Z.log2 n) by (apply Z.log2_le_pow2; lia).
  assert (297 <= bd n).
  { destruct (Hbd n ltac:(lia)) as [?|[? Hx]]; [lia|].
    destruct (Z.eq_dec (Z.log2 n) 296) as [E|]; [|lia]. rewrite E in Hx. change (296 - 40) with 256 in Hx. lia. }
  destruct (Z.leb_spec (bd n - 40) 256); [lia|]. reflexivity.
Qed.

Lemma from_int_small bd n : bindig_ok bd -> 0 <= n < 2 ^ 40 -> from_int bd n = FI (mkFloat n 0).
Proof.
  intros Hbd Hn. unfold from_int. destruct (Z.ltb_spec n 0); [lia|].
  destruct (Z.eqb_spec n 0) as [->|]; [reflexivity|]. unfold BITS_SIGNIFICANT, BITS_EXPONENT. change (2 ^ 8) with 256.
  assert (Z.log2 n < 40) by (apply Z.log2_lt_pow2; lia).
  assert (bd n <= 40) by (destruct (Hbd n ltac:(lia)) as [?|[? _]]; lia).
  destruct (Z.leb_spec (bd n - 40) 256); [|lia]. cbn [negb]. destruct (Z.leb_spec (bd n - 40) 0); [reflexivity|lia].
Qed.

(** the best approximation from below with 40 significant bits *)
Lemma fi_trunc_best n s k : 0 <= n -> 0 <= s < 2 ^ 40 -> 0 <= k -> s * 2 ^ k <= n -> s * 2 ^ k <= fi_trunc n.
Proof.
  intros Hn Hs Hk Hle. destruct (Z.eq_dec n 0) as [->|Hz].
  { unfold fi_trunc, fi_e. change (Z.log2 0) with 0. change (0 / 2 ^ Z.max 0 (0 - 39) * 2 ^ Z.max 0 (0 - 39)) with 0. exact Hle. }
  assert (Hl := Z.log2_spec n ltac:(lia)). assert (Hl0 := Z.log2_nonneg n).
  set (L := Z.log2 n) in *. unfold fi_trunc. assert (He : fi_e n = Z.max 0 (L - 39)) by reflexivity.
  set (e := fi_e n) in *. assert (Hp : 0 < 2 ^ e) by (apply Z.pow_pos_nonneg; lia).
  destruct (Z.le_gt_cases e k) as [Hek|Hek].
  - assert (H2 : s * 2 ^ k = (s * 2 ^ (k - e)) * 2 ^ e).
    { rewrite <- Z.mul_assoc, <- Z.pow_add_r by lia. do 2 f_equal. lia. }
    rewrite H2 in *. apply Z.mul_le_mono_nonneg_r; [lia|]. apply Z.div_le_lower_bound; lia.
  - assert (HL : L = e + 39) by lia.
    assert (H3 : s * 2 ^ k <= 2 ^ L).
    { transitivity (2 ^ 40 * 2 ^ (e - 1)).
      - apply Z.mul_le_mono_nonneg; [lia|lia|apply Z.pow_nonneg; lia|apply Z.pow_le_mono_r; lia].
      - rewrite <- Z.pow_add_r by lia. apply Z.pow_le_mono_r; lia. }
    transitivity (2 ^ L); [exact H3|].
    replace (2 ^ L) with (2 ^ 39 * 2 ^ e) in * by (rewrite <- Z.pow_add_r by lia; f_equal; lia).
    apply Z.mul_le_mono_nonneg_r; [lia|]. apply Z.div_le_lower_bound; lia.
Qed.

(** it is a number with 40 significant bits *)
Lemma fi_trunc_repr n : 0 <= n -> exists s k, 0 <= s < 2 ^ 40 /\ 0 <= k /\ fi_trunc n = s * 2 ^ k.
Proof.
  intros Hn. exists (n / 2 ^ fi_e n), (fi_e n). unfold fi_trunc.
  assert (He : 0 <= fi_e n) by (unfold fi_e; lia).
  assert (Hp : 0 < 2 ^ fi_e n) by (apply Z.pow_pos_nonneg; lia).
  repeat split; [apply Z.div_pos; lia| |lia].
  apply Z.div_lt_upper_bound; [lia|]. rewrite <- Z.pow_add_r by lia.
  destruct (Z.eq_dec n 0) as [->|]. { apply Z.pow_pos_nonneg; lia. }
  assert (Hl := Z.log2_spec n ltac:(lia)).
  eapply Z.lt_le_trans; [apply Hl|]. apply Z.pow_le_mono_r; [lia|]. unfold fi_e. lia.
Qed.

Lemma fi_trunc_idem n : 0 <= n -> fi_trunc (fi_trunc n) = fi_trunc n.
Proof.
  intros Hn. destruct (fi_trunc_repr n Hn) as (s & k & Hs & Hk & E).
  assert (H0 : 0 <= fi_trunc n) by (rewrite E; apply Z.mul_nonneg_nonneg; [lia|apply Z.pow_nonneg; lia]).
  apply Z.le_antisymm; [apply fi_trunc_bounds; exact H0|].
  rewrite E at 1. apply fi_trunc_best; try lia.
Qed.

Lemma fi_trunc_mono m n : 0 <= m <= n -> fi_trunc m <= fi_trunc n.
Proof.
  intros H. destruct (fi_trunc_repr m ltac:(lia)) as (s & k & Hs & Hk & E).
  assert (B := fi_trunc_bounds m ltac:(lia)).
  rewrite E. apply fi_trunc_best; lia.
Qed.

Lemma fi_trunc_rel n : 0 < n -> (n - fi_trunc n) * 2 ^ 39 < n.
Proof.
  intros Hn. assert (Hl := Z.log2_spec n ltac:(lia)). assert (B := fi_trunc_bounds n ltac:(lia)).
  destruct (Z.lt_ge_cases n (2 ^ 40)) as [H|H].
  - rewrite fi_trunc_small by assumption. lia.
  - assert (40 <= Z.log2 n) by (apply Z.log2_le_pow2; lia).
    assert (He : Z.log2 n = fi_e n + 39) by (unfold fi_e; lia).
    rewrite He in Hl. rewrite Z.pow_add_r in Hl by (unfold fi_e; lia). lia.
Qed.

Lemma from_int_width n f : from_int bindig_exact n = FI f -> 0 <= significant f < 2 ^ 40 /\ 0 <= exponent f <= 256.
Proof.
  intros E. destruct (from_int_ok _ _ _ bindig_exact_ok E) as (Hn & Ha & Hx & H256 & _ & Hs & _).
  split; [|lia]. split; [exact Hs|].
  destruct (Z.eq_dec n 0) as [->|Hz].
  { cbn in E. assert (f = mkFloat 0 0) by congruence. subst f. reflexivity. }
  assert (Hb : bindig_exact n = Z.log2 n + 1).
  { unfold bindig_exact. assert (H := Z.log2_spec n ltac:(lia)).
    apply Z.log2_up_unique; [assert (H0 := Z.log2_nonneg n); lia|].
    replace (Z.pred (Z.log2 n + 1)) with (Z.log2 n) by lia. lia. }
  revert E. unfold from_int. destruct (Z.ltb_spec n 0); [discriminate|]. destruct (Z.eqb_spec n 0); [lia|].
  destruct (negb _); [discriminate|]. rewrite Hb. unfold BITS_SIGNIFICANT.
  assert (Hl := Z.log2_spec n ltac:(lia)).
  destruct (Z.leb_spec (Z.log2 n + 1 - 40) 0); intros E.
  - assert (f = mkFloat n 0) by congruence. subst f. cbn [significant].
    eapply Z.lt_le_trans; [apply Hl|]. apply Z.pow_le_mono_r; lia.
  - assert (Hf : f = mkFloat (Z.shiftr n (Z.log2 n + 1 - 40)) (Z.log2 n + 1 - 40)) by congruence.
    subst f. cbn [significant]. rewrite Z.shiftr_div_pow2 by lia.
    apply Z.div_lt_upper_bound; [apply Z.pow_pos_nonneg; lia|]. rewrite <- Z.pow_add_r by lia.
    eapply Z.lt_le_trans; [apply Hl|]. apply Z.pow_le_mono_r; lia.
Qed.

(** ** version *)

Lemma require_nil al : require_version_lists [] al = true.
Proof. reflexivity. Qed.
Lemma require_cons r rl a al : require_version_lists (r :: rl) (a :: al) =
  if a <? r then false else if r <? a then true else require_version_lists rl al.
Proof.
  unfold require_version_lists. cbn [combine version_loop]. destruct (a <? r); [reflexivity|].
  destruct (r <? a); reflexivity.
Qed.
Lemma require_cons_nil r rl : require_version_lists (r :: rl) [] = false.
Proof. reflexivity. Qed.

Lemma require_iff rl al : require_version_lists rl al = true <-> lex_le rl al.
Proof.
  revert al. induction rl as [|r rl IH]; intros al.
  - split; [constructor|reflexivity].
  - destruct al as [|a al].
    + rewrite require_cons_nil. split; [discriminate|]. inversion 1.
    + rewrite require_cons. destruct (Z.ltb_spec a r).
      * split; [discriminate|]. inversion 1; subst; lia.
      * destruct (Z.ltb_spec r a).
        -- split; [intros _; constructor; assumption|reflexivity].
        -- assert (a = r) by lia. subst a. rewrite IH. split; [constructor 3; assumption|].
           inversion 1; subst; [lia|assumption].
Qed.

Lemma lex_refl l : lex_le l l.
Proof. induction l; [constructor|constructor 3; assumption]. Qed.
Lemma lex_trans l m n : lex_le l m -> lex_le m n -> lex_le l n.
Proof.
  intros H. revert n. induction H; intros n Hn.
  - constructor.
  - inversion Hn; subst; [constructor 2; lia|constructor 2; assumption].
  - inversion Hn; subst; [constructor 2; assumption|constructor 3; apply IHlex_le; assumption].
Qed.
Lemma lex_total l m : lex_le l m \/ lex_le m l.
Proof.
  revert m. induction l as [|a l IH]; intros m; [left; constructor|].
  destruct m as [|b m]; [right; constructor|].
  destruct (Z.lt_trichotomy a b) as [|[->|]]; [left; constructor 2; assumption| |right; constructor 2; assumption].
  destruct (IH m); [left|right]; constructor 3; assumption.
Qed.
Lemma lex_antisym l m : lex_le l m -> lex_le m l -> l = m.
Proof.
  intros H. induction H; intros H'.
  - inversion H'. reflexivity.
  - inversion H'; subst; lia.
  - inversion H'; subst; [lia|]. f_equal. apply IHlex_le. assumption.
Qed.
Lemma lex_prefix l z r : ~ lex_le (l ++ z :: r) l.
Proof.
  induction l as [|a l IH]; cbn; intros H; [inversion H|]. inversion H; subst; [lia|]. apply IH. assumption.
Qed.

(** decimal numbers *)
Lemma digit_is_digit c v : digit c v -> is_digit c = true /\ Z.of_nat (nat_of_ascii c) - 48 = v /\ c <> "."%char.
Proof.
  unfold digit. cbn [In]. intros H.
  repeat (destruct H as [H|H]; [injection H as <- <-; vm_compute; repeat split; congruence|]). destruct H.
Qed.
Lemma is_digit_digit c : is_digit c = true -> digit c (Z.of_nat (nat_of_ascii c) - 48).
Proof.
  unfold is_digit. intros H. apply andb_true_iff in H as [H1 H2]. apply Nat.leb_le in H1, H2.
  rewrite <- (ascii_nat_embedding c) at 1. set (n := nat_of_ascii c) in *. clearbody n.
  assert (H : (n = 48 \/ n = 49 \/ n = 50 \/ n = 51 \/ n = 52 \/ n = 53 \/ n = 54 \/ n = 55 \/ n = 56 \/ n = 57)%nat) by lia.
  unfold digit. cbn [In].
  repeat (destruct H as [H|H]; [subst n; vm_compute; tauto|]). subst n. vm_compute. tauto.
Qed.
Lemma digit_fun c v w : digit c v -> digit c w -> v = w.
Proof. intros H1 H2. apply digit_is_digit in H1, H2. lia. Qed.

Lemma digits_value_app acc s n c v : digits_value acc s = Some n -> digit c v ->
  digits_value acc (s ++ String c "") = Some (10 * n + v).
Proof.
  intros H Hd. apply digit_is_digit in Hd as (H1 & H2 & _). revert acc H.
  induction s as [|a s IH]; intros acc H; cbn [digits_value append] in *.
  - rewrite H1, H2. injection H as ->. reflexivity.
  - destruct (is_digit a); [|discriminate]. apply IH. exact H.
Qed.
Lemma py_int_decimal s n : decimal s n -> py_int s = Some n.
Proof.
  intros H. assert (G : digits_value 0 s = Some n /\ s <> EmptyString).
  { induction H.
    - apply digit_is_digit in H as (H1 & H2 & _). cbn [digits_value]. rewrite H1, H2. split; [f_equal|discriminate].
    - split; [apply digits_value_app; tauto|]. destruct s; discriminate. }
  destruct G as [G1 G2]. unfold py_int. destruct s; [congruence|exact G1].
Qed.
(** strings taken apart from the right *)
Lemma app_nil_r_s s : (s ++ "" = s)%string.
Proof. induction s; cbn; congruence. Qed.
Lemma app_assoc_s a b c : ((a ++ b) ++ c = a ++ b ++ c)%string.
Proof. induction a; cbn; congruence. Qed.
Lemma str_rev_ind (P : string -> Prop) : P EmptyString -> (forall s c, P s -> P (s ++ String c "")%string) -> forall s, P s.
Proof.
  intros H0 HS s. assert (G : forall t a, P a -> P (a ++ t)%string).
  { induction t as [|c t IH]; intros a Ha; [rewrite app_nil_r_s; exact Ha|].
    replace (a ++ String c t)%string with ((a ++ String c "") ++ t)%string by (rewrite app_assoc_s; reflexivity).
    apply IH, HS, Ha. }
  exact (G s EmptyString H0).
Qed.
Lemma digits_value_app_inv acc s c n : digits_value acc (s ++ String c "") = Some n ->
  exists m v, digits_value acc s = Some m /\ digit c v /\ n = 10 * m + v.
Proof.
  revert acc. induction s as [|a s IH]; intros acc H; cbn [digits_value append] in *.
  - destruct (is_digit c) eqn:E; [|discriminate]. injection H as <-.
    exists acc, (Z.of_nat (nat_of_ascii c) - 48). repeat split. apply is_digit_digit. exact E.
  - destruct (is_digit a); [|discriminate]. apply IH. exact H.
Qed.
Lemma py_int_inv s n : py_int s = Some n -> decimal s n.
Proof.
  revert n. induction s as [|s c IH] using str_rev_ind; intros n H; [discriminate|].
  assert (H' : digits_value 0 (s ++ String c "") = Some n).
  { revert H. unfold py_int. destruct (s ++ String c "")%string; [discriminate|]. auto. }
  apply digits_value_app_inv in H' as (m & v & H1 & H2 & ->).
  destruct s as [|a s].
  - cbn [digits_value] in H1. injection H1 as <-. cbn [append]. constructor. exact H2.
  - constructor; [|exact H2]. apply IH. exact H1.
Qed.

(** splitting *)
Fixpoint nodot (s : string) : bool :=
  match s with EmptyString => true | String c s => negb (Ascii.eqb c ".") && nodot s end.
Lemma split_dot_nonempty s : split_dot s <> [].
Proof. destruct s as [|c s]; cbn; [discriminate|]. destruct (Ascii.eqb c "."); [discriminate|]. destruct (split_dot s); discriminate. Qed.
Lemma split_dot_one s : nodot s = true -> split_dot s = [s].
Proof.
  induction s as [|c s IH]; intros H; [reflexivity|]. cbn in *. apply andb_true_iff in H as [H1 H2].
  destruct (Ascii.eqb c "."); [discriminate|]. rewrite IH by exact H2. reflexivity.
Qed.
Lemma split_dot_cons s t : nodot s = true -> split_dot (s ++ String "." t) = s :: split_dot t.
Proof.
  induction s as [|c s IH]; intros H; [reflexivity|]. cbn in *. apply andb_true_iff in H as [H1 H2].
  destruct (Ascii.eqb c "."); [discriminate|]. rewrite IH by exact H2. reflexivity.
Qed.
Lemma split_dot_join s : join_dots (split_dot s) = s /\ Forall (fun w => nodot w = true) (split_dot s).
Proof.
  induction s as [|c s [IH1 IH2]]; [split; [reflexivity|constructor; [reflexivity|constructor]]|].
  cbn [split_dot]. destruct (Ascii.eqb_spec c ".") as [->|Hc].
  - split; [|constructor; [reflexivity|exact IH2]]. cbn [join_dots].
    destruct (split_dot s) eqn:E; [exfalso; eapply split_dot_nonempty; exact E|]. rewrite IH1. reflexivity.
  - destruct (split_dot s) as [|w ws] eqn:E; [exfalso; eapply split_dot_nonempty; exact E|].
    inversion IH2; subst. split.
    + destruct ws; cbn [join_dots] in *; cbn [append]; reflexivity.
    + constructor; [|assumption]. cbn. rewrite H1. destruct (Ascii.eqb_spec c "."); [congruence|reflexivity].
Qed.

Lemma decimal_nodot s n : decimal s n -> nodot s = true.
Proof.
  induction 1.
  - apply digit_is_digit in H as (_ & _ & H). cbn. destruct (Ascii.eqb_spec c "."); [congruence|reflexivity].
  - apply digit_is_digit in H0 as (_ & _ & H0). revert IHdecimal. clear H. induction s as [|a s IH]; cbn.
    + intros _. destruct (Ascii.eqb_spec c "."); [congruence|reflexivity].
    + intros G. apply andb_true_iff in G as [-> G]. apply IH. exact G.
Qed.
Fixpoint vchars (s : string) : bool :=
  match s with EmptyString => true | String c s => is_version_char c && vchars s end.
Lemma vchars_app a b : vchars (a ++ b) = vchars a && vchars b.
Proof. induction a; cbn; [reflexivity|]. rewrite IHa. apply andb_assoc. Qed.
Lemma decimal_vchars s n : decimal s n -> vchars s = true.
Proof.
  induction 1.
  - apply digit_is_digit in H as (H & _). cbn. unfold is_version_char. rewrite H. reflexivity.
  - rewrite vchars_app, IHdecimal. apply digit_is_digit in H0 as (H0 & _). cbn. unfold is_version_char. rewrite H0. reflexivity.
Qed.
Lemma version_prefix_app a b : vchars a = true -> version_rest b -> version_prefix (a ++ b) = a.
Proof.
  intros Ha Hb. induction a as [|c a IH]; cbn in *.
  - destruct b as [|c b]; [reflexivity|]. cbn in *. destruct Hb as [H1 H2]. unfold is_version_char.
    destruct (is_digit c) eqn:E; [exfalso; exact (H2 _ (is_digit_digit _ E))|].
    destruct (Ascii.eqb_spec c "."); [congruence|reflexivity].
  - apply andb_true_iff in Ha as [H1 H2]. rewrite H1, IH by exact H2. reflexivity.
Qed.
Lemma version_prefix_inv s : exists b, s = (version_prefix s ++ b)%string /\ version_rest b.
Proof.
  induction s as [|c s (b & IH & Hb)]; [exists EmptyString; split; [reflexivity|exact I]|].
  cbn [version_prefix]. destruct (is_version_char c) eqn:E.
  - exists b. cbn. rewrite <- IH. split; [reflexivity|exact Hb].
  - exists (String c s). split; [reflexivity|]. unfold is_version_char in E. apply orb_false_iff in E as [E1 E2].
    split.
    + intros ->. discriminate.
    + intros v H. apply digit_is_digit in H as (H & _). congruence.
Qed.

Lemma is_space_white c : is_space c = true <-> white c.
Proof.
  unfold is_space, white. rewrite orb_true_iff, !andb_true_iff, !Nat.leb_le. cbn [In].
  set (n := nat_of_ascii c). lia.
Qed.
Lemma space_not_version c : is_space c = true -> is_version_char c = false.
Proof.
  unfold is_space, is_version_char, is_digit. intros H.
  destruct (Ascii.eqb_spec c "."); [subst c; vm_compute in H; discriminate|].
  rewrite orb_true_iff, !andb_true_iff, !Nat.leb_le in H. rewrite orb_false_r.
  apply andb_false_iff. rewrite !Nat.leb_gt. lia.
Qed.
Lemma lstrip_app a s : all_chars white a -> lstrip (a ++ s) = lstrip s.
Proof.
  induction a as [|c a IH]; cbn; [reflexivity|]. intros [H1 H2]. apply is_space_white in H1. rewrite H1. apply IH. exact H2.
Qed.
Lemma lstrip_inv s : exists a, s = (a ++ lstrip s)%string /\ all_chars white a.
Proof.
  induction s as [|c s (a & IH & Ha)]; [exists EmptyString; split; [reflexivity|exact I]|].
  cbn [lstrip]. destruct (is_space c) eqn:E.
  - exists (String c a). cbn. rewrite <- IH. split; [reflexivity|]. split; [apply is_space_white; exact E|exact Ha].
  - exists EmptyString. split; [reflexivity|exact I].
Qed.

Lemma map_opt_iff {A B} (f : A -> option B) l ys : map_opt f l = Some ys <-> Forall2 (fun x y => f x = Some y) l ys.
Proof.
  revert ys. induction l as [|x l IH]; intros ys; cbn.
  - split; [intros E; injection E as <-; constructor|inversion 1; reflexivity].
  - destruct (f x) as [y|] eqn:E.
    + destruct (map_opt f l) as [zs|] eqn:Em.
      * split; [intros E'; injection E' as <-; constructor; [exact E|apply IH; reflexivity]|].
        inversion 1; subst. apply IH in H4. congruence.
      * split; [discriminate|]. inversion 1; subst. apply IH in H4. congruence.
    + split; [discriminate|]. inversion 1; subst. congruence.
Qed.

Lemma join_vchars ss zs : Forall2 decimal ss zs -> vchars (join_dots ss) = true.
Proof.
  induction 1 as [|s z ss zs Hd _ IH]; [reflexivity|]. cbn [join_dots]. destruct ss as [|s' ss]; [eapply decimal_vchars; exact Hd|].
  rewrite vchars_app, (decimal_vchars _ _ Hd). cbn. exact IH.
Qed.
Lemma split_join ss zs : ss <> [] -> Forall2 decimal ss zs -> split_dot (join_dots ss) = ss.
Proof.
  intros Hne H. induction H as [|s z ss zs Hd Hf IH]; [congruence|]. cbn [join_dots]. destruct ss as [|s' ss].
  - apply split_dot_one. eapply decimal_nodot; exact Hd.
  - cbn [append]. rewrite split_dot_cons by (eapply decimal_nodot; exact Hd). f_equal. apply IH. discriminate.
Qed.

Lemma lstrip_join ss zs rest : ss <> [] -> Forall2 decimal ss zs -> lstrip (join_dots ss ++ rest) = (join_dots ss ++ rest)%string.
Proof.
  intros Hne H. assert (Hv := join_vchars _ _ H).
  assert (Hn : join_dots ss <> EmptyString).
  { destruct H; [congruence|]. cbn. assert (x <> EmptyString) by (destruct H; [discriminate|destruct s; discriminate]).
    destruct l; [assumption|]. destruct x; [congruence|discriminate]. }
  destruct (join_dots ss) as [|c w]; [congruence|]. cbn in *. apply andb_true_iff in Hv as [Hv _].
  destruct (is_space c) eqn:E; [|reflexivity]. apply space_not_version in E. congruence.
Qed.

Lemma split_version_iff s zs : split_version_str s = Some zs <->
  exists sp ss rest, s = (sp ++ join_dots ss ++ rest)%string /\ all_chars white sp /\ version_rest rest /\
    ss <> [] /\ Forall2 decimal ss zs.
Proof.
  unfold split_version_str. rewrite map_opt_iff. split.
  - intros H. destruct (lstrip_inv s) as (a & E1 & Ha). destruct (version_prefix_inv (lstrip s)) as (b & E2 & Hb).
    exists a, (split_dot (version_prefix (lstrip s))), b.
    destruct (split_dot_join (version_prefix (lstrip s))) as [EJ _]. rewrite EJ, <- E2.
    repeat split; try assumption; [apply split_dot_nonempty|].
    revert H. generalize (split_dot (version_prefix (lstrip s))). intros l H.
    induction H; constructor; [apply py_int_inv|]; assumption.
  - intros (sp & ss & rest & -> & Hsp & Hr & Hne & H).
    rewrite lstrip_app by exact Hsp. rewrite (lstrip_join _ _ _ Hne H).
    rewrite version_prefix_app by (try exact Hr; eapply join_vchars; exact H).
    rewrite (split_join _ _ Hne H). induction H as [|s z ss zs Hd Hf IH]; constructor; [apply py_int_decimal; exact Hd|].
    destruct ss; [inversion Hf; constructor|]. apply IH. discriminate.
Qed.

(** ** check_uint256 *)

Lemma warn_between : 10000 < OVERFLOW_WARN < 2 ^ 256.
Proof. unfold OVERFLOW_WARN. split; vm_compute; reflexivity. Qed.

Lemma check_default rl n : 2 < rl -> check_uint256 rl n = SolReturn (Z.max 0 n).
Proof.
  intros H. unfold check_uint256, raise_f, LVL_LOG, LVL_WARN, LVL_ERR.
  destruct (Z.ltb_spec 2 rl); [|lia]. destruct (Z.ltb_spec 1 rl); [|lia]. destruct (Z.ltb_spec 0 rl); [|lia].
  destruct (Z.ltb_spec n 0); [f_equal; lia|]. rewrite Z.max_r by lia.
  repeat (match goal with |- context [if ?b then _ else _] => destruct b end; try reflexivity).
Qed.

Lemma check_err n : check_uint256 2 n =
  if (n <? 0) || (2 ^ 256 <=? n) then SolRaise true 2 else if n <? 100 then SolRaise false 2 else SolReturn n.
Proof.
  unfold check_uint256, raise_f, LVL_LOG, LVL_WARN, LVL_ERR, UNDERFLOW_ERR, UNDERFLOW_WARN, OVERFLOW_ERR.
  change (2 <? 2) with false. change (1 <? 2) with true. change (0 <? 2) with true. cbn [orb Z.eqb].
  change (2 =? 1) with false. change (2 =? 2) with true. cbn [orb].
  assert (P : 10000 < 2 ^ 256) by (vm_compute; reflexivity).
  set (M := 2 ^ 256) in *. clearbody M.
  destruct (Z.ltb_spec n 0); [reflexivity|]. cbn [orb].
  destruct (Z.ltb_spec n 100).
  - destruct (Z.leb_spec M n); [lia|reflexivity].
  - destruct (Z.ltb_spec n 10000).
    + destruct (Z.leb_spec M n); [lia|reflexivity].
    + destruct (Z.leb_spec M n); [reflexivity|]. destruct (OVERFLOW_WARN <=? n); reflexivity.
Qed.

Lemma check_warn n r : check_uint256 1 n = SolReturn r <-> r = n /\ 10000 <= n < OVERFLOW_WARN.
Proof.
  assert (HW := warn_between). unfold check_uint256, raise_f, LVL_LOG, LVL_WARN, LVL_ERR, UNDERFLOW_ERR, UNDERFLOW_WARN, OVERFLOW_ERR.
  change (2 <? 1) with false. change (1 <? 1) with false. change (0 <? 1) with true.
  change (2 =? 1) with false. change (2 =? 2) with true. change (1 =? 1) with true. cbn [orb].
  set (M := 2 ^ 256) in *. clearbody M. set (W := OVERFLOW_WARN) in *. clearbody W.
  destruct (Z.ltb_spec n 0); [split; [discriminate|lia]|].
  destruct (Z.ltb_spec n 100); [split; [discriminate|lia]|].
  destruct (Z.ltb_spec n 10000); [split; [discriminate|lia]|].
  destruct (Z.leb_spec M n); [split; [discriminate|lia]|].
  destruct (Z.leb_spec W n); [split; [discriminate|lia]|].
  split; [intros E; injection E as <-; lia|intros [-> _]; reflexivity].
Qed.

Lemma check_log n : 10000 <= n < OVERFLOW_WARN -> check_uint256 0 n = SolKeyError.
Proof.
  intros Hn. assert (HW := warn_between). unfold check_uint256, raise_f, LVL_LOG, LVL_WARN, LVL_ERR, UNDERFLOW_ERR, UNDERFLOW_WARN, OVERFLOW_ERR.
  set (M := 2 ^ 256) in *. clearbody M. set (W := OVERFLOW_WARN) in *. clearbody W.
  destruct (Z.ltb_spec n 0); [lia|]. destruct (Z.ltb_spec n 100); [lia|]. destruct (Z.ltb_spec n 10000); [lia|].
  destruct (Z.leb_spec M n); [lia|]. destruct (Z.leb_spec W n); [lia|]. reflexivity.
Qed.

(** ** ticks *)

Lemma tickab_of_ok t s a b : 0 < s -> tickab_of t s = (a, b) ->
  (s | a) /\ (s | b) /\ b = a + s /\ a <= t < b.
Proof.
  intros Hs E. unfold tickab_of in E. injection E as <- <-.
  assert (H1 := Z.div_mod t s ltac:(lia)). assert (H2 := Z.mod_pos_bound t s Hs).
  split; [exists (t / s); lia|]. split; [exists (t / s + 1); lia|]. split; [reflexivity|]. lia.
Qed.

Lemma ticksize_cases f s : ticksize f = Some s <->
  (f = 100 /\ s = 1) \/ (f = 500 /\ s = 10) \/ (f = 3000 /\ s = 60) \/ (f = 10000 /\ s = 200).
Proof.
  unfold ticksize.
  destruct (Z.eqb_spec f 100); [split; [intros E; injection E as <-; lia|intros H; f_equal; lia]|].
  destruct (Z.eqb_spec f 500); [split; [intros E; injection E as <-; lia|intros H; f_equal; lia]|].
  destruct (Z.eqb_spec f 3000); [split; [intros E; injection E as <-; lia|intros H; f_equal; lia]|].
  destruct (Z.eqb_spec f 10000); [split; [intros E; injection E as <-; lia|intros H; f_equal; lia]|].
  split; [discriminate|lia].
Qed.

(** ** pairs *)

Lemma string_compare_refl s : String.compare s s = Eq.
Proof.
  assert (H := String.compare_antisym s s). destruct (String.compare s s); [reflexivity|discriminate H|discriminate H].
Qed.
Lemma ltb_antisym b q : b <> q -> String.ltb b q = negb (String.ltb q b).
Proof.
  intros H. unfold String.ltb. rewrite (String.compare_antisym q b).
  destruct (String.compare b q) eqn:E; cbn; try reflexivity.
  apply String.compare_eq_iff in E. contradiction.
Qed.
Lemma ltb_irrefl b : String.ltb b b = false.
Proof. unfold String.ltb. rewrite string_compare_refl. reflexivity. Qed.

Lemma isprimary_flip norm b q : b <> q -> isprimary norm q b = negb (isprimary norm b q).
Proof.
  intros H. unfold isprimary. rewrite Z.eqb_sym.
  destruct (Z.eqb_spec (numeraire_index (norm q)) (numeraire_index (norm b))) as [E|E].
  - apply ltb_antisym. congruence.
  - destruct (Z.ltb_spec (numeraire_index (norm b)) (numeraire_index (norm q)));
    destruct (Z.ltb_spec (numeraire_index (norm q)) (numeraire_index (norm b))); cbn; lia || reflexivity.
Qed.
Lemma isprimary_same norm b : isprimary norm b b = false.
Proof. unfold isprimary. rewrite Z.eqb_refl. apply ltb_irrefl. Qed.

Lemma index_from_range i l t : 0 <= i -> i + Z.of_nat (List.length l) < 10000000000 ->
  (In t l -> i <= index_from i l t < i + Z.of_nat (List.length l)) /\
  (~ In t l -> index_from i l t = 10000000000).
Proof.
  revert i. induction l as [|x l IH]; intros i Hi Hl; cbn [index_from List.length In] in *.
  - split; [intros []|reflexivity].
  - destruct (String.eqb_spec x t) as [->|Hx].
    + split; [lia|intros H; exfalso; apply H; left; reflexivity].
    + destruct (IH (i + 1)) as [I1 I2]; [lia|lia|]. split.
      * intros [?|H]; [congruence|]. specialize (I1 H). lia.
      * intros H. apply I2. tauto.
Qed.

Lemma numeraire_quote norm b q : In (norm q) NUMERAIRE -> ~ In (norm b) NUMERAIRE ->
  isprimary norm b q = true /\ isprimary norm q b = false.
Proof.
  intros Hq Hb. assert (L : List.length NUMERAIRE = 18%nat) by reflexivity.
  destruct (index_from_range 0 NUMERAIRE (norm q)) as [I1 _]; [lia|rewrite L; lia|].
  destruct (index_from_range 0 NUMERAIRE (norm b)) as [_ I2]; [lia|rewrite L; lia|].
  specialize (I1 Hq). specialize (I2 Hb). rewrite L in I1.
  unfold isprimary, numeraire_index. rewrite I2.
  destruct (Z.eqb_spec (index_from 0 NUMERAIRE (norm q)) 10000000000); [lia|].
  destruct (Z.eqb_spec 10000000000 (index_from 0 NUMERAIRE (norm q))); [lia|].
  destruct (Z.ltb_spec (index_from 0 NUMERAIRE (norm q)) 10000000000); [|lia].
  destruct (Z.ltb_spec 10000000000 (index_from 0 NUMERAIRE (norm q))); [lia|]. tauto.
Qed.

Lemma index_from_split t l1 l2 : forall i, ~ In t l1 -> index_from i (l1 ++ t :: l2) t = i + Z.of_nat (List.length l1).
Proof.
  induction l1 as [|a l1 IH]; intros i N; cbn [app index_from List.length].
  - rewrite String.eqb_refl. lia.
  - destruct (String.eqb_spec a t) as [->|_]; [exfalso; apply N; left; reflexivity|]. rewrite IH by (intros X; apply N; right; exact X). lia.
Qed.
Lemma numeraire_rank norm b q l1 l2 : NUMERAIRE = (l1 ++ norm q :: l2)%list -> In (norm b) l2 -> isprimary norm b q = true /\ isprimary norm q b = false.
Proof.
  intros E I1. assert (ND : NoDup NUMERAIRE).
  { unfold NUMERAIRE. repeat (constructor; [cbn [In]; intros X; repeat (destruct X as [X|X]; [discriminate|]); exact X|]). constructor. }
  destruct (in_split _ _ I1) as (m1 & m2 & E2).
  assert (D1 : ~ In (norm q) l1 /\ ~ In (norm b) (l1 ++ norm q :: m1)).
  { rewrite E in ND. split; [intros X; apply NoDup_remove_2 in ND; apply ND, in_app_iff; left; exact X|].
    rewrite E2 in ND. replace (l1 ++ norm q :: m1 ++ norm b :: m2)%list with ((l1 ++ norm q :: m1) ++ norm b :: m2)%list in ND by (rewrite <- app_assoc; reflexivity).
    intros X. apply NoDup_remove_2 in ND. apply ND, in_app_iff. left. exact X. }
  destruct D1 as [D1 D2]. unfold isprimary, numeraire_index.
  assert (Q : index_from 0 NUMERAIRE (norm q) = Z.of_nat (List.length l1)) by (rewrite E, index_from_split by exact D1; lia).
  assert (B : index_from 0 NUMERAIRE (norm b) = Z.of_nat (List.length l1) + 1 + Z.of_nat (List.length m1)).
  { rewrite E, E2. replace (l1 ++ norm q :: m1 ++ norm b :: m2)%list with ((l1 ++ norm q :: m1) ++ norm b :: m2)%list by (rewrite <- app_assoc; reflexivity).
    rewrite index_from_split by exact D2. rewrite app_length. cbn [List.length]. lia. }
  rewrite Q, B. clear. set (a := Z.of_nat (List.length l1)). set (m := Z.of_nat (List.length m1)). assert (0 <= m) by (unfold m; lia). clearbody a m.
  rewrite (proj2 (Z.eqb_neq a (a + 1 + m))) by lia. rewrite (proj2 (Z.eqb_neq (a + 1 + m) a)) by lia.
  split; [apply Z.ltb_lt; lia|apply Z.ltb_ge; lia].
Qed.
Lemma alphabetical norm b q : norm b = norm q \/ (~ In (norm b) NUMERAIRE /\ ~ In (norm q) NUMERAIRE) -> isprimary norm b q = true <-> String.compare b q = Lt.
Proof.
  intros H. assert (E : numeraire_index (norm q) = numeraire_index (norm b)).
  { destruct H as [->|[Hb Hq]]; [reflexivity|]. assert (L : List.length NUMERAIRE = 18%nat) by reflexivity. unfold numeraire_index.
    destruct (index_from_range 0 NUMERAIRE (norm q)) as [_ I1]; [lia|rewrite L; lia|]. destruct (index_from_range 0 NUMERAIRE (norm b)) as [_ I2]; [lia|rewrite L; lia|].
    rewrite (I1 Hq), (I2 Hb). reflexivity. }
  unfold isprimary. rewrite E, Z.eqb_refl. unfold String.ltb. destruct (String.compare b q); split; congruence.
Qed.

Lemma before_none x s : ~ has_char x s -> before x s = s.
Proof.
  induction s as [|c s IH]; cbn; intros H; [reflexivity|].
  destruct (Ascii.eqb_spec c x) as [->|]; [tauto|]. f_equal. apply IH. tauto.
Qed.
Lemma before_sub x y s : has_char x (before y s) -> has_char x s.
Proof.
  induction s as [|c s IH]; cbn; [tauto|]. destruct (Ascii.eqb c y); cbn; [tauto|]. intros [H|H]; tauto.
Qed.
Lemma norm_agree s : ~ has_char "(" s -> norm_simple s = norm_cpc s.
Proof. intros H. unfold norm_simple, norm_cpc. apply before_none. intros H'. apply H. eapply before_sub. exact H'. Qed.

(** ** token scale *)
Lemma dct_get_set k k' v d : dct_get k' (dct_set k v d) = if String.eqb k k' then Some v else dct_get k' d.
Proof.
  induction d as [|(k0, v0) d IH]; cbn.
  - reflexivity.
  - destruct (String.eqb_spec k0 k) as [->|H]; cbn.
    + destruct (String.eqb k k'); reflexivity.
    + destruct (String.eqb_spec k0 k') as [->|H']; [|exact IH].
      destruct (String.eqb_spec k k'); [congruence|reflexivity].
Qed.
