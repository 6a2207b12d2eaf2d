(** Properties of the helper modules: float integers (C44), version checks (C45), uint256
    checks (C46), tick ranges (C47), primary pairs (C48), token scales (C72). *)
From Coq Require Import ZArith QArith Qfield Lia List Bool Ascii String.
From Verif Require Import PairModel PairSpec PairProofs HelperModel HelperSpec HelperProofs.
Import ListNotations.
Local Open Scope Z_scope.

(** * C44: CarbonFloatInt *)

(** The stored value does not exceed the number and is off by less than 2^exponent. *)
Theorem C44_error : forall bd n f, bindig_ok bd -> from_int bd n = FI f ->
  asint f <= n < asint f + 2 ^ exponent f.
Proof. intros bd n f H E. apply (from_int_ok bd n f H E). Qed.

(** It is a number with at most 40 significant bits, and the largest such number that
    does not exceed the given one. *)
Theorem C44_best : forall bd n f, bindig_ok bd -> from_int bd n = FI f ->
  (exists s k, 0 <= s < 2 ^ 40 /\ 0 <= k /\ asint f = s * 2 ^ k) /\
  (forall s k, 0 <= s < 2 ^ 40 -> 0 <= k -> s * 2 ^ k <= n -> s * 2 ^ k <= asint f).
Proof.
  intros bd n f H E. destruct (from_int_ok bd n f H E) as (Hn & -> & _). split.
  - apply fi_trunc_repr. exact Hn.
  - intros s k. apply fi_trunc_best. exact Hn.
Qed.

(** The relative error is below 2^-39. *)
Theorem C44_relative : forall bd n f, bindig_ok bd -> 0 < n -> from_int bd n = FI f ->
  (n - asint f) * 2 ^ 39 < n.
Proof. intros bd n f H Hn E. destruct (from_int_ok bd n f H E) as (_ & -> & _). apply fi_trunc_rel. exact Hn. Qed.

(** Numbers below 2^40 are stored exactly. *)
Theorem C44_exact : forall bd n, bindig_ok bd -> 0 <= n < 2 ^ 40 -> from_int bd n = FI (mkFloat n 0).
Proof. exact from_int_small. Qed.

(** Storing the stored value again changes nothing. *)
Theorem C44_idempotent : forall bd n f, bindig_ok bd -> 0 <= n < 2 ^ 296 -> from_int bd n = FI f ->
  exists g, from_int bd (asint f) = FI g /\ asint g = asint f.
Proof.
  intros bd n f H Hn E. destruct (from_int_ok bd n f H E) as (_ & Ha & _ & _ & _ & Hs & Hb).
  assert (H0 : 0 <= asint f) by (unfold asint; apply Z.shiftl_nonneg; exact Hs).
  destruct (from_int_total bd (asint f) H) as [g Hg]; [lia|]. exists g. split; [exact Hg|].
  destruct (from_int_ok bd _ g H Hg) as (_ & -> & _). rewrite Ha. apply fi_trunc_idem. lia.
Qed.

(** The conversion is monotone. *)
Theorem C44_monotone : forall bd m n f g, bindig_ok bd -> m <= n ->
  from_int bd m = FI f -> from_int bd n = FI g -> asint f <= asint g.
Proof.
  intros bd m n f g H Hmn Ef Eg. destruct (from_int_ok bd m f H Ef) as (Hm & -> & _).
  destruct (from_int_ok bd n g H Eg) as (_ & -> & _). apply fi_trunc_mono. lia.
Qed.

(** Two implementations of "number of binary digits" that satisfy the specification (for
    example with and without floating point rounding) store the same value. *)
Theorem C44_independent : forall bd bd' n f g, bindig_ok bd -> bindig_ok bd' ->
  from_int bd n = FI f -> from_int bd' n = FI g -> asint f = asint g.
Proof.
  intros bd bd' n f g H H' E E'. destruct (from_int_ok bd n f H E) as (_ & -> & _).
  destruct (from_int_ok bd' n g H' E') as (_ & -> & _). reflexivity.
Qed.

(** Which numbers are accepted; too large ones end in a NameError. *)
Theorem C44_domain : forall bd n, bindig_ok bd ->
  (n < 0 -> from_int bd n = FIAssertion) /\
  (0 <= n < 2 ^ 296 -> exists f, from_int bd n = FI f) /\
  (2 ^ 296 + 2 ^ 256 <= n -> from_int bd n = FIName).
Proof.
  intros bd n H. split; [|split].
  - intros Hn. unfold from_int. destruct (Z.ltb_spec n 0); [reflexivity|lia].
  - apply from_int_total. exact H.
  - apply from_int_overflow. exact H.
Qed.

(** Without rounding error the significant fits into 40 bits and the exponent is at most
    256; max() is the largest value whose exponent fits into 8 bits. *)
Theorem C44_width : forall n f, from_int bindig_exact n = FI f ->
  0 <= significant f < 2 ^ 40 /\ 0 <= exponent f <= 256 /\
  (exponent f < 2 ^ 8 -> asint f <= asint (fi_max 0)).
Proof.
  intros n f E. destruct (from_int_width n f E) as [H1 H2]. split; [exact H1|]. split; [exact H2|].
  change (2 ^ 8) with 256. intros H3. unfold asint, fi_max. cbn [significant exponent]. rewrite !Z.shiftl_mul_pow2 by (unfold BITS_EXPONENT; lia).
  apply Z.mul_le_mono_nonneg; [lia| |apply Z.pow_nonneg; lia|].
  - unfold BITS_SIGNIFICANT. lia.
  - apply Z.pow_le_mono_r; [lia|]. unfold BITS_EXPONENT. lia.
Qed.

(** min() is the smallest positive value and is exact *)
Theorem C44_smallest : asint (fi_min 0) = 1 /\ (forall f, 0 < significant f -> 0 <= exponent f -> asint (fi_min 0) <= asint f) /\ (forall bd, bindig_ok bd -> from_int bd 1 = FI (fi_min 0)) /\ (forall k, asint (fi_min k) = 1 + k).
Proof.
  split; [reflexivity|]. split; [|split].
  - intros f H1 H2. change (asint (fi_min 0)) with 1. unfold asint. rewrite Z.shiftl_mul_pow2 by exact H2. assert (0 < 2 ^ exponent f) by (apply Z.pow_pos_nonneg; lia). nia.
  - intros bd H. apply C44_exact; [exact H|lia].
  - intros k. reflexivity.
Qed.
Print Assumptions C44_smallest.
(** The claim "the exponent always fits into BITS_EXPONENT = 8 bits" is false. *)
Theorem C44_exponent_fits_refuted : exists n f, from_int bindig_exact n = FI f /\ 2 ^ BITS_EXPONENT <= exponent f.
Proof. exists (2 ^ 295), (mkFloat (2 ^ 39) 256). split; vm_compute; [reflexivity|discriminate]. Qed.

Example C44_ex : bindig_ok bindig_exact /\
  from_int bindig_exact (2 ^ 40 + 1) = FI (mkFloat (2 ^ 39) 1) /\ asint (mkFloat (2 ^ 39) 1) = 2 ^ 40 /\
  from_int bindig_exact (2 ^ 296 + 2 ^ 256) = FIName.
Proof. split; [exact bindig_exact_ok|]. repeat split. Qed.

(** * C45: version requirements *)

(** The check on lists is the lexicographic order. *)
Theorem C45_lexicographic : forall rl al, require_version_lists rl al = true <-> lex_le rl al.
Proof. exact require_iff. Qed.

(** It is a total order: reflexive, transitive, total and antisymmetric. *)
Theorem C45_order :
  (forall l, require_version_lists l l = true) /\
  (forall l m n, require_version_lists l m = true -> require_version_lists m n = true -> require_version_lists l n = true) /\
  (forall l m, require_version_lists l m = true \/ require_version_lists m l = true) /\
  (forall l m, require_version_lists l m = true -> require_version_lists m l = true -> l = m).
Proof.
  split; [intros l; apply require_iff, lex_refl|]. split.
  - intros l m n. rewrite !require_iff. apply lex_trans.
  - split; intros l m; rewrite !require_iff; [apply lex_total|apply lex_antisym].
Qed.

(** A version never satisfies the same version with further components, even zeros. *)
Theorem C45_prefix : forall l z r, require_version_lists (l ++ z :: r) l = false.
Proof.
  intros l z r. destruct (require_version_lists (l ++ z :: r) l) eqn:E; [|reflexivity].
  apply require_iff in E. exfalso. exact (lex_prefix _ _ _ E).
Qed.

(** Exactly the strings "optional white space, decimal numbers separated by dots, anything
    that does not start with a digit or a dot" are accepted, and denote those numbers. *)
Theorem C45_parse : forall s zs, split_version_str s = Some zs <->
  exists sp ss rest, s = (sp ++ join_dots ss ++ rest)%string /\ all_chars white sp /\ version_rest rest /\
    ss <> [] /\ Forall2 decimal ss zs.
Proof. exact split_version_iff. Qed.

(** The four outcomes of require_version. *)
Theorem C45_outcome : forall required actual raiseonfail,
  (forall rl al, split_version_str required = Some rl -> split_version_str actual = Some al ->
     (lex_le rl al -> require_version required actual raiseonfail = if raiseonfail then VReturnNone else VReturn true) /\
     (~ lex_le rl al -> require_version required actual raiseonfail = if raiseonfail then VNotMet else VReturn false)) /\
  (split_version_str required = None \/ split_version_str actual = None ->
     require_version required actual raiseonfail = VValueError).
Proof.
  intros required actual rf. unfold require_version. split.
  - intros rl al -> ->. rewrite <- require_iff. destruct (require_version_lists rl al), rf; cbn; split; congruence.
  - intros [->|H]; [reflexivity|]. rewrite H. destruct (split_version_str required); reflexivity.
Qed.

(** Contrary to the documentation the met requirement does not return True by default. *)
Theorem C45_returns_true_refuted : exists required actual,
  require_version required actual false = VReturn true /\ require_version required actual true <> VReturn true.
Proof. exists "1.2"%string, "1.3-beta2"%string. split; [reflexivity|discriminate]. Qed.

Example C45_ex :
  require_version "1.2.1" " 1.3-beta2" true = VReturnNone /\ require_version "1.2.0" "1.2" false = VReturn false /\
  require_version "1.10" "1.9.9" true = VNotMet /\ require_version "v1.2" "1.2" true = VValueError /\
  decimal "10" 10.
Proof.
  repeat split. change "10"%string with ("1" ++ "0")%string. change 10 with (10 * 1 + 0).
  constructor; [constructor|]; unfold digit; cbn; tauto.
Qed.

(** * C46: check_uint256 *)

(** With the default level (or any level above LVL_ERR) nothing is raised; negative values
    become 0, every other value is returned as it is. *)
Theorem C46_default : forall raise_lvl n, LVL_ERR < raise_lvl -> check_uint256 raise_lvl n = SolReturn (Z.max 0 n).
Proof. exact check_default. Qed.

(** The documented "the number as int in the uint256 range" is therefore false. *)
Theorem C46_clamp_refuted : exists n r, check_uint256 LVL_NEVER n = SolReturn r /\ ~ 0 <= r < 2 ^ 256.
Proof. exists (2 ^ 256), (2 ^ 256). split; [vm_compute; reflexivity|lia]. Qed.

(** With raise_lvl = LVL_ERR exactly the values from 100 to 2^256-1 are returned. Too
    large and negative values raise OverflowError, values below 100, including 0, raise
    UnderflowError. *)
Theorem C46_err : forall n,
  (100 <= n < 2 ^ 256 -> check_uint256 LVL_ERR n = SolReturn n) /\
  (n < 0 \/ 2 ^ 256 <= n -> check_uint256 LVL_ERR n = SolRaise true LVL_ERR) /\
  (0 <= n < 100 -> check_uint256 LVL_ERR n = SolRaise false LVL_ERR).
Proof.
  intros n. unfold LVL_ERR. rewrite check_err. assert (P : 100 < 2 ^ 256) by (vm_compute; reflexivity).
  set (M := 2 ^ 256) in *. clearbody M.
  destruct (Z.ltb_spec n 0); destruct (Z.leb_spec M n); destruct (Z.ltb_spec n 100); cbn [orb]; repeat split; intros; try reflexivity; lia.
Qed.

(** With raise_lvl = LVL_WARN a value is returned only if it is between 10000 and about
    2^256/10000, and unchanged. *)
Theorem C46_warn : forall n r, check_uint256 LVL_WARN n = SolReturn r <->
  r = n /\ 10000 <= n < 7378697629483821 * 2 ^ 190.
Proof. exact check_warn. Qed.

(** With raise_lvl = LVL_LOG every ordinary value ends in a KeyError. *)
Theorem C46_log : forall n, 10000 <= n < 7378697629483821 * 2 ^ 190 -> check_uint256 LVL_LOG n = SolKeyError.
Proof. exact check_log. Qed.

Example C46_ex : check_uint256 LVL_NEVER (-5) = SolReturn 0 /\ check_uint256 LVL_ERR 0 = SolRaise false LVL_ERR /\
  check_uint256 LVL_WARN 123456 = SolReturn 123456.
Proof. repeat split. Qed.

(** * C47: tick ranges *)

(** For every accepted fee and every integer tick the two ticks are multiples of the tick
    size of that fee, one tick size apart, and bracket the tick. *)
Theorem C47_bracket : forall tick fee a b, tickab tick fee = Some (a, b) ->
  exists s, ((fee = 100 /\ s = 1) \/ (fee = 500 /\ s = 10) \/ (fee = 3000 /\ s = 60) \/ (fee = 10000 /\ s = 200)) /\
    (s | a) /\ (s | b) /\ b = a + s /\ a <= tick < b.
Proof.
  intros tick fee a b. unfold tickab. destruct (ticksize fee) as [s|] eqn:E; [|discriminate].
  intros H. assert (H' : tickab_of tick s = (a, b)) by congruence. apply ticksize_cases in E. exists s. split; [exact E|].
  apply tickab_of_ok; [lia|exact H'].
Qed.

(** The accepted fees. *)
Theorem C47_fees : forall tick fee, tickab tick fee = None <-> ~ In fee [100; 500; 3000; 10000].
Proof.
  intros tick fee. unfold tickab. destruct (ticksize fee) as [s|] eqn:E.
  - apply ticksize_cases in E. split; [discriminate|]. intros H. exfalso. apply H. cbn. lia.
  - split; [|reflexivity]. intros _ H. assert (G : exists s, ticksize fee = Some s).
    { cbn in H. destruct H as [<-|[<-|[<-|[<-|[]]]]]; eexists; reflexivity. }
    destruct G as [s G]. congruence.
Qed.

(** Two ticks get the same range exactly if they lie in the same range. *)
Theorem C47_partition : forall fee t t' a b, tickab t fee = Some (a, b) ->
  (tickab t' fee = Some (a, b) <-> a <= t' < b).
Proof.
  intros fee t t' a b. unfold tickab. destruct (ticksize fee) as [s|] eqn:E; [|discriminate].
  apply ticksize_cases in E. assert (Hs : 0 < s) by lia. clear E.
  intros H. assert (H1 : tickab_of t s = (a, b)) by congruence. clear H.
  split.
  - intros H. assert (H2 : tickab_of t' s = (a, b)) by congruence. apply tickab_of_ok in H2; [tauto|exact Hs].
  - intros H2. apply tickab_of_ok in H1 as ([k ->] & _ & -> & _); [|exact Hs].
    unfold tickab_of. assert (Hd : t' / s = k) by (symmetry; apply (Z.div_unique t' s k (t' - k * s)); lia).
    rewrite Hd. reflexivity.
Qed.

Example C47_ex : tickab (-7) 3000 = Some (-60, 0) /\ tickab 201 10000 = Some (200, 400) /\ tickab 5 123 = None.
Proof. repeat split. Qed.

(** * C48: primary pairs. Stated for both classes: [norm_simple] is SimplePair, [norm_cpc]
    is the class Pair of cpc.py; the statements hold for every normalisation. *)

(** Of the two orientations of two distinct tokens exactly one is primary; a pair of
    equal tokens is not primary. *)
Theorem C48_one_orientation : forall norm b q,
  (b <> q -> (isprimary norm b q = true /\ isprimary norm q b = false) \/
             (isprimary norm b q = false /\ isprimary norm q b = true)) /\
  isprimary norm b b = false.
Proof.
  intros norm b q. split; [|apply isprimary_same]. intros H. rewrite (isprimary_flip norm b q H).
  destruct (isprimary norm b q); tauto.
Qed.

(** Both orientations have the same primary and the same secondary pair, one being the
    reverse of the other, and parsing the primary pair gives a primary pair. *)
Theorem C48_same_primary : forall norm b q, b <> q ->
  primary norm b q = primary norm q b /\ secondary norm b q = secondary norm q b /\
  ((primary norm b q = pair_str b q /\ secondary norm b q = pair_str q b) \/
   (primary norm b q = pair_str q b /\ secondary norm b q = pair_str b q)).
Proof.
  intros norm b q H. unfold primary, secondary. rewrite (isprimary_flip norm b q H).
  destruct (isprimary norm b q); cbn [negb]; tauto.
Qed.
Theorem C48_parse : forall norm b q, b <> q -> slash_free b -> slash_free q ->
  exists b' q', parse_pair (primary norm b q) = Some (b', q') /\ isprimary norm b' q' = true /\
    ((b' = b /\ q' = q) \/ (b' = q /\ q' = b)).
Proof.
  intros norm b q H Hb Hq. apply no_slash_free in Hb, Hq.
  unfold primary, parse_pair, pair_str. destruct (isprimary norm b q) eqn:E.
  - exists b, q. rewrite split_app by assumption. tauto.
  - exists q, b. rewrite split_app by assumption. rewrite (isprimary_flip norm b q H), E. tauto.
Qed.

(** The price of a primary pair is its own primary price, otherwise the inverse is; the
    primary price of a pair at p and of the reversed pair at 1/p agree. *)
Theorem C48_prices : forall b q p, b <> q -> ~ (p == 0)%Q ->
  (exists r r', primary_price_simple b q p = Price r /\ primary_price_simple q b (1 / p) = Price r' /\ (r == r')%Q /\
     (isprimary norm_simple b q = true -> r == p)%Q /\ (isprimary norm_simple b q = false -> r == 1 / p)%Q) /\
  (exists r r', primary_price_cpc b q p = Price r /\ primary_price_cpc q b (1 / p) = Price r' /\ (r == r')%Q /\
     (isprimary norm_cpc b q = true -> r == p)%Q /\ (isprimary norm_cpc b q = false -> r == 1 / p)%Q).
Proof.
  intros b q p H Hp. assert (Hi : ~ (1 / p == 0)%Q).
  { intros Hi. assert (G : (p * (1 / p) == 1)%Q) by (field; exact Hp). rewrite Hi in G. rewrite Qmult_0_r in G. discriminate G. }
  assert (N : Qeq_bool p 0 = false) by (destruct (Qeq_bool p 0) eqn:E; [apply Qeq_bool_iff in E; contradiction|reflexivity]).
  assert (N' : Qeq_bool (1 / p) 0 = false) by (destruct (Qeq_bool (1 / p) 0) eqn:E; [apply Qeq_bool_iff in E; contradiction|reflexivity]).
  assert (Hinv : (p == 1 / (1 / p))%Q) by (field; exact Hp).
  unfold primary_price_simple, primary_price_cpc. rewrite N, N'.
  rewrite (isprimary_flip norm_simple b q H), (isprimary_flip norm_cpc b q H). split.
  - destruct (isprimary norm_simple b q); cbn [negb]; eexists; eexists; repeat split; try exact Hinv; try reflexivity; discriminate.
  - destruct (isprimary norm_cpc b q); cbn [negb]; eexists; eexists; repeat split; try exact Hinv; try reflexivity; discriminate.
Qed.

(** A zero price: nan in one class, in the other 0 for primary pairs and a division by
    zero otherwise. *)
Theorem C48_zero_price : forall b q,
  primary_price_simple b q 0 = PriceNaN /\
  primary_price_cpc b q 0 = if isprimary norm_cpc b q then Price 0 else PriceZeroDivision.
Proof. intros b q. split; [reflexivity|]. unfold primary_price_cpc. destruct (isprimary norm_cpc b q); reflexivity. Qed.

(** A numeraire token is always the quote token against a token that is no numeraire. *)
Theorem C48_numeraire : forall norm b q, In (norm q) NUMERAIRE -> ~ In (norm b) NUMERAIRE ->
  isprimary norm b q = true /\ isprimary norm q b = false.
Proof. exact numeraire_quote. Qed.

(** Of two numeraire tokens the one listed first is the quote token. *)
Theorem C48_ranking : forall norm b q l1 l2, NUMERAIRE = (l1 ++ norm q :: l2)%list -> In (norm b) l2 ->
  isprimary norm b q = true /\ isprimary norm q b = false.
Proof. exact numeraire_rank. Qed.

(** Otherwise the alphabet decides. *)
Theorem C48_alphabetical : forall norm b q, norm b = norm q \/ (~ In (norm b) NUMERAIRE /\ ~ In (norm q) NUMERAIRE) ->
  isprimary norm b q = true <-> String.compare b q = Lt.
Proof. exact alphabetical. Qed.

(** The two classes agree as long as no token contains an opening parenthesis ... *)
Theorem C48_classes : forall b q, ~ has_char "(" b -> ~ has_char "(" q ->
  isprimary norm_simple b q = isprimary norm_cpc b q.
Proof. intros b q Hb Hq. unfold isprimary. rewrite !norm_agree by assumption. reflexivity. Qed.

(** ... but not in general. *)
Theorem C48_classes_refuted : exists b q, b <> q /\ isprimary norm_simple b q <> isprimary norm_cpc b q.
Proof. exists "ETH"%string, "USDC(2)"%string. split; [discriminate|]. vm_compute. discriminate. Qed.

Example C48_ex : isprimary norm_simple "LINK" "WETH-1234" = true /\ isprimary norm_simple "USDC" "WETH" = false /\
  primary norm_simple "USDC" "WETH" = "WETH/USDC"%string /\ isprimary norm_cpc "AAA" "BBB" = true /\
  primary_price_simple "USDC" "WETH" (1 # 2000) = Price (1 / (1 # 2000)) /\ slash_free "WETH".
Proof.
  repeat split. apply no_slash_free. reflexivity.
Qed.

(** * C72: token scales *)

(** Every token has a scale after every sequence of additions: the last one added for it,
    otherwise the one it had before, otherwise the default. *)
Theorem C72_scale : forall l d tkn,
  let d' := fold_left (fun d e => add_scale d (fst e) (snd e)) l d in
  (forall s, scale d' tkn = s ->
     (exists l1 l2, l = l1 ++ (tkn, s) :: l2 /\ ~ In tkn (map fst l2)) \/
     (~ In tkn (map fst l) /\ s = scale d tkn)) /\
  scale [] tkn = (1 # 100)%Q.
Proof.
  intros l d tkn d'. split; [|reflexivity]. subst d'. intros s. revert d.
  induction l as [|[k v] l IH]; intros d H; cbn [fold_left map In] in *.
  - right. split; [tauto|congruence].
  - cbn [fst snd] in *. destruct (IH _ H) as [(l1 & l2 & -> & Hn)|[Hn Hs]].
    + left. exists ((k, v) :: l1), l2. split; [reflexivity|exact Hn].
    + unfold scale, add_scale in Hs. rewrite dct_get_set in Hs. destruct (String.eqb_spec k tkn) as [->|Hk].
      * left. exists [], l. rewrite Hs. split; [reflexivity|exact Hn].
      * right. split; [intros [?|?]; tauto|exact Hs].
Qed.

Example C72_ex : scale (add_scale (add_scale [] "BNT" 1) "ETH" 1000) "ETH" = 1000%Q /\
  scale (add_scale [] "ETH" 1000) "XYZ" = (1 # 100)%Q.
Proof. repeat split. Qed.

Print Assumptions C44_error. Print Assumptions C44_best. Print Assumptions C44_relative. Print Assumptions C44_exact.
Print Assumptions C44_idempotent. Print Assumptions C44_monotone. Print Assumptions C44_independent. Print Assumptions C44_domain.
Print Assumptions C44_width. Print Assumptions C44_exponent_fits_refuted.
Print Assumptions C45_lexicographic. Print Assumptions C45_order. Print Assumptions C45_prefix. Print Assumptions C45_parse.
Print Assumptions C45_outcome. Print Assumptions C45_returns_true_refuted.
Print Assumptions C46_default. Print Assumptions C46_clamp_refuted. Print Assumptions C46_err. Print Assumptions C46_warn. Print Assumptions C46_log.
Print Assumptions C47_bracket. Print Assumptions C47_fees. Print Assumptions C47_partition.
Print Assumptions C48_one_orientation. Print Assumptions C48_same_primary. Print Assumptions C48_parse. Print Assumptions C48_prices.
Print Assumptions C48_zero_price. Print Assumptions C48_numeraire. Print Assumptions C48_ranking. Print Assumptions C48_alphabetical. Print Assumptions C48_classes. Print Assumptions C48_classes_refuted.
Print Assumptions C72_scale.
