(** Properties C12-C15 and C60 of carbon/pair.py. *)
From Coq Require Import ZArith QArith List Bool Ascii String.
From Verif Require Import PairModel PairSpec PairProofs.
Import ListNotations.
Local Open Scope string_scope.

(** a concrete pair used in the examples *)
Definition eth_usdc : pair := mkPair "ETH" "USDC" "eth" "usdc" false None None.
Example eth_usdc_built : built eth_usdc.
Proof. exists (Some "eth/usdc"), None, None, false. repeat split; intros ? H; discriminate H. Qed.

(** C12 *)
Theorem C12_convert_price p pr t :
  (t = tknq p -> convert_price p (Some pr) t = Some (Some pr)) /\
  (t = tknb p -> t <> tknq p -> ~ (pr == 0)%Q -> convert_price p (Some pr) t = Some (Some (1 / pr)%Q)) /\
  (t = tknb p -> t <> tknq p -> (pr == 0)%Q -> convert_price p (Some pr) t = None) /\
  (t <> tknb p -> t <> tknq p -> convert_price p (Some pr) t = Some None) /\
  convert_price p None t = Some None.
Proof. exact (convert_price_spec p pr t). Qed.
Print Assumptions C12_convert_price.
Example C12_convert_price_ex : convert_price eth_usdc (Some 4%Q) "ETH" = Some (Some (1 / 4)%Q).
Proof. reflexivity. Qed.

Theorem C12_convert_price_involution p pr t : (0 < pr)%Q -> t = tknb p \/ t = tknq p ->
  exists pr' pr'', convert_price p (Some pr) t = Some (Some pr') /\ (0 < pr')%Q /\
    convert_price p (Some pr') t = Some (Some pr'') /\ (pr'' == pr)%Q.
Proof. exact (convert_price_involution p pr t). Qed.
Print Assumptions C12_convert_price_involution.
Example C12_convert_price_involution_ex : (0 < 2000)%Q /\ "ETH" = tknb eth_usdc.
Proof. split; reflexivity. Qed.

Theorem C12_convert p a pr t u : (0 < pr)%Q -> tknb p <> tknq p ->
  convert p a (tknb p) (tknq p) pr = Some (Some (a * pr)%Q) /\
  convert p a (tknq p) (tknb p) pr = Some (Some (a / pr)%Q) /\
  (t = tknb p \/ t = tknq p -> convert p a t t pr = Some (Some a)) /\
  (~ (t = tknb p \/ t = tknq p) \/ ~ (u = tknb p \/ u = tknq p) -> convert p a t u pr = Some None).
Proof. exact (convert_spec' p a pr t u). Qed.
Print Assumptions C12_convert.
Theorem C12_convert_round_trip p a pr t u : (0 < pr)%Q -> tknb p <> tknq p ->
  t = tknb p \/ t = tknq p -> u = tknb p \/ u = tknq p ->
  exists a' a'', convert p a t u pr = Some (Some a') /\ convert p a' u t pr = Some (Some a'') /\ (a'' == a)%Q.
Proof. exact (convert_round_trip' p a pr t u). Qed.
Print Assumptions C12_convert_round_trip.
Example C12_convert_ex : tknb eth_usdc <> tknq eth_usdc /\ convert eth_usdc 3 "ETH" "USDC" 2000 = Some (Some (3 * 2000)%Q) /\
  convert eth_usdc (3 * 2000) "USDC" "ETH" 2000 = Some (Some (3 * 2000 / 2000)%Q).
Proof. repeat split; discriminate. Qed.

(** [price] normalises a raw quote: converting one unit of the raw base token at the
    normalised price gives the raw price *)
Theorem C12_price_consistent p pr t u : (0 < pr)%Q -> tknb p <> tknq p -> t <> u ->
  t = tknb p \/ t = tknq p -> u = tknb p \/ u = tknq p ->
  exists n a, price p pr t u = Some (Some n) /\ convert p 1 t u n = Some (Some a) /\ (a == pr)%Q.
Proof. exact (price_is_unit_conversion' p pr t u). Qed.
Print Assumptions C12_price_consistent.
Example C12_price_ex : price eth_usdc 4 "USDC" "ETH" = Some (Some (1 / 4)%Q).
Proof. reflexivity. Qed.

(** C13 *)
Theorem C13_limit_met p t l c : tknb p <> tknq p -> t = tknb p \/ t = tknq p ->
  exists b s, limit_is_met p t l BUY c = Some b /\ limit_is_met p t l SELL c = Some s /\
    (b = true <-> if string_dec t (tknb p) then (c <= l)%Q else (l <= c)%Q) /\
    (s = true <-> if string_dec t (tknb p) then (l <= c)%Q else (c <= l)%Q).
Proof. exact (limit_spec p t l c). Qed.
Print Assumptions C13_limit_met.
Theorem C13_buy_is_sell_other p l c : tknb p <> tknq p ->
  limit_is_met p (tknb p) l BUY c = limit_is_met p (tknq p) l SELL c /\
  limit_is_met p (tknb p) l SELL c = limit_is_met p (tknq p) l BUY c.
Proof. exact (limit_symmetry p l c). Qed.
Print Assumptions C13_buy_is_sell_other.
Theorem C13_exclusive p t l c : t = tknb p \/ t = tknq p -> ~ (c == l)%Q ->
  exists b, limit_is_met p t l BUY c = Some b /\ limit_is_met p t l SELL c = Some (negb b).
Proof. exact (limit_exclusive p t l c). Qed.
Print Assumptions C13_exclusive.
Theorem C13_unknown_token p t l s c : t <> tknb p -> t <> tknq p -> limit_is_met p t l s c = None.
Proof. exact (limit_unknown p t l s c). Qed.
Print Assumptions C13_unknown_token.
Example C13_ex : limit_is_met eth_usdc "ETH" 2000 BUY 1900 = Some true /\ limit_is_met eth_usdc "USDC" 2000 BUY 1900 = Some false
  /\ ~ (1900 == 2000)%Q /\ limit_is_met eth_usdc "DAI" 2000 BUY 1900 = None.
Proof. repeat split; discriminate. Qed.

(** C14 *)
Theorem C14_from_slash a b d : slash_free a -> slash_free b ->
  mk_pair (SlashStr (a ++ "/" ++ b)) None None d = mk_pair NoSlash (Some a) (Some b) d /\
  exists p, mk_pair NoSlash (Some a) (Some b) d = Some p /\ tknb p = upper a /\ tknq p = upper b /\
    slashpair_of p = upper a ++ "/" ++ upper b.
Proof. exact (slash_construction a b d). Qed.
Print Assumptions C14_from_slash.
(** the constructor that takes anything *)
Theorem C14_create a b p : slash_free a -> slash_free b ->
  (exists q, create (ArgStr (a ++ "/" ++ b)) None = Some (Some q) /\ create (ArgStr a) (Some b) = Some (Some q) /\ tknb q = upper a /\ tknq q = upper b) /\
  create (ArgPair p) None = Some (Some p) /\ create (ArgPair p) (Some b) = None /\ create ArgNone None = Some None /\ create ArgNone (Some b) = None /\
  (forall s, create (ArgStr s) None = None <-> ~ exists a b, slash_free a /\ slash_free b /\ s = a ++ "/" ++ b).
Proof.
  intros Ha Hb. destruct (slash_construction a b false Ha Hb) as (E & q & Eq & Tb & Tq & _). split; [exists q; cbv beta iota delta [create]; rewrite E, Eq; cbn [option_map]; auto|]. repeat (split; [reflexivity|]).
  intros s. pose proof (slash_accept s false) as A. cbn. destruct (mk_pair (SlashStr s) None None false) as [r|]; cbn; split; intros H; try discriminate; try reflexivity.
  - exfalso. apply H, A. eauto.
  - intros X. apply A in X as (r & X). discriminate.
Qed.
Print Assumptions C14_create.
Theorem C14_accepted_iff_one_slash s d :
  (exists p, mk_pair (SlashStr s) None None d = Some p) <->
  exists a b, slash_free a /\ slash_free b /\ s = a ++ "/" ++ b.
Proof. exact (slash_accept s d). Qed.
Print Assumptions C14_accepted_iff_one_slash.
Theorem C14_idempotent p d : built p ->
  (exists p', mk_pair (SlashPair p) None None d = Some p' /\ same_tokens p' p /\
    tknb_decimals p' = tknb_decimals p /\ tknq_decimals p' = tknq_decimals p) /\
  (exists p', mk_pair (SlashStr (slashpair_of p)) None None d = Some p' /\ same_tokens p' p).
Proof. exact (fun H => conj (reconstruct p d H) (slashpair_reconstruct p d H)). Qed.
Print Assumptions C14_idempotent.
Theorem C14_other_involution p t u : other p t = Some u ->
  other p u = Some t /\ ((t = tknb p /\ u = tknq p) \/ (t = tknq p /\ u = tknb p)).
Proof. exact (other_spec p t u). Qed.
Print Assumptions C14_other_involution.
Theorem C14_other_none p t : other p t = None <-> t <> tknb p /\ t <> tknq p.
Proof. exact (other_none p t). Qed.
Print Assumptions C14_other_none.
(** reversing exchanges the tokens, twice restores them; the token decimals are forgotten *)
Theorem C14_reverse p : built p ->
  tknb (reverse p) = tknq p /\ tknq (reverse p) = tknb p /\
  same_tokens (reverse (reverse p)) p /\
  tknb_decimals (reverse p) = None /\ tknq_decimals (reverse p) = None.
Proof. exact (reverse_spec p). Qed.
Print Assumptions C14_reverse.
Example C14_ex : mk_pair (SlashStr "eth/usdc") None None false = Some eth_usdc /\
  mk_pair (SlashStr "eth/usdc/dai") None None false = None /\ mk_pair (SlashStr "ethusdc") None None false = None /\
  other eth_usdc "ETH" = Some "USDC" /\ tknb (reverse eth_usdc) = "USDC".
Proof. repeat split. Qed.

(** C15 *)
Theorem C15_iso_ambiguous : exists p q, built p /\ built q /\ pair_iso p = pair_iso q /\
  tknb p <> tknb q /\ tknq p <> tknq q /\ tknb p <> tknq p /\ tknb q <> tknq q.
Proof. exact iso_ambiguous. Qed.
Print Assumptions C15_iso_ambiguous.
Theorem C15_iso_exact p q : String.length (tknb p) = String.length (tknb q) -> pair_iso p = pair_iso q -> same_tokens p q.
Proof. exact (iso_injective p q). Qed.
Print Assumptions C15_iso_exact.
Theorem C15_slash_exact p q : built p -> built q -> slashpair_of p = slashpair_of q -> same_tokens p q.
Proof. exact (slash_injective p q). Qed.
Print Assumptions C15_slash_exact.
Example C15_ex : String.length (tknb eth_usdc) = String.length "DAI" /\ pair_iso eth_usdc = "ETHUSDC".
Proof. split; reflexivity. Qed.

(** C60 *)
Theorem C60_split_by_base p : built p -> tknb p <> "" -> dot_free (tknb p) -> (forall u v, tknq p <> u ++ tknb p ++ v) ->
  exists p', from_isopair_and_tkn (pair_iso p) (Some (tknb p)) = Some p' /\ same_tokens p' p.
Proof. exact (from_iso_base p). Qed.
Print Assumptions C60_split_by_base.
Theorem C60_split_by_quote p : built p -> tknb p <> "" -> tknq p <> "" -> dot_free (tknb p) -> dot_free (tknq p) ->
  (forall u v, tknb p ++ tknq p = u ++ tknq p ++ v -> v = "") ->
  exists p', from_isopair_and_tkn (pair_iso p) (Some (tknq p)) = Some p' /\ same_tokens p' p.
Proof. exact (from_iso_quote p). Qed.
Print Assumptions C60_split_by_quote.
Theorem C60_split_in_the_middle p : built p ->
  (String.length (tknb p) = 3 /\ String.length (tknq p) = 3)%nat \/ (String.length (tknb p) = 4 /\ String.length (tknq p) = 4)%nat ->
  exists p', from_isopair_and_tkn (pair_iso p) None = Some p' /\ same_tokens p' p.
Proof. exact (from_iso_split p). Qed.
Print Assumptions C60_split_in_the_middle.
Theorem C60_other_lengths_rejected s : String.length s <> 6%nat -> String.length s <> 8%nat -> from_isopair_and_tkn s None = None.
Proof. exact (from_iso_split_fails s). Qed.
Print Assumptions C60_other_lengths_rejected.
(** without the side conditions the round trip is false: USD/USDC and USDC/USD *)
Theorem C60_round_trip_refuted : exists p p',
  built p /\ tknb p = "USD" /\ tknq p = "USDC" /\
  from_isopair_and_tkn (pair_iso p) (Some (tknb p)) = Some p' /\ tknb p' = "USD" /\ tknq p' = ".C".
Proof. exact from_iso_refuted. Qed.
Print Assumptions C60_round_trip_refuted.
Example C60_ex : (exists p', from_isopair_and_tkn "ethusdc" (Some "ETH") = Some p' /\ same_tokens p' eth_usdc) /\
  (exists p', from_isopair_and_tkn "ETHUSDC" (Some "USDC") = Some p' /\ same_tokens p' eth_usdc) /\
  (forall u v, tknq eth_usdc <> u ++ tknb eth_usdc ++ v).
Proof.
  split; [|split]; [eexists; repeat split|eexists; repeat split|].
  intros u v H. apply (f_equal String.length) in H as L. rewrite !append_length in L.
  do 2 (destruct u as [|? u]; [discriminate H|injection H as _ H]). cbn in L. Lia.lia.
Qed.
