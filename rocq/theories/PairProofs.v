From Coq Require Import ZArith QArith List Bool Ascii String Lia.
From Verif Require Import TradeModel TradeProofs PairModel PairSpec.
Import ListNotations.
Local Open Scope string_scope.

(** ** Strings *)
Lemma upper_ascii_idem c : upper_ascii (upper_ascii c) = upper_ascii c.
Proof. destruct c as [[] [] [] [] [] [] [] []]; reflexivity. Qed.
Lemma upper_ascii_slash c : upper_ascii c = "/"%char -> c = "/"%char.
Proof. destruct c as [[] [] [] [] [] [] [] []]; cbv; congruence. Qed.
Lemma upper_idem s : upper (upper s) = upper s.
Proof. induction s as [|c s IH]; cbn; [reflexivity|]. rewrite upper_ascii_idem, IH. reflexivity. Qed.

Fixpoint no_slash (s : string) : bool :=
  match s with EmptyString => true | String c s => negb (Ascii.eqb c "/") && no_slash s end.
Lemma no_slash_free s : no_slash s = true <-> slash_free s.
Proof.
  induction s as [|c s IH]; cbn.
  - split; [|reflexivity]. intros _ ([|] & b & E); discriminate.
  - rewrite andb_true_iff, negb_true_iff, Ascii.eqb_neq, IH. split.
    + intros [H1 H2] (a & b & E). destruct a as [|c' a]; cbn in E; injection E as E1 E2.
      * contradiction.
      * apply H2. exists a, b. exact E2.
    + intros H. split.
      * intros ->. apply H. exists "", s. reflexivity.
      * intros (a & b & ->). apply H. exists (String c a), b. reflexivity.
Qed.
Lemma no_slash_upper s : no_slash (upper s) = no_slash s.
Proof.
  induction s as [|c s IH]; cbn; [reflexivity|]. rewrite IH. f_equal. f_equal.
  destruct c as [[] [] [] [] [] [] [] []]; reflexivity.
Qed.
Lemma split_no_slash s : no_slash s = true -> split_slash s = [s].
Proof.
  induction s as [|c s IH]; cbn; [reflexivity|]. intros H. apply andb_prop in H as [H1 H2].
  apply negb_true_iff in H1. rewrite H1, IH by assumption. reflexivity.
Qed.
Lemma split_app a b : no_slash a = true -> no_slash b = true -> split_slash (a ++ "/" ++ b) = [a; b].
Proof.
  intros Ha Hb. induction a as [|c a IH]; cbn.
  - rewrite split_no_slash by assumption. reflexivity.
  - cbn in Ha. apply andb_prop in Ha as [H1 H2]. apply negb_true_iff in H1. rewrite H1. cbn in IH. rewrite IH by assumption. reflexivity.
Qed.
Lemma split_inv_1 s a : split_slash s = [a] -> s = a /\ no_slash a = true.
Proof.
  revert a. induction s as [|c s IH]; cbn; intros a H.
  - injection H as <-. split; reflexivity.
  - destruct (Ascii.eqb c "/") eqn:E.
    + injection H as <- H. destruct s as [|c' s]; cbn in H; [discriminate|].
      destruct (Ascii.eqb c' "/"); [discriminate|]. destruct (split_slash s); discriminate.
    + destruct (split_slash s) as [|w ws] eqn:Es.
      * destruct s as [|c' s]; cbn in Es; [discriminate|]. destruct (Ascii.eqb c' "/"); [discriminate|]. destruct (split_slash s); discriminate.
      * injection H as <- ->. destruct (IH w eq_refl) as [-> H]. split; [reflexivity|]. cbn. rewrite E. assumption.
Qed.
Lemma split_inv_2 s a b : split_slash s = [a; b] -> s = a ++ "/" ++ b /\ no_slash a = true /\ no_slash b = true.
Proof.
  revert a b. induction s as [|c s IH]; cbn; intros a b H; [discriminate|].
  destruct (Ascii.eqb c "/") eqn:E.
  - injection H as <- H. apply Ascii.eqb_eq in E. subst c. apply split_inv_1 in H as [-> H]. repeat split. assumption.
  - destruct (split_slash s) as [|w ws] eqn:Es; [discriminate|]. injection H as <- ->.
    destruct (IH w b eq_refl) as (-> & H1 & H2). split; [reflexivity|]. cbn. rewrite E. split; assumption.
Qed.
Lemma append_slash_nonempty a b : String.eqb (a ++ "/" ++ b) "" = false.
Proof. destruct a; reflexivity. Qed.

(** ** C14 *)
Lemma slash_construction a b d : slash_free a -> slash_free b ->
  mk_pair (SlashStr (a ++ "/" ++ b)) None None d = mk_pair NoSlash (Some a) (Some b) d /\
  exists p, mk_pair NoSlash (Some a) (Some b) d = Some p /\ tknb p = upper a /\ tknq p = upper b /\
    slashpair_of p = upper a ++ "/" ++ upper b.
Proof.
  intros Ha Hb. apply no_slash_free in Ha, Hb. unfold mk_pair. cbn [slash_truthy str_truthy].
  rewrite append_slash_nonempty. cbn [negb orb]. rewrite split_app by assumption.
  split; [reflexivity|]. eexists. split; [reflexivity|]. repeat split.
Qed.
Lemma slash_accept s d :
  (exists p, mk_pair (SlashStr s) None None d = Some p) <->
  exists a b, slash_free a /\ slash_free b /\ s = a ++ "/" ++ b.
Proof.
  split.
  - intros (p & H). unfold mk_pair in H. cbn [slash_truthy str_truthy] in H.
    destruct (String.eqb s "") eqn:E; cbn in H; [discriminate|].
    destruct (split_slash s) as [|a [|b [|c l]]] eqn:Es; try discriminate.
    apply split_inv_2 in Es as (-> & H1 & H2). exists a, b. rewrite <- !no_slash_free. tauto.
  - intros (a & b & Ha & Hb & ->). destruct (slash_construction a b d Ha Hb) as [E (p & Ep & _)]. exists p. congruence.
Qed.

Lemma built_inv p : built p ->
  no_slash (tknb p) = true /\ no_slash (tknq p) = true /\ upper (tknb p) = tknb p /\ upper (tknq p) = tknq p.
Proof.
  intros (s & b & q & d & Hb & Hq & H).
  assert (G : exists x y, no_slash x = true /\ no_slash y = true /\ tknb p = upper x /\ tknq p = upper y).
  { unfold mk_pair in H.
    destruct (slash_truthy _).
    - destruct (str_truthy b || str_truthy q); [discriminate|].
      destruct (split_slash _) as [|x [|y [|z l]]] eqn:Es; try discriminate. injection H as <-. cbn.
      apply split_inv_2 in Es as (_ & H1 & H2). exists x, y. tauto.
    - destruct b as [b|]; [|discriminate]. destruct q as [q|]; [|discriminate]. injection H as <-. cbn.
      exists b, q. rewrite !no_slash_free. auto. }
  destruct G as (x & y & H1 & H2 & -> & ->). rewrite !no_slash_upper, !upper_idem. tauto.
Qed.

Lemma reconstruct p d : built p ->
  exists p', mk_pair (SlashPair p) None None d = Some p' /\ same_tokens p' p /\
    tknb_decimals p' = tknb_decimals p /\ tknq_decimals p' = tknq_decimals p.
Proof.
  intros Hb. destruct (built_inv p Hb) as (H1 & H2 & H3 & H4).
  unfold mk_pair. cbn [slash_truthy str_truthy orb]. unfold slashpair_of. rewrite split_app by assumption.
  eexists. split; [reflexivity|]. unfold same_tokens. cbn. tauto.
Qed.
Lemma slashpair_reconstruct p d : built p ->
  exists p', mk_pair (SlashStr (slashpair_of p)) None None d = Some p' /\ same_tokens p' p.
Proof.
  intros Hb. destruct (built_inv p Hb) as (H1 & H2 & H3 & H4).
  unfold mk_pair, slashpair_of. cbn [slash_truthy str_truthy orb]. rewrite append_slash_nonempty. cbn [negb].
  rewrite split_app by assumption. eexists. split; [reflexivity|]. unfold same_tokens. cbn. tauto.
Qed.

Lemma other_spec p t u : other p t = Some u ->
  other p u = Some t /\ ((t = tknb p /\ u = tknq p) \/ (t = tknq p /\ u = tknb p)).
Proof.
  unfold other, has_basetoken, has_quotetoken. intros H.
  destruct (String.eqb t (tknb p)) eqn:E1.
  - injection H as <-. apply String.eqb_eq in E1. subst t.
    destruct (String.eqb (tknq p) (tknb p)) eqn:E2; [apply String.eqb_eq in E2; rewrite E2; auto|].
    rewrite String.eqb_refl. auto.
  - destruct (String.eqb t (tknq p)) eqn:E2; [|discriminate]. injection H as <-. apply String.eqb_eq in E2. subst t.
    rewrite String.eqb_refl. auto.
Qed.
Lemma other_none p t : other p t = None <-> t <> tknb p /\ t <> tknq p.
Proof.
  unfold other, has_basetoken, has_quotetoken.
  destruct (String.eqb_spec t (tknb p)), (String.eqb_spec t (tknq p)); split; intros; try discriminate; tauto.
Qed.
Lemma reverse_spec p : built p ->
  tknb (reverse p) = tknq p /\ tknq (reverse p) = tknb p /\
  same_tokens (reverse (reverse p)) p /\
  tknb_decimals (reverse p) = None /\ tknq_decimals (reverse p) = None.
Proof.
  intros Hb. destruct (built_inv p Hb) as (_ & _ & H3 & H4). unfold same_tokens. cbn. rewrite !H3, !H4. tauto.
Qed.


(** ** C15 *)
Lemma append_inj_len a b c d : String.length a = String.length c -> a ++ b = c ++ d -> a = c /\ b = d.
Proof.
  revert c. induction a as [|x a IH]; intros [|y c] Hl H; cbn in *; try discriminate; [tauto|].
  injection H as -> H. destruct (IH c) as [-> ->]; [lia|assumption|tauto].
Qed.
Lemma iso_injective p q : String.length (tknb p) = String.length (tknb q) -> pair_iso p = pair_iso q -> same_tokens p q.
Proof. intros Hl H. unfold same_tokens. apply append_inj_len; assumption. Qed.
Lemma append_length a b : String.length (a ++ b) = (String.length a + String.length b)%nat.
Proof. induction a; cbn; [reflexivity|]. rewrite IHa. reflexivity. Qed.
Lemma slash_injective p q : built p -> built q -> slashpair_of p = slashpair_of q -> same_tokens p q.
Proof.
  intros Hp Hq H. destruct (built_inv p Hp) as (H1 & H2 & _). destruct (built_inv q Hq) as (H3 & H4 & _).
  unfold slashpair_of in H. assert (E : split_slash (tknb p ++ "/" ++ tknq p) = split_slash (tknb q ++ "/" ++ tknq q)) by (rewrite H; reflexivity).
  rewrite !split_app in E by assumption. injection E as E1 E2. split; assumption.
Qed.

(** ** C12 *)
Lemma has_token_spec p t : has_token p t = true <-> t = tknb p \/ t = tknq p.
Proof.
  unfold has_token, has_basetoken, has_quotetoken.
  destruct (String.eqb_spec t (tknb p)), (String.eqb_spec t (tknq p)); split; intros; try discriminate; tauto.
Qed.
Lemma has_token_false p t : has_token p t = false <-> t <> tknb p /\ t <> tknq p.
Proof. rewrite <- not_true_iff_false, has_token_spec. tauto. Qed.
Lemma Qeq_bool_false a b : Qeq_bool a b = false <-> ~ (a == b)%Q.
Proof. rewrite <- not_true_iff_false, Qeq_bool_iff. tauto. Qed.
Lemma Qpos_neq0 a : (0 < a)%Q -> ~ (a == 0)%Q.
Proof. intros H E. rewrite E in H. apply Qlt_irrefl in H. exact H. Qed.
Lemma qdiv_pos a b : (0 < b)%Q -> qdiv a b = Some (a / b)%Q.
Proof. intros H. unfold qdiv. apply Qpos_neq0 in H. apply Qeq_bool_false in H. rewrite H. reflexivity. Qed.

Lemma convert_price_spec p pr t :
  (t = tknq p -> convert_price p (Some pr) t = Some (Some pr)) /\
  (t = tknb p -> t <> tknq p -> ~ (pr == 0)%Q -> convert_price p (Some pr) t = Some (Some (1 / pr)%Q)) /\
  (t = tknb p -> t <> tknq p -> (pr == 0)%Q -> convert_price p (Some pr) t = None) /\
  (t <> tknb p -> t <> tknq p -> convert_price p (Some pr) t = Some None) /\
  convert_price p None t = Some None.
Proof.
  unfold convert_price, qdiv. repeat split; intros.
  - subst t. assert (E : has_token p (tknq p) = true) by (apply has_token_spec; tauto). rewrite E. cbn.
    unfold has_quotetoken. rewrite String.eqb_refl. reflexivity.
  - subst t. assert (E : has_token p (tknb p) = true) by (apply has_token_spec; tauto). rewrite E. cbn.
    unfold has_quotetoken. apply String.eqb_neq in H0. rewrite H0. apply Qeq_bool_false in H1. rewrite H1. reflexivity.
  - subst t. assert (E : has_token p (tknb p) = true) by (apply has_token_spec; tauto). rewrite E. cbn.
    unfold has_quotetoken. apply String.eqb_neq in H0. rewrite H0. apply Qeq_bool_iff in H1. rewrite H1. reflexivity.
  - assert (E : has_token p t = false) by (apply has_token_false; tauto). rewrite E. reflexivity.
Qed.

Lemma Qpos_inv a : (0 < a)%Q -> (0 < 1 / a)%Q.
Proof. intros H. apply Qlt_shift_div_l; [assumption|]. rewrite Qmult_0_l. reflexivity. Qed.
Lemma convert_price_involution p pr t : (0 < pr)%Q -> t = tknb p \/ t = tknq p ->
  exists pr' pr'', convert_price p (Some pr) t = Some (Some pr') /\ (0 < pr')%Q /\
    convert_price p (Some pr') t = Some (Some pr'') /\ (pr'' == pr)%Q.
Proof.
  intros Hp Ht. destruct (string_dec t (tknq p)) as [E|E].
  - exists pr, pr. pose proof (proj1 (convert_price_spec p pr t) E). repeat split; assumption.
  - destruct Ht as [Ht|Ht]; [|contradiction].
    exists (1 / pr)%Q, (1 / (1 / pr))%Q.
    split; [apply convert_price_spec; try assumption; apply Qpos_neq0; assumption|].
    split; [apply Qpos_inv; assumption|].
    split; [apply convert_price_spec; try assumption; apply Qpos_neq0, Qpos_inv; assumption|].
    field. apply Qpos_neq0. assumption.
Qed.

Lemma convert_spec p a pr t u : (0 < pr)%Q -> tknb p <> tknq p ->
  convert p a (tknb p) (tknq p) pr = Some (Some (a * pr)%Q) /\
  convert p a (tknq p) (tknb p) pr = Some (Some (a / pr)%Q) /\
  (has_token p t = true -> convert p a t t pr = Some (Some a)) /\
  (has_token p t = false \/ has_token p u = false -> convert p a t u pr = Some None).
Proof.
  intros Hp Hne. unfold convert.
  assert (Eb : has_token p (tknb p) = true) by (apply has_token_spec; tauto).
  assert (Eq : has_token p (tknq p) = true) by (apply has_token_spec; tauto).
  rewrite !Eb, !Eq. cbn [negb]. assert (N1 := proj2 (String.eqb_neq _ _) Hne).
  assert (N2 := proj2 (String.eqb_neq _ _) (not_eq_sym Hne)).
  unfold has_basetoken. rewrite N1, N2, String.eqb_refl, qdiv_pos by assumption.
  repeat split.
  - intros ->. cbn. rewrite String.eqb_refl. reflexivity.
  - intros [->| H]; [reflexivity|]. rewrite H. destruct (has_token p t); reflexivity.
Qed.
Lemma convert_round_trip p a pr t u : (0 < pr)%Q -> tknb p <> tknq p -> has_token p t = true -> has_token p u = true ->
  exists a' a'', convert p a t u pr = Some (Some a') /\ convert p a' u t pr = Some (Some a'') /\ (a'' == a)%Q.
Proof.
  intros Hp Hne Ht Hu. pose proof (Qpos_neq0 _ Hp) as Hnz.
  destruct (string_dec t u) as [->|Htu].
  - exists a, a. destruct (convert_spec p a pr u u Hp Hne) as (_ & _ & H & _). rewrite H by assumption. repeat split.
  - apply has_token_spec in Ht, Hu. destruct Ht as [->| ->], Hu as [->| ->]; try contradiction.
    + exists (a * pr)%Q, (a * pr / pr)%Q. destruct (convert_spec p a pr "" "" Hp Hne) as (-> & _).
      destruct (convert_spec p (a * pr) pr "" "" Hp Hne) as (_ & -> & _). repeat split. field. assumption.
    + exists (a / pr)%Q, (a / pr * pr)%Q. destruct (convert_spec p a pr "" "" Hp Hne) as (_ & -> & _).
      destruct (convert_spec p (a / pr) pr "" "" Hp Hne) as (-> & _). repeat split. field. assumption.
Qed.
(** converting one unit of the base token gives the normalised price *)
Lemma price_is_unit_conversion p pr t u : (0 < pr)%Q -> tknb p <> tknq p -> t <> u -> has_token p t = true -> has_token p u = true ->
  exists n a, price p pr t u = Some (Some n) /\ convert p 1 t u n = Some (Some a) /\ (a == pr)%Q.
Proof.
  intros Hp Hne Htu Ht Hu. pose proof (Qpos_neq0 _ Hp) as Hnz. pose proof (Qpos_inv _ Hp) as Hip.
  assert (Eb : has_token p (tknb p) = true) by (apply has_token_spec; tauto).
  assert (Eq : has_token p (tknq p) = true) by (apply has_token_spec; tauto).
  assert (N1 := proj2 (String.eqb_neq _ _) Hne). assert (N2 := proj2 (String.eqb_neq _ _) (not_eq_sym Hne)).
  apply has_token_spec in Ht, Hu. destruct Ht as [->| ->], Hu as [->| ->]; try contradiction; unfold price, has_basetoken;
    rewrite ?Eb, ?Eq; cbn [negb]; rewrite ?N1, ?N2, ?String.eqb_refl.
  - exists pr, (1 * pr)%Q. destruct (convert_spec p 1 pr "" "" Hp Hne) as (-> & _). repeat split. field.
  - rewrite qdiv_pos by assumption. exists (1 / pr)%Q, (1 / (1 / pr))%Q. destruct (convert_spec p 1 (1 / pr) "" "" Hip Hne) as (_ & -> & _).
    repeat split. field. assumption.
Qed.

(** ** C13 *)
Lemma Qlt_bool_iff a b : Qlt_bool a b = true <-> (a < b)%Q.
Proof. unfold Qlt_bool. rewrite negb_true_iff, <- not_true_iff_false, Qle_bool_iff. split; [apply Qnot_le_lt|apply Qlt_not_le]. Qed.
Lemma limit_unknown p t l s c : t <> tknb p -> t <> tknq p -> limit_is_met p t l s c = None.
Proof. intros H1 H2. unfold limit_is_met. assert (E : has_token p t = false) by (apply has_token_false; tauto). rewrite E. reflexivity. Qed.
Lemma Qle_or c l : (c == l)%Q \/ (c < l)%Q <-> (c <= l)%Q.
Proof.
  split.
  - intros [H|H]; [rewrite H; apply Qle_refl|apply Qlt_le_weak; assumption].
  - intros H. apply Qle_lteq in H. tauto.
Qed.
Lemma limit_spec p t l c : tknb p <> tknq p -> t = tknb p \/ t = tknq p ->
  exists b s, limit_is_met p t l BUY c = Some b /\ limit_is_met p t l SELL c = Some s /\
    (b = true <-> if string_dec t (tknb p) then (c <= l)%Q else (l <= c)%Q) /\
    (s = true <-> if string_dec t (tknb p) then (l <= c)%Q else (c <= l)%Q).
Proof.
  intros Hne Ht. unfold limit_is_met.
  assert (E : has_token p t = true) by (apply has_token_spec; assumption). rewrite E. cbn [negb].
  destruct (Qeq_bool c l) eqn:Ec.
  - apply Qeq_bool_iff in Ec. exists true, true. repeat split; intros _; destruct (string_dec _ _); rewrite Ec; apply Qle_refl.
  - apply Qeq_bool_false in Ec. unfold has_quotetoken.
    assert (Ec' : ~ (l == c)%Q) by (intros G; apply Ec; symmetry; exact G).
    destruct (string_dec t (tknb p)) as [Eb|Eb].
    + subst t. rewrite (proj2 (String.eqb_neq _ _) Hne). cbn.
      do 2 eexists. split; [reflexivity|]. split; [reflexivity|]. rewrite !Qlt_bool_iff, <- !Qle_or. tauto.
    + assert (Eq : t = tknq p) by tauto. subst t. rewrite String.eqb_refl. cbn.
      do 2 eexists. split; [reflexivity|]. split; [reflexivity|]. rewrite !Qlt_bool_iff, <- !Qle_or. tauto.
Qed.
Lemma limit_symmetry p l c : tknb p <> tknq p ->
  limit_is_met p (tknb p) l BUY c = limit_is_met p (tknq p) l SELL c /\
  limit_is_met p (tknb p) l SELL c = limit_is_met p (tknq p) l BUY c.
Proof.
  intros Hne. unfold limit_is_met.
  assert (Eb : has_token p (tknb p) = true) by (apply has_token_spec; tauto).
  assert (Eq : has_token p (tknq p) = true) by (apply has_token_spec; tauto).
  rewrite Eb, Eq. cbn [negb]. unfold has_quotetoken.
  rewrite (proj2 (String.eqb_neq _ _) Hne), String.eqb_refl. cbn. split; reflexivity.
Qed.
Lemma limit_exclusive p t l c : t = tknb p \/ t = tknq p -> ~ (c == l)%Q ->
  exists b, limit_is_met p t l BUY c = Some b /\ limit_is_met p t l SELL c = Some (negb b).
Proof.
  intros Ht Hc. unfold limit_is_met.
  assert (E : has_token p t = true) by (apply has_token_spec; assumption). rewrite E. cbn [negb].
  assert (G := proj2 (Qeq_bool_false _ _) Hc). rewrite G.
  assert (X : Qlt_bool l c = negb (Qlt_bool c l)).
  { unfold Qlt_bool. destruct (Qle_bool c l) eqn:E1, (Qle_bool l c) eqn:E2; try reflexivity.
    - apply Qle_bool_iff in E1, E2. exfalso. apply Hc. apply Qle_antisym; assumption.
    - exfalso. destruct (Qlt_le_dec c l) as [H|H].
      + apply Qlt_le_weak in H. apply Qle_bool_iff in H. congruence.
      + apply Qle_bool_iff in H. congruence. }
  destruct (has_quotetoken p t); cbn; eexists; (split; [reflexivity|]); rewrite X; rewrite ?negb_involutive; reflexivity.
Qed.

(** ** C60: splitting an ISO name again *)
Lemma upper_app a b : upper (a ++ b) = upper a ++ upper b.
Proof. induction a as [|c a IH]; cbn; [reflexivity|]. rewrite IH. reflexivity. Qed.
Lemma string_app_nil a : a ++ "" = a.
Proof. induction a as [|c a IH]; cbn; [reflexivity|]. rewrite IH. reflexivity. Qed.
Lemma string_app_assoc a b c : (a ++ b) ++ c = a ++ (b ++ c).
Proof. induction a as [|x a IH]; cbn; [reflexivity|]. rewrite IH. reflexivity. Qed.
Lemma string_app_inv_head a b c : a ++ b = a ++ c -> b = c.
Proof. induction a as [|x a IH]; cbn; intros H; [assumption|]. injection H as H. auto. Qed.
Lemma prefix_app t s : prefix t s = true <-> exists v, s = t ++ v.
Proof.
  revert s. induction t as [|c t IH]; intros s.
  - split; [|intros; destruct s; reflexivity]. intros _. exists s. reflexivity.
  - destruct s as [|c' s]; cbn.
    + split; [discriminate|]. intros (v & H). discriminate.
    + destruct (ascii_dec c c') as [->|H].
      * rewrite IH. split; intros (v & E); exists v; [rewrite E; reflexivity|]. injection E as E. exact E.
      * split; [discriminate|]. intros (v & E). injection E as E1 E2. congruence.
Qed.
Lemma replace_none t s : (forall u v, s <> u ++ t ++ v) -> replace_from 0 t s = s.
Proof.
  induction s as [|c s IH]; intros H; [reflexivity|]. cbn [replace_from].
  destruct (prefix t (String c s)) eqn:E.
  - apply prefix_app in E as (v & E). exfalso. apply (H "" v). exact E.
  - rewrite IH; [reflexivity|]. intros u v E'. apply (H (String c u) v). rewrite E'. reflexivity.
Qed.
Lemma replace_skip t x s : replace_from (String.length x) t (x ++ s) = replace_from 0 t s.
Proof. induction x as [|c x IH]; cbn [String.length append]; [reflexivity|exact IH]. Qed.
Lemma replace_head t s : t <> "" -> replace_from 0 t (t ++ s) = String "." (replace_from 0 t s).
Proof.
  intros Ht. destruct t as [|c t]; [contradiction|].
  assert (E : prefix (String c t) (String c t ++ s) = true) by (apply prefix_app; exists s; reflexivity).
  change (replace_from 0 (String c t) (String c t ++ s)) with
    (if prefix (String c t) (String c t ++ s) then String "." (replace_from (String.length t) (String c t) (t ++ s))
     else String c (replace_from 0 (String c t) (t ++ s))).
  rewrite E. f_equal. apply replace_skip.
Qed.
Lemma replace_tail t b : t <> "" -> (forall u v, b ++ t = u ++ t ++ v -> v = "") -> replace_from 0 t (b ++ t) = b ++ ".".
Proof.
  intros Ht H. induction b as [|c b IH].
  - cbn [append]. rewrite <- (string_app_nil t) at 2. rewrite replace_head by assumption. reflexivity.
  - change (String c b ++ t) with (String c (b ++ t)). cbn [replace_from].
    destruct (prefix t (String c (b ++ t))) eqn:E.
    + exfalso. apply prefix_app in E as (v & E). specialize (H "" v). cbn in H. specialize (H E). subst v.
      rewrite string_app_nil in E. apply (f_equal String.length) in E. cbn in E. rewrite append_length in E. lia.
    + rewrite IH; [reflexivity|]. intros u v E'. apply (H (String c u)). cbn. f_equal. exact E'.
Qed.
Lemma droplast_dot b : droplast (b ++ ".") = b /\ last_is_dot (b ++ ".") = true.
Proof.
  induction b as [|c b [IH1 IH2]]; [split; reflexivity|]. cbn.
  destruct (b ++ ".") as [|c' r] eqn:E; [destruct b; discriminate|].
  rewrite IH1, IH2. split; reflexivity.
Qed.

Lemma from_iso_base p : built p -> tknb p <> "" -> dot_free (tknb p) -> (forall u v, tknq p <> u ++ tknb p ++ v) ->
  exists p', from_isopair_and_tkn (pair_iso p) (Some (tknb p)) = Some p' /\ same_tokens p' p.
Proof.
  intros Hb Hn Hd Hocc. destruct (built_inv p Hb) as (_ & _ & Ub & Uq).
  unfold from_isopair_and_tkn, pair_iso. rewrite upper_app, Ub, Uq. unfold replace_dot.
  rewrite (proj2 (String.eqb_neq _ _) Hn), replace_head, (replace_none _ _ Hocc) by assumption.
  destruct (String.eqb_spec (String "." (tknq p)) (tknb p ++ tknq p)) as [E|E].
  - exfalso. apply Hd. exists "", "".
    change (String "." (tknq p)) with ("." ++ tknq p) in E. change ("" ++ "." ++ "") with ".".
    symmetry. apply (append_inj_len _ (tknq p) _ (tknq p)); [|exact E].
    apply (f_equal String.length) in E. rewrite !append_length in E. lia.
  - cbn [Ascii.eqb]. eexists. split; [reflexivity|]. split; cbn; assumption.
Qed.
Lemma from_iso_quote p : built p -> tknb p <> "" -> tknq p <> "" -> dot_free (tknb p) -> dot_free (tknq p) ->
  (forall u v, tknb p ++ tknq p = u ++ tknq p ++ v -> v = "") ->
  exists p', from_isopair_and_tkn (pair_iso p) (Some (tknq p)) = Some p' /\ same_tokens p' p.
Proof.
  intros Hb Hn1 Hn2 Hd1 Hd2 Hocc. destruct (built_inv p Hb) as (_ & _ & Ub & Uq).
  unfold from_isopair_and_tkn, pair_iso. rewrite upper_app, Ub, Uq. unfold replace_dot.
  rewrite (proj2 (String.eqb_neq _ _) Hn2), replace_tail by assumption.
  destruct (String.eqb_spec (tknb p ++ ".") (tknb p ++ tknq p)) as [E|E].
  - exfalso. apply string_app_inv_head in E. apply Hd2. exists "", "". symmetry. exact E.
  - destruct (droplast_dot (tknb p)) as [D1 D2]. rewrite D1, D2.
    destruct (tknb p) as [|c b] eqn:Eb; [contradiction|]. change (String c b ++ ".") with (String c (b ++ ".")).
    cbv iota. destruct (Ascii.eqb_spec c ".") as [->|Hc].
    + exfalso. apply Hd1. exists "", b. reflexivity.
    + eexists. split; [reflexivity|]. split; cbn [tknb tknq]; [rewrite Eb|]; assumption.
Qed.
Lemma substring_app1 a b : substring 0 (String.length a) (a ++ b) = a.
Proof. induction a as [|c a IH]; cbn; [destruct b; reflexivity|]. rewrite IH. reflexivity. Qed.
Lemma substring_full b : substring 0 (String.length b) b = b.
Proof. rewrite <- (string_app_nil b) at 2. apply substring_app1. Qed.
Lemma substring_app2 a b n : substring (String.length a) n (a ++ b) = substring 0 n b.
Proof. induction a as [|c a IH]; cbn [String.length append]; [reflexivity|exact IH]. Qed.
Lemma from_iso_split p : built p ->
  (String.length (tknb p) = 3 /\ String.length (tknq p) = 3)%nat \/ (String.length (tknb p) = 4 /\ String.length (tknq p) = 4)%nat ->
  exists p', from_isopair_and_tkn (pair_iso p) None = Some p' /\ same_tokens p' p.
Proof.
  intros Hb Hl. destruct (built_inv p Hb) as (_ & _ & Ub & Uq).
  unfold from_isopair_and_tkn, pair_iso. rewrite upper_app, Ub, Uq, append_length.
  destruct Hl as [[L1 L2]|[L1 L2]]; rewrite L1, L2; cbn [Nat.add Nat.eqb mk_pair slash_truthy];
    (eexists; split; [reflexivity|]; split; cbn [tknb tknq]);
    rewrite <- L1, ?substring_app1, ?substring_app2, ?Ub; try reflexivity;
    rewrite L1, <- L2, substring_full; assumption.
Qed.
Lemma from_iso_split_fails s : String.length s <> 6%nat -> String.length s <> 8%nat -> from_isopair_and_tkn s None = None.
Proof.
  intros H1 H2. unfold from_isopair_and_tkn.
  assert (E : String.length (upper s) = String.length s) by (clear; induction s as [|c s IH]; cbn; congruence).
  rewrite E. destruct (Nat.eqb_spec (String.length s) 6), (Nat.eqb_spec (String.length s) 8); congruence.
Qed.
Lemma from_iso_refuted : exists p p',
  built p /\ tknb p = "USD" /\ tknq p = "USDC" /\
  from_isopair_and_tkn (pair_iso p) (Some (tknb p)) = Some p' /\ tknb p' = "USD" /\ tknq p' = ".C".
Proof.
  exists (mkPair "USD" "USDC" "USD" "USDC" false None None), (mkPair "USD" ".C" "USD" ".C" false None None).
  repeat split. exists (Some "USD/USDC"), None, None, false. repeat split; intros ? H; discriminate H.
Qed.
Lemma iso_ambiguous : exists p q, built p /\ built q /\ pair_iso p = pair_iso q /\
  tknb p <> tknb q /\ tknq p <> tknq q /\ tknb p <> tknq p /\ tknb q <> tknq q.
Proof.
  exists (mkPair "A" "BA" "A" "BA" false None None), (mkPair "AB" "A" "AB" "A" false None None).
  split; [|split].
  - exists (Some "A/BA"), None, None, false. repeat split; intros ? H; discriminate H.
  - exists (Some "AB/A"), None, None, false. repeat split; intros ? H; discriminate H.
  - repeat split; discriminate.
Qed.
Lemma has_token_nspec p t : ~ (t = tknb p \/ t = tknq p) <-> has_token p t = false.
Proof. rewrite has_token_false. tauto. Qed.
Lemma convert_spec' p a pr t u : (0 < pr)%Q -> tknb p <> tknq p ->
  convert p a (tknb p) (tknq p) pr = Some (Some (a * pr)%Q) /\
  convert p a (tknq p) (tknb p) pr = Some (Some (a / pr)%Q) /\
  (t = tknb p \/ t = tknq p -> convert p a t t pr = Some (Some a)) /\
  (~ (t = tknb p \/ t = tknq p) \/ ~ (u = tknb p \/ u = tknq p) -> convert p a t u pr = Some None).
Proof. rewrite !has_token_nspec, <- !has_token_spec. apply convert_spec. Qed.
Lemma convert_round_trip' p a pr t u : (0 < pr)%Q -> tknb p <> tknq p ->
  t = tknb p \/ t = tknq p -> u = tknb p \/ u = tknq p ->
  exists a' a'', convert p a t u pr = Some (Some a') /\ convert p a' u t pr = Some (Some a'') /\ (a'' == a)%Q.
Proof. rewrite <- !has_token_spec. apply convert_round_trip. Qed.
Lemma price_is_unit_conversion' p pr t u : (0 < pr)%Q -> tknb p <> tknq p -> t <> u ->
  t = tknb p \/ t = tknq p -> u = tknb p \/ u = tknq p ->
  exists n a, price p pr t u = Some (Some n) /\ convert p 1 t u n = Some (Some a) /\ (a == pr)%Q.
Proof. rewrite <- !has_token_spec. apply price_is_unit_conversion. Qed.
