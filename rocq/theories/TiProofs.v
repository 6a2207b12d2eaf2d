(** Proofs about data frames built from dicts, and about the tables of trade instructions. *)
From Coq Require Import Reals Bool List String ZArith Lra Lia.
From Verif Require Import CurveModel PairModel HelperModel CpcModel ContainerModel ContainerSpec ContainerProofs2 OptModel OptSpec TiModel TiSpec.
Import ListNotations.
Local Open Scope R_scope.

(** ** keys *)
Lemma existsb_in a l : existsb (String.eqb a) l = true <-> In a l.
Proof. rewrite existsb_exists. split; [intros (b & I & E); apply String.eqb_eq in E; subst b; exact I|]. intros I. exists a. split; [exact I|apply String.eqb_refl]. Qed.
Lemma fold_seen ks acc : exists rest, fold_left seen ks acc = acc ++ rest /\ NoDup rest /\ forall t, In t rest <-> In t ks /\ ~ In t acc.
Proof.
  revert acc. induction ks as [|a ks IH]; intros acc; [exists []; cbn [fold_left]; rewrite app_nil_r; split; [reflexivity|]; split; [constructor|]; intros t; split; [intros []|intros [[] _]]|].
  cbn [fold_left]. unfold seen at 2. destruct (existsb (String.eqb a) acc) eqn:E.
  - apply existsb_in in E. destruct (IH acc) as (rest & R1 & R2 & R3). exists rest. split; [exact R1|]. split; [exact R2|]. intros t. rewrite R3. cbn [In]. split; [tauto|].
    intros [[<-|H] N]; [contradiction|tauto].
  - destruct (IH (acc ++ [a])) as (rest & R1 & R2 & R3). exists (a :: rest). rewrite R1, <- app_assoc. split; [reflexivity|].
    assert (N : ~ In a acc) by (intros H; apply existsb_in in H; congruence). split.
    + constructor; [|exact R2]. intros H. apply R3 in H as [_ H]. apply H, in_or_app. right. left. reflexivity.
    + intros t. cbn [In]. rewrite R3, in_app_iff. cbn [In]. split; [intros [<-|[H1 H2]]; tauto|]. intros [[->|H1] H2]; [left; reflexivity|].
      destruct (string_dec a t) as [->|D]; [left; reflexivity|right; tauto].
Qed.
Lemma fold_seen_nodup ks acc : NoDup (acc ++ ks) -> fold_left seen ks acc = acc ++ ks.
Proof.
  revert acc. induction ks as [|a ks IH]; intros acc D; [rewrite app_nil_r; reflexivity|]. cbn [fold_left]. unfold seen at 2. destruct (existsb (String.eqb a) acc) eqn:E.
  - apply existsb_in in E. exfalso. apply NoDup_remove_2 in D. apply D, in_or_app. left. exact E.
  - rewrite IH; rewrite <- app_assoc; [reflexivity|exact D].
Qed.
Lemma put_keys d key v : map fst (put d key v) = seen (map fst d) key.
Proof.
  induction d as [|[a w] d IH]; [reflexivity|]. cbn [put map fst]. unfold seen in *. cbn [existsb]. rewrite (String.eqb_sym key a). destruct (String.eqb a key); cbn [orb map fst]; [reflexivity|].
  rewrite IH. destruct (existsb (String.eqb key) (map fst d)); reflexivity.
Qed.
Lemma display_keys l : map fst (display l) = fold_left seen (map fst l) [].
Proof.
  unfold display. assert (X : forall l d, map fst (fold_left (fun d e => put d (fst e) (snd e)) l d) = fold_left seen (map fst l) (map fst d)).
  { clear l. induction l as [|e l IH]; intros d; [reflexivity|]. cbn [fold_left map]. rewrite IH, put_keys. reflexivity. }
  apply X.
Qed.
Lemma look_put d key v t : look (put d key v) t = if String.eqb key t then v else look d t.
Proof.
  induction d as [|[a w] d IH]; cbn [put look]; [reflexivity|]. destruct (String.eqb a key) eqn:E; cbn [look].
  - apply String.eqb_eq in E. subst a. destruct (String.eqb key t); reflexivity.
  - rewrite IH. destruct (String.eqb a t) eqn:E2; [|reflexivity]. apply String.eqb_eq in E2. subst a. rewrite String.eqb_sym, E. reflexivity.
Qed.
Lemma look_display_last l a v t : look (display (l ++ [(a, v)])) t = if String.eqb a t then v else look (display l) t.
Proof. unfold display. rewrite fold_left_app. cbn [fold_left fst snd]. apply look_put. Qed.
Lemma look_absent d t : ~ In t (map fst d) -> look d t = Hole.
Proof.
  induction d as [|[a w] d IH]; cbn [map fst look]; intros N; [reflexivity|]. destruct (String.eqb a t) eqn:E; [apply String.eqb_eq in E; exfalso; apply N; left; exact E|]. apply IH. intros H. apply N. right. exact H.
Qed.
(** a row made of fixed headings and two tokens *)
Lemma display_prefix l base : map fst l = base -> NoDup base -> forall a va b vb, exists rest,
  map fst (display (l ++ [(a, va); (b, vb)])) = base ++ rest /\ forall t, In t rest <-> (t = a \/ t = b) /\ ~ In t base.
Proof.
  intros E D a va b vb. rewrite display_keys, map_app, fold_left_app, E. rewrite (fold_seen_nodup base []) by exact D. cbn [app map fst].
  destruct (fold_seen [a; b] base) as (rest & R1 & _ & R3). exists rest. split; [exact R1|]. intros t. rewrite R3. cbn [In]. intuition.
Qed.
Lemma look_two l a va b vb t : look (display (l ++ [(a, va); (b, vb)])) t = if String.eqb b t then vb else if String.eqb a t then va else look (display l) t.
Proof. change (l ++ [(a, va); (b, vb)]) with (l ++ [(a, va)] ++ [(b, vb)]). rewrite app_assoc, look_display_last, look_display_last. reflexivity. Qed.

(** ** frames *)
Lemma filter_all {A} (f : A -> bool) l : (forall a, In a l -> f a = true) -> filter f l = l.
Proof. induction l as [|a l IH]; intros H; [reflexivity|]. cbn [filter]. rewrite (H a) by (left; reflexivity). rewrite IH; [reflexivity|]. intros b Hb. apply H. right. exact Hb. Qed.
Lemma frame_value ds base : ds <> [] -> NoDup ("cid"%string :: base) -> (forall d, In d ds -> exists rest, map fst d = ("cid"%string :: base) ++ rest) ->
  exists toks, frame_by_cid ds = Ret (mkFrame (base ++ toks) (map (fun d => (look d "cid", map (look d) (base ++ toks))) ds)) /\ NoDup (base ++ toks) /\
    forall t, In t toks <-> ~ In t ("cid"%string :: base) /\ exists d, In d ds /\ In t (map fst d).
Proof.
  intros N D H. unfold frame_by_cid. assert (C : exists toks, columns ds = ("cid"%string :: base) ++ toks /\ NoDup toks /\ forall t, In t toks <-> ~ In t ("cid"%string :: base) /\ exists d, In d ds /\ In t (map fst d)).
  { unfold columns. destruct ds as [|d ds]; [congruence|]. destruct (H d (or_introl eq_refl)) as (r0 & E0). cbn [map List.concat]. rewrite E0, <- app_assoc, fold_left_app, (fold_seen_nodup ("cid"%string :: base) []) by exact D.
    destruct (fold_seen (r0 ++ List.concat (map (map fst) ds)) ([] ++ "cid"%string :: base)) as (rest & R1 & R2 & R3). exists rest. split; [exact R1|]. split; [exact R2|]. intros t. rewrite R3, in_app_iff. cbn [app]. split.
    - intros [[I|I] NB]; (split; [exact NB|]); [exists d; split; [left; reflexivity|rewrite E0; apply in_or_app; right; exact I]|].
      apply in_concat in I as (ks & I1 & I2). apply in_map_iff in I1 as (d' & <- & I1). exists d'. split; [right; exact I1|exact I2].
    - intros (NB & d' & [<-|I1] & I2); (split; [|exact NB]); [rewrite E0, in_app_iff in I2; destruct I2 as [I2|I2]; [contradiction|left; exact I2]|].
      right. apply in_concat. exists (map fst d'). split; [apply in_map, I1|exact I2]. }
  destruct C as (toks & C1 & C2 & C3). exists toks. rewrite C1. cbn [app existsb]. rewrite String.eqb_refl. cbn [orb filter negb]. rewrite String.eqb_refl. cbn [negb].
  assert (F : filter (fun a => negb (String.eqb a "cid")) (base ++ toks) = base ++ toks).
  { apply filter_all. intros a Ha. apply negb_true_iff, String.eqb_neq. intros ->. apply in_app_or in Ha as [Ha|Ha]; [inversion D; contradiction|]. apply C3 in Ha as [Ha _]. apply Ha. left. reflexivity. }
  rewrite F. split; [reflexivity|]. split; [|exact C3]. inversion D as [|? ? _ D2]; subst.
  assert (X : forall l, NoDup l -> (forall t, In t l -> ~ In t toks) -> NoDup (l ++ toks)).
  { clear - C2. induction l as [|a l IH]; intros D Q; [exact C2|]. cbn [app]. inversion D; subst. constructor; [|apply IH; [assumption|intros t Ht; apply Q; right; exact Ht]].
    rewrite in_app_iff. intros [G|G]; [contradiction|]. apply (Q a); [left; reflexivity|exact G]. }
  apply X; [exact D2|]. intros t Ht G. apply C3 in G as [G _]. apply G. right. exact Ht.
Qed.
Lemma under_map (g : string -> cell) cols t : In t cols -> under cols (map g cols) t = Some (g t).
Proof. induction cols as [|a cols IH]; intros I; [destruct I|]. cbn [map under]. destruct (string_dec a t) as [->|N]; [reflexivity|]. apply IH. destruct I as [I|I]; [contradiction|exact I]. Qed.
Lemma under_absent cols r t : ~ In t cols -> under cols r t = None.
Proof. revert r. induction cols as [|a cols IH]; intros r N; [reflexivity|]. destruct r as [|c r]; [reflexivity|]. cbn [under]. destruct (string_dec a t) as [->|_]; [exfalso; apply N; left; reflexivity|]. apply IH. intros H. apply N. right. exact H. Qed.
Lemma skipn_app_exact {A} (l l' : list A) n : List.length l = n -> skipn n (l ++ l') = l'.
Proof. intros <-. induction l; [reflexivity|exact IHl]. Qed.
Lemma columns_from_value base toks lab ds n : List.length base = n ->
  columns_from n (mkFrame (base ++ toks) (map (fun d => (lab d, map (look d) (base ++ toks))) ds)) = mkFrame toks (map (fun d => (lab d, map (look d) toks)) ds).
Proof.
  intros L. unfold columns_from. cbn [f_cols f_rows]. rewrite skipn_app_exact by exact L. f_equal. rewrite map_map. apply map_ext. intros d. cbn [fst snd]. f_equal.
  rewrite map_app, skipn_app_exact; [reflexivity|]. rewrite map_length. exact L.
Qed.
Definition val (c : cell) : R := match c with Amt v => v | _ => 0 end.
Lemma rmap_value {A B} (f : A -> res B) (g : A -> B) l : (forall a, In a l -> f a = Ret (g a)) -> rmap f l = Ret (map g l).
Proof. induction l as [|a l IH]; intros H; [reflexivity|]. cbn [rmap map]. rewrite (H a) by (left; reflexivity). cbn [rbind]. rewrite IH; [reflexivity|]. intros b Hb. apply H. right. exact Hb. Qed.
Lemma map_nth_seq {A B} (h : A -> B) (l : list A) d : map (fun j => h (nth j l d)) (seq 0 (List.length l)) = map h l.
Proof.
  assert (X : forall l k pre, List.length pre = k -> map (fun j => h (nth j (pre ++ l) d)) (seq k (List.length l)) = map h l).
  { clear l. induction l as [|a l IH]; intros k pre Hk; [reflexivity|]. cbn [List.length seq map]. rewrite app_nth2, Hk, Nat.sub_diag by lia. cbn [nth]. f_equal.
    change (a :: l) with ([a] ++ l). rewrite app_assoc. apply IH. rewrite app_length, Hk. cbn. lia. }
  apply (X l 0%nat []). reflexivity.
Qed.
Lemma sums_value g cols (lab : dict -> cell) (ds : list dict) : (forall d t, In d ds -> In t cols -> num (look d t) = Ret (val (look d t))) ->
  sums g (mkFrame cols (map (fun d => (lab d, map (look d) cols)) ds)) = Ret (map (fun t => Amt (total (map (fun d => g (val (look d t))) ds))) cols).
Proof.
  intros H. unfold sums. cbn [f_rows f_cols]. rewrite <- (map_nth_seq _ cols EmptyString). apply rmap_value. intros j Hj. apply in_seq in Hj.
  assert (X : rmap (fun r : cell * list cell => num (nth j (snd r) Hole)) (map (fun d => (lab d, map (look d) cols)) ds) = Ret (map (fun d => val (look d (nth j cols EmptyString))) ds)).
  { clear - H Hj. assert (I : In (nth j cols EmptyString) cols) by (apply nth_In; lia).
    induction ds as [|d ds IH]; [reflexivity|]. cbn [map rmap snd]. rewrite (nth_indep _ Hole (look d EmptyString)) by (rewrite map_length; lia). rewrite map_nth, H; [|left; reflexivity|exact I].
    cbn [rbind]. rewrite IH by (intros d' t Hd Ht; apply H; [right; exact Hd|exact Ht]). reflexivity. }
  rewrite X. cbn [rbind]. rewrite rsum_total, map_map. reflexivity.
Qed.

(** ** rows of instructions *)
Definition base_row (info : nat -> tag) (t : instruction) : list (string * cell) :=
  [("cid", Txt (t_cid (info (ti_cid t))));
   ("pair", Txt (match t_pair (info (ti_cid t)) with Some p => fst p | None => "" end));
   ("pairp", Txt (match t_pair (info (ti_cid t)) with Some p => snd p | None => "" end));
   ("tknin", Txt (tknin t)); ("tknout", Txt (tknout t))]%string.
Lemma nodup_headings : NoDup ("cid"%string :: headings).
Proof. unfold headings. repeat constructor; cbn; intuition discriminate. Qed.
Lemma ti_row_look info i t : look (ti_row info i) t = if String.eqb (tknout i) t then Amt (amtout i) else if String.eqb (tknin i) t then Amt (amtin i) else look (display (base_row info i)) t.
Proof. exact (look_two (base_row info i) (tknin i) (Amt (amtin i)) (tknout i) (Amt (amtout i)) t). Qed.
Lemma ti_row_keys info i : exists rest, map fst (ti_row info i) = ("cid"%string :: headings) ++ rest /\ forall t, In t rest <-> (t = tknin i \/ t = tknout i) /\ plain t.
Proof. exact (display_prefix (base_row info i) ("cid"%string :: headings) eq_refl nodup_headings (tknin i) (Amt (amtin i)) (tknout i) (Amt (amtout i))). Qed.
Lemma base_absent info i t : plain t -> look (display (base_row info i)) t = Hole.
Proof. intros P. apply look_absent. rewrite display_keys. exact P. Qed.
Lemma row_shows info i t : sane i -> plain t -> shows t i (look (ti_row info i) t).
Proof.
  intros (N & _) P. rewrite ti_row_look, (base_absent info i t P). unfold shows. destruct (String.eqb (tknout i) t) eqn:E1; [apply String.eqb_eq in E1|apply String.eqb_neq in E1; destruct (String.eqb (tknin i) t) eqn:E2; [apply String.eqb_eq in E2|apply String.eqb_neq in E2]].
  - split; [intros E; congruence|]. split; [reflexivity|]. intros _ G. contradiction.
  - split; [reflexivity|]. split; [intros G; contradiction|]. intros G. contradiction.
  - split; [intros G; contradiction|]. split; [intros G; contradiction|]. reflexivity.
Qed.
Lemma row_num info i t : plain t -> num (look (ti_row info i) t) = Ret (val (look (ti_row info i) t)).
Proof. intros P. rewrite ti_row_look, (base_absent info i t P). destruct (String.eqb _ _); [reflexivity|]. destruct (String.eqb _ _); reflexivity. Qed.
Lemma row_heading info i t c : tknin i <> t -> tknout i <> t -> look (display (base_row info i)) t = c -> look (ti_row info i) t = c.
Proof. intros A B E. rewrite ti_row_look. apply String.eqb_neq in A, B. rewrite A, B. exact E. Qed.
Lemma table_value info l : l <> [] -> exists toks, frame_by_cid (map (ti_row info) l) =
    Ret (mkFrame (headings ++ toks) (map (fun d => (look d "cid", map (look d) (headings ++ toks))) (map (ti_row info) l))) /\
  NoDup (headings ++ toks) /\ forall t, In t toks <-> plain t /\ names t l.
Proof.
  intros N. destruct (frame_value (map (ti_row info) l) headings) as (toks & E & D & I).
  - destruct l; [congruence|discriminate].
  - exact nodup_headings.
  - intros d Hd. apply in_map_iff in Hd as (i & <- & _). destruct (ti_row_keys info i) as (rest & R & _). exists rest. exact R.
  - exists toks. split; [exact E|]. split; [exact D|]. intros t. rewrite I. fold (plain t). split; intros [P Q]; (split; [exact P|]).
    + destruct Q as (d & Hd & K). apply in_map_iff in Hd as (i & <- & Hi). destruct (ti_row_keys info i) as (rest & R & S). rewrite R, in_app_iff in K. destruct K as [K|K]; [contradiction|].
      apply S in K as [K _]. exists i. split; [exact Hi|]. destruct K as [->| ->]; auto.
    + destruct Q as (i & Hi & K). exists (ti_row info i). split; [apply in_map, Hi|]. destruct (ti_row_keys info i) as (rest & R & S). rewrite R, in_app_iff. right. apply S. split; [|exact P].
      destruct K as [K|K]; auto.
Qed.
Lemma nth_rows {A} (lab : A -> cell) (row : A -> list cell) l n a : nth_error l n = Some a -> nth_error (map (fun d => (lab d, row d)) l) n = Some (lab a, row a).
Proof. intros E. rewrite nth_error_map, E. reflexivity. Qed.
Lemma sum_pos info l t : Forall sane l -> plain t ->
  total (map (fun d => (fun v => if rlt 0 v then v else 0) (val (look d t))) (map (ti_row info) l)) = receipts l t /\
  total (map (fun d => (fun v => if rlt v 0 then v else 0) (val (look d t))) (map (ti_row info) l)) = - payouts l t /\
  total (map (fun d => (fun v => v) (val (look d t))) (map (ti_row info) l)) = receipts l t - payouts l t.
Proof.
  intros H P. induction H as [|i l Hi H IH]; [cbn; repeat split; lra|]. destruct IH as (I1 & I2 & I3). cbn [map]. rewrite !total_cons, I1, I2, I3. cbn [receipts payouts].
  destruct (row_shows info i t Hi P) as (S1 & S2 & S3). destruct Hi as (N & A & B).
  assert (Q : forall v, (0 <= v -> (if rlt 0 v then v else 0) = v /\ (if rlt v 0 then v else 0) = 0) /\ (v <= 0 -> (if rlt 0 v then v else 0) = 0 /\ (if rlt v 0 then v else 0) = v)).
  { intros v. unfold rlt. destruct (Rlt_dec 0 v), (Rlt_dec v 0); split; intros; split; lra. }
  destruct (string_dec (tknin i) t) as [E|E]; [destruct (string_dec (tknout i) t) as [E'|E']; [congruence|]; rewrite (S1 E)|destruct (string_dec (tknout i) t) as [E'|E']; [rewrite (S2 E')|rewrite (S3 E E')]]; cbn [val].
  - destruct (Q (amtin i)) as [Q1 _]. destruct (Q1 A) as [-> ->]. repeat split; lra.
  - destruct (Q (amtout i)) as [_ Q1]. destruct (Q1 B) as [-> ->]. repeat split; lra.
  - destruct (Q 0) as [Q1 _]. destruct (Q1 ltac:(lra)) as [G _]. rewrite !G. repeat split; lra.
Qed.

(** ** the formats *)
Lemma raw_table info l : l <> [] -> Forall sane l -> exists f toks, to_format info l (Some "dfraw"%string) = Ret (Frame f) /\ f_cols f = headings ++ toks /\ NoDup (f_cols f) /\
  (forall t, In t toks <-> plain t /\ names t l) /\ List.length (f_rows f) = List.length l /\
  forall n i, nth_error l n = Some i ->
    (forall t, In t toks -> exists c, cell_at f n t = Some c /\ shows t i c) /\
    (plain (tknin i) -> plain (tknout i) -> label_at f n = Some (Txt (t_cid (info (ti_cid i)))) /\
       cell_at f n "pair" = Some (Txt (match t_pair (info (ti_cid i)) with Some p => fst p | None => ""%string end)) /\
       cell_at f n "pairp" = Some (Txt (match t_pair (info (ti_cid i)) with Some p => snd p | None => ""%string end)) /\
       cell_at f n "tknin" = Some (Txt (tknin i)) /\ cell_at f n "tknout" = Some (Txt (tknout i))).
Proof.
  intros N H. destruct (table_value info l N) as (toks & E & D & I). set (F := mkFrame _ _) in E. exists F, toks. split.
  { unfold to_format. cbn [String.eqb]. change (String.prefix "df" "dfraw") with true. cbn match. destruct l as [|i0 l0]; [congruence|]. set (l := i0 :: l0) in *. unfold to_df. rewrite E. reflexivity. }
  split; [reflexivity|]. split; [exact D|]. split; [exact I|]. split; [unfold F; cbn [f_rows]; rewrite !map_length; reflexivity|].
  intros n i E1. assert (R : nth_error (f_rows F) n = Some (look (ti_row info i) "cid", map (look (ti_row info i)) (headings ++ toks))).
  { unfold F. cbn [f_rows]. apply (nth_rows (fun d => look d "cid") (fun d => map (look d) (headings ++ toks))). rewrite nth_error_map, E1. reflexivity. }
  assert (S : sane i) by (rewrite Forall_forall in H; apply H, (nth_error_In _ _ E1)).
  assert (C : forall t, In t (headings ++ toks) -> cell_at F n t = Some (look (ti_row info i) t)).
  { intros t Ht. unfold cell_at. rewrite R. cbn [snd]. apply under_map, Ht. }
  split.
  - intros t Ht. exists (look (ti_row info i) t). split; [apply C, in_or_app; right; exact Ht|]. apply row_shows; [exact S|]. apply I, Ht.
  - intros P1 P2. assert (Q : forall t, In t ("cid"%string :: headings) -> tknin i <> t /\ tknout i <> t) by (intros t Ht; split; intros <-; contradiction).
    assert (L : forall t c, In t ("cid"%string :: headings) -> look (display (base_row info i)) t = c -> look (ti_row info i) t = c) by (intros t c Ht; apply row_heading; apply Q, Ht).
    unfold label_at. rewrite R. cbn [option_map fst]. rewrite !C by (apply in_or_app; left; unfold headings; cbn [In]; auto 8).
    split; [f_equal; apply L; [left; reflexivity|reflexivity]|]. split; [f_equal; apply L; [right; left; reflexivity|reflexivity]|]. split; [f_equal; apply L; [right; right; left; reflexivity|reflexivity]|].
    split; f_equal; (apply L; [unfold headings; cbn [In]; auto 8|reflexivity]).
Qed.
Lemma pretty_table info l : l <> [] -> exists f f', to_format info l (Some "dfraw"%string) = Ret (Frame f) /\ to_format info l (Some "dfp"%string) = Ret (Frame f') /\
  f_cols f' = f_cols f /\ List.length (f_rows f') = List.length (f_rows f) /\
  forall n, label_at f' n = label_at f n /\ forall t, cell_at f' n t = match cell_at f n t with Some Hole => Some (Txt "") | c => c end.
Proof.
  intros N. destruct (table_value info l N) as (toks & E & _). set (F := mkFrame _ _) in E. exists F, (filled F).
  assert (X : forall fmt, String.prefix "df" fmt = true -> to_df info l (Some fmt) = to_df info l (Some fmt)) by reflexivity. clear X.
  split; [|split].
  { unfold to_format. cbn [String.eqb]. change (String.prefix "df" "dfraw") with true. cbn match. destruct l as [|i0 l0]; [congruence|]. set (l := i0 :: l0) in *. unfold to_df. rewrite E. reflexivity. }
  { unfold to_format. cbn [String.eqb]. change (String.prefix "df" "dfp") with true. cbn match. destruct l as [|i0 l0]; [congruence|]. set (l := i0 :: l0) in *. unfold to_df. rewrite E. reflexivity. }
  clearbody F. split; [reflexivity|]. split; [unfold filled; cbn [f_rows]; apply map_length|]. intros n. unfold label_at, cell_at, filled. cbn [f_rows f_cols]. rewrite nth_error_map.
  destruct (nth_error (f_rows F) n) as [[lab r]|]; [|split; reflexivity]. cbn [option_map fst snd]. split; [reflexivity|]. intros t. generalize (f_cols F). intros cols. revert r.
  induction cols as [|a cols IH]; intros r; [reflexivity|]. destruct r as [|c r]; [reflexivity|]. cbn [map under]. destruct (string_dec a t); [destruct c; reflexivity|apply IH].
Qed.
Lemma aggregate_table info l : l <> [] -> Forall sane l -> exists f, to_format info l (Some "dfaggr"%string) = Ret (Frame f) /\ NoDup (f_cols f) /\
  (forall t, In t (f_cols f) <-> plain t /\ names t l) /\ List.length (f_rows f) = (List.length l + 3)%nat /\
  (forall n i, nth_error l n = Some i -> (forall t, In t (f_cols f) -> exists c, cell_at f n t = Some c /\ shows t i c) /\
     (plain (tknin i) -> plain (tknout i) -> label_at f n = Some (Txt (t_cid (info (ti_cid i)))))) /\
  label_at f (List.length l) = Some (Txt "AMMIn") /\ label_at f (List.length l + 1) = Some (Txt "AMMOut") /\ label_at f (List.length l + 2) = Some (Txt "TOTAL NET") /\
  forall t, In t (f_cols f) -> cell_at f (List.length l) t = Some (Amt (receipts l t)) /\ cell_at f (List.length l + 1) t = Some (Amt (- payouts l t)) /\
    cell_at f (List.length l + 2) t = Some (Amt (receipts l t - payouts l t)).
Proof.
  intros N H. destruct (table_value info l N) as (toks & E & D & I). set (ds := map (ti_row info) l) in *.
  set (rows := map (fun d => (look d "cid"%string, map (look d) toks)) ds).
  set (sum g := map (fun t => Amt (total (map (fun d => g (val (look d t))) ds))) toks).
  set (F := mkFrame toks (rows ++ [(Txt "AMMIn", sum (fun v => if rlt 0 v then v else 0)); (Txt "AMMOut", sum (fun v => if rlt v 0 then v else 0)); (Txt "TOTAL NET", sum (fun v => v))])). exists F.
  assert (NM : forall d t, In d ds -> In t toks -> num (look d t) = Ret (val (look d t))).
  { intros d t Hd Ht. unfold ds in Hd. apply in_map_iff in Hd as (i & <- & _). apply row_num. apply I, Ht. }
  split.
  { unfold to_format. cbn [String.eqb]. change (String.prefix "df" "dfaggr") with true. cbn match. destruct l as [|i0 l0]; [congruence|]. set (l := i0 :: l0) in *. unfold to_df. fold ds. rewrite E. cbn [rbind].
    change (String.eqb "dfaggr" "dfraw") with false. change (String.eqb "dfaggr" "dfaggr") with true. cbn match. unfold aggregate.
    rewrite (columns_from_value headings toks (fun d => look d "cid") ds 4 eq_refl). rewrite !(sums_value _ toks (fun d => look d "cid") ds NM). reflexivity. }
  assert (LR : List.length rows = List.length l) by (unfold rows, ds; rewrite !map_length; reflexivity).
  split; [unfold F; cbn [f_cols]; clear - D; revert D; generalize headings; intros b; induction b as [|a b IH]; intros D; [exact D|apply IH; inversion D; assumption]|].
  split; [exact I|]. split; [unfold F; cbn [f_rows]; rewrite app_length, LR; reflexivity|]. split; [|split; [|split; [|split]]].
  - intros n i E1. assert (R : nth_error (f_rows F) n = Some (look (ti_row info i) "cid"%string, map (look (ti_row info i)) toks)).
    { unfold F. cbn [f_rows]. rewrite nth_error_app1 by (rewrite LR; apply nth_error_Some; congruence). unfold rows.
      apply (nth_rows (fun d => look d "cid"%string) (fun d => map (look d) toks)). unfold ds. rewrite nth_error_map, E1. reflexivity. }
    assert (S : sane i) by (rewrite Forall_forall in H; apply H, (nth_error_In _ _ E1)). split.
    + intros t Ht. exists (look (ti_row info i) t). split; [unfold cell_at; rewrite R; cbn [snd]; apply (under_map (look (ti_row info i))); exact Ht|]. apply row_shows; [exact S|apply I, Ht].
    + intros P1 P2. unfold label_at. rewrite R. cbn [option_map fst]. f_equal. apply row_heading; [intros G; apply P1; rewrite G; left; reflexivity|intros G; apply P2; rewrite G; left; reflexivity|reflexivity].
  - unfold label_at, F. cbn [f_rows]. rewrite nth_error_app2 by lia. rewrite LR, Nat.sub_diag. reflexivity.
  - unfold label_at, F. cbn [f_rows]. rewrite nth_error_app2 by lia. rewrite LR. replace (List.length l + 1 - List.length l)%nat with 1%nat by lia. reflexivity.
  - unfold label_at, F. cbn [f_rows]. rewrite nth_error_app2 by lia. rewrite LR. replace (List.length l + 2 - List.length l)%nat with 2%nat by lia. reflexivity.
  - intros t Ht. destruct (sum_pos info l t H) as (S1 & S2 & S3); [apply I, Ht|]. fold ds in S1, S2, S3. unfold cell_at, F. cbn [f_rows f_cols]. rewrite !nth_error_app2 by lia. rewrite LR, Nat.sub_diag.
    replace (List.length l + 1 - List.length l)%nat with 1%nat by lia. replace (List.length l + 2 - List.length l)%nat with 2%nat by lia. cbn [nth_error snd]. unfold sum. rewrite !under_map by exact Ht. rewrite S1, S2, S3. repeat split; reflexivity.
Qed.
