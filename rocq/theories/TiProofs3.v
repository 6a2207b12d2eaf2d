(** Proofs about the table of trades per curve and about scaled variables. *)
From Coq Require Import Reals Bool List String ZArith Lra Lia.
From Verif Require Import CurveModel PairModel HelperModel CpcModel ContainerModel ContainerSpec ContainerProofs2 OptModel OptSpec TiModel TiSpec TiProofs TiProofs2.
Import ListNotations.
Local Open Scope R_scope.

Definition xy_base (name : nat -> string) (inclk : bool) (i : nat) (e : entry) : list (string * cell) :=
  let '(c, dx, dy) := e in
  [("cid", Txt (name i)); ("pair", Txt (pair_of c)); ("tknx", Txt (tknx c)); ("tkny", Txt (tkny c));
   ("x", Amt (x c)); ("y", Amt (y c)); ("xa", Amt (x_act c)); ("ya", Amt (y_act c))]%string ++
  (if inclk then [("k", Amt (k c)); ("kpost", Amt (((x c + dx) * (y c + dy))%R))]%string else []) ++ [("kk"%string, Amt ((x c + dx) * (y c + dy) / k c))].
Lemma xy_row_eq name inclk i c dx dy : xy_row name inclk (i, (c, dx, dy)) = display (xy_base name inclk i (c, dx, dy) ++ [(tknx c, Amt dx); (tkny c, Amt dy)]).
Proof. unfold xy_row, xy_base. destruct inclk; reflexivity. Qed.
Lemma xy_base_keys name inclk i e : map fst (xy_base name inclk i e) = "cid"%string :: xy_headings inclk.
Proof. destruct e as [[c dx] dy]. destruct inclk; reflexivity. Qed.
Lemma nodup_xy inclk : NoDup ("cid"%string :: xy_headings inclk).
Proof. destruct inclk; unfold xy_headings; cbn [app]; repeat constructor; cbn; intuition discriminate. Qed.
Lemma xy_look name inclk i c dx dy t : look (xy_row name inclk (i, (c, dx, dy))) t =
  if String.eqb (tkny c) t then Amt dy else if String.eqb (tknx c) t then Amt dx else look (display (xy_base name inclk i (c, dx, dy))) t.
Proof. rewrite xy_row_eq. apply look_two. Qed.
Lemma xy_base_display name inclk i e : display (xy_base name inclk i e) = xy_base name inclk i e.
Proof. destruct e as [[c dx] dy]. destruct inclk; reflexivity. Qed.
Lemma nth_combine_seq {A} (l : list A) n k0 : nth_error (combine (seq k0 (List.length l)) l) n = option_map (fun a => ((k0 + n)%nat, a)) (nth_error l n).
Proof.
  revert n k0. induction l as [|a l IH]; intros [|n] k0; cbn [List.length seq combine nth_error option_map]; try reflexivity.
  - rewrite Nat.add_0_r. reflexivity.
  - rewrite IH. destruct (nth_error l n); [cbn [option_map]; f_equal; f_equal; lia|reflexivity].
Qed.
Lemma in_combine_seq {A} (l : list A) i e : In (i, e) (combine (seq 0 (List.length l)) l) -> nth_error l i = Some e.
Proof. intros I. apply In_nth_error in I as (n & E). rewrite nth_combine_seq in E. destruct (nth_error l n) eqn:E1; [|discriminate]. cbn in E. injection E as <- ->. exact E1. Qed.
Lemma map_combine_seq {A B} (u : nat * A -> B) (v : A -> B) l : (forall n e, nth_error l n = Some e -> u (n, e) = v e) -> map u (combine (seq 0 (List.length l)) l) = map v l.
Proof.
  assert (X : forall l k0, (forall n e, nth_error l n = Some e -> u ((k0 + n)%nat, e) = v e) -> map u (combine (seq k0 (List.length l)) l) = map v l).
  { clear l. induction l as [|a l IH]; intros k0 H; [reflexivity|]. cbn [List.length seq combine map]. rewrite <- (H 0%nat a eq_refl), Nat.add_0_r. f_equal. apply IH. intros n e E. rewrite <- (H (S n) e E). f_equal. f_equal. lia. }
  intros H. apply X. exact H.
Qed.
Lemma firstn_headings inclk : (8 <= List.length (xy_headings inclk))%nat.
Proof. destruct inclk; cbn; lia. Qed.
Definition summed (inclk : bool) : list string := if inclk then ["kpost"; "kk"]%string else [].
Lemma skip_headings inclk l : skipn 8 (xy_headings inclk ++ l) = summed inclk ++ l.
Proof. destruct inclk; reflexivity. Qed.
Definition moved (t : string) (e : entry) : cell :=
  let '(c, dx, dy) := e in if String.eqb (tkny c) t then Amt dy else if String.eqb (tknx c) t then Amt dx else Hole.
Lemma sum_over_total {A} (g : A -> R) l : sum_over g l = total (map g l).
Proof. induction l as [|a l IH]; [reflexivity|]. cbn [map]. rewrite total_cons, <- IH. reflexivity. Qed.
Lemma under_app_left a b r r' t : In t a -> List.length r = List.length a -> under (a ++ b) (r ++ r') t = under a r t.
Proof.
  revert r. induction a as [|h a IH]; intros [|c r] I L; try discriminate; [destruct I|]. cbn [app under]. destruct (string_dec h t); [reflexivity|]. apply IH; [|injection L as L; exact L]. destruct I; [contradiction|assumption].
Qed.
Lemma under_app_right a b r r' t : ~ In t a -> List.length r = List.length a -> under (a ++ b) (r ++ r') t = under b r' t.
Proof.
  revert r. induction a as [|h a IH]; intros [|c r] I L; try discriminate; [reflexivity|]. cbn [app under]. destruct (string_dec h t) as [->|_]; [exfalso; apply I; left; reflexivity|]. apply IH; [|injection L as L; exact L]. intros G. apply I. right. exact G.
Qed.
Lemma under_repeat n cols t : In t cols -> (List.length cols <= n)%nat -> under cols (repeat Hole n) t = Some Hole.
Proof. revert n. induction cols as [|a cols IH]; intros [|n] I L; cbn in L; try lia; [destruct I|destruct I|]. cbn [repeat under]. destruct (string_dec a t); [reflexivity|]. apply IH; [destruct I; [contradiction|assumption]|lia]. Qed.

Lemma xy_table name inclk (l : list entry) : l <> [] -> Forall (fun e => tknx (fst (fst e)) <> tkny (fst (fst e)) /\ xy_plain inclk (tknx (fst (fst e))) /\ xy_plain inclk (tkny (fst (fst e)))) l ->
  exists f toks, dxdydf name inclk l = Ret f /\ f_cols f = xy_headings inclk ++ toks /\ NoDup (f_cols f) /\
    (forall t, In t toks <-> exists c, In c (pools l) /\ (tknx c = t \/ tkny c = t)) /\ List.length (f_rows f) = (List.length l + 1)%nat /\
    (forall n c dx dy, nth_error l n = Some (c, dx, dy) -> label_at f n = Some (Txt (name n)) /\
       cell_at f n "pair" = Some (Txt (pair_of c)) /\ cell_at f n "tknx" = Some (Txt (tknx c)) /\ cell_at f n "tkny" = Some (Txt (tkny c)) /\
       cell_at f n "x" = Some (Amt (x c)) /\ cell_at f n "y" = Some (Amt (y c)) /\ cell_at f n "xa" = Some (Amt (x_act c)) /\ cell_at f n "ya" = Some (Amt (y_act c)) /\
       cell_at f n "kk" = Some (Amt (product_after (c, dx, dy) / k c)) /\
       (inclk = true -> cell_at f n "k" = Some (Amt (k c)) /\ cell_at f n "kpost" = Some (Amt (product_after (c, dx, dy)))) /\
       cell_at f n (tknx c) = Some (Amt dx) /\ cell_at f n (tkny c) = Some (Amt dy) /\ (forall t, In t toks -> t <> tknx c -> t <> tkny c -> cell_at f n t = Some Hole)) /\
    label_at f (List.length l) = Some (Txt "total") /\ (forall t, In t toks -> cell_at f (List.length l) t = Some (Amt (net l t))) /\
    (forall t, In t (xy_headings inclk) -> t <> "kpost"%string -> t <> "kk"%string \/ inclk = false -> cell_at f (List.length l) t = Some Hole) /\
    (inclk = true -> cell_at f (List.length l) "kpost" = Some (Amt (sum_over product_after l)) /\ cell_at f (List.length l) "kk" = Some (Amt (sum_over (fun e => product_after e / k (fst (fst e))) l))).
Proof.
  intros N H. rewrite Forall_forall in H. set (ds := xy_rows name inclk l).
  assert (RK : forall i c dx dy, exists rest, map fst (xy_row name inclk (i, (c, dx, dy))) = ("cid"%string :: xy_headings inclk) ++ rest /\ forall t, In t rest <-> (t = tknx c \/ t = tkny c) /\ xy_plain inclk t).
  { intros i c dx dy. rewrite xy_row_eq. apply display_prefix; [apply xy_base_keys|apply nodup_xy]. }
  assert (IN : forall d, In d ds -> exists i c dx dy, d = xy_row name inclk (i, (c, dx, dy)) /\ nth_error l i = Some (c, dx, dy)).
  { intros d Hd. unfold ds, xy_rows in Hd. apply in_map_iff in Hd as ([i [[c dx] dy]] & <- & I). exists i, c, dx, dy. split; [reflexivity|]. apply in_combine_seq, I. }
  assert (NR : forall n e, nth_error l n = Some e -> nth_error ds n = Some (xy_row name inclk (n, e))).
  { intros n e E. unfold ds, xy_rows. rewrite nth_error_map, nth_combine_seq, E. reflexivity. }
  destruct (frame_value ds (xy_headings inclk)) as (toks & E & D & I).
  { unfold ds, xy_rows. destruct l; [congruence|discriminate]. } { apply nodup_xy. }
  { intros d Hd. destruct (IN d Hd) as (i & c & dx & dy & -> & _). destruct (RK i c dx dy) as (rest & R & _). exists rest. exact R. }
  assert (IT : forall t, In t toks <-> exists c, In c (pools l) /\ (tknx c = t \/ tkny c = t)).
  { intros t. rewrite I. split.
    - intros (P & d & Hd & K). destruct (IN d Hd) as (i & c & dx & dy & -> & E1). destruct (RK i c dx dy) as (rest & R & S). rewrite R, in_app_iff in K. destruct K as [K|K]; [contradiction|]. apply S in K as [K _].
      exists c. split; [unfold pools; apply in_map_iff; exists (c, dx, dy); split; [reflexivity|apply (nth_error_In _ _ E1)]|]. destruct K as [->| ->]; auto.
    - intros (c & Hc & K). unfold pools in Hc. apply in_map_iff in Hc as ([[c' dx] dy] & <- & Hc). cbn [fst] in K. destruct (H _ Hc) as (_ & P1 & P2). cbn [fst] in P1, P2.
      assert (P : xy_plain inclk t) by (destruct K as [<-|<-]; assumption). split; [exact P|]. apply In_nth_error in Hc as (n & En). exists (xy_row name inclk (n, (c', dx, dy))). split; [apply (nth_error_In ds n), NR, En|].
      destruct (RK n c' dx dy) as (rest & R & S). rewrite R, in_app_iff. right. apply S. split; [|exact P]. destruct K as [K|K]; auto. }
  assert (PT : forall t, In t toks -> xy_plain inclk t) by (intros t Ht; apply I in Ht as [Ht _]; exact Ht).
  assert (LK : forall n c dx dy t, In (c, dx, dy) l -> look (xy_row name inclk (n, (c, dx, dy))) t = if in_dec string_dec t ("cid"%string :: xy_headings inclk) then look (xy_base name inclk n (c, dx, dy)) t else moved t (c, dx, dy)).
  { intros n c dx dy t Hc. rewrite xy_look, xy_base_display. destruct (H _ Hc) as (_ & P1 & P2). cbn [fst] in P1, P2. destruct (in_dec string_dec t ("cid"%string :: xy_headings inclk)) as [G|G].
    - rewrite (proj2 (String.eqb_neq (tkny c) t)) by (intros <-; contradiction). rewrite (proj2 (String.eqb_neq (tknx c) t)) by (intros <-; contradiction). reflexivity.
    - unfold moved. rewrite look_absent by (rewrite xy_base_keys; exact G). reflexivity. }
  set (lab := fun d : dict => look d "cid"%string). set (cols := xy_headings inclk ++ toks) in *.
  set (rows := map (fun d => (lab d, map (look d) cols)) ds) in *.
  assert (CF : columns_from 8 (mkFrame cols rows) = mkFrame (summed inclk ++ toks) (map (fun d => (lab d, map (look d) (summed inclk ++ toks))) ds)).
  { destruct inclk.
    - apply (columns_from_value ["pair"; "tknx"; "tkny"; "x"; "y"; "xa"; "ya"; "k"]%string (summed true ++ toks) lab ds 8 eq_refl).
    - apply (columns_from_value ["pair"; "tknx"; "tkny"; "x"; "y"; "xa"; "ya"; "kk"]%string (summed false ++ toks) lab ds 8 eq_refl). }
  assert (NM : forall d t, In d ds -> In t (summed inclk ++ toks) -> num (look d t) = Ret (val (look d t))).
  { intros d t Hd Ht. destruct (IN d Hd) as (i & c & dx & dy & -> & E1). rewrite (LK i c dx dy t (nth_error_In _ _ E1)). destruct (in_dec string_dec t ("cid"%string :: xy_headings inclk)) as [G|G].
    - apply in_app_or in Ht as [Ht|Ht]; [|apply PT in Ht; contradiction]. destruct inclk; cbn [summed In] in Ht; [|destruct Ht]. destruct Ht as [<-|[<-|[]]]; reflexivity.
    - unfold moved. destruct (String.eqb _ _); [reflexivity|]. destruct (String.eqb _ _); reflexivity. }
  set (tot := fun t : string => Amt (total (map (fun d => val (look d t)) ds))).
  set (F := mkFrame cols (rows ++ [(Txt "total", repeat Hole 8 ++ map tot (summed inclk ++ toks))])). exists F, toks.
  assert (LR : List.length rows = List.length l) by (unfold rows, ds, xy_rows; rewrite !map_length, combine_length, seq_length; lia).
  split.
  { unfold dxdydf. fold ds. assert (E' : frame_by_cid ds = Ret (mkFrame cols rows)) by exact E. rewrite E'. cbn [rbind]. rewrite CF, (sums_value _ _ lab ds NM). cbn [rbind f_cols f_rows]. unfold F. do 6 f_equal. rewrite Nat.min_l; [reflexivity|]. unfold cols. rewrite app_length. pose proof (firstn_headings inclk). lia. }
  split; [reflexivity|]. split; [exact D|]. split; [exact IT|]. split; [unfold F; cbn [f_rows]; rewrite app_length, LR; reflexivity|].
  assert (ROW : forall n c dx dy, nth_error l n = Some (c, dx, dy) -> nth_error (f_rows F) n = Some (lab (xy_row name inclk (n, (c, dx, dy))), map (look (xy_row name inclk (n, (c, dx, dy)))) cols)).
  { intros n c dx dy E1. unfold F. cbn [f_rows]. rewrite nth_error_app1 by (rewrite LR; apply nth_error_Some; congruence). unfold rows. rewrite nth_error_map, (NR n _ E1). reflexivity. }
  assert (CELL : forall n c dx dy t, nth_error l n = Some (c, dx, dy) -> In t cols -> cell_at F n t = Some (if in_dec string_dec t ("cid"%string :: xy_headings inclk) then look (xy_base name inclk n (c, dx, dy)) t else moved t (c, dx, dy))).
  { intros n c dx dy t E1 Ht. unfold cell_at. rewrite (ROW n c dx dy E1). cbn [snd]. rewrite (under_map (look (xy_row name inclk (n, (c, dx, dy))))) by exact Ht. rewrite LK by apply (nth_error_In _ _ E1). reflexivity. }
  assert (HEAD : forall n c dx dy t, nth_error l n = Some (c, dx, dy) -> In t (xy_headings inclk) -> cell_at F n t = Some (look (xy_base name inclk n (c, dx, dy)) t)).
  { intros n c dx dy t E1 Ht. rewrite (CELL n c dx dy t E1) by (unfold cols; apply in_or_app; left; exact Ht). destruct (in_dec string_dec t ("cid"%string :: xy_headings inclk)) as [_|G]; [reflexivity|]. exfalso. apply G. right. exact Ht. }
  assert (TOK : forall n c dx dy t, nth_error l n = Some (c, dx, dy) -> In t toks -> cell_at F n t = Some (moved t (c, dx, dy))).
  { intros n c dx dy t E1 Ht. rewrite (CELL n c dx dy t E1) by (unfold cols; apply in_or_app; right; exact Ht). destruct (in_dec string_dec t ("cid"%string :: xy_headings inclk)) as [G|_]; [|reflexivity]. exfalso. apply PT in Ht. contradiction. }
  split; [|split; [|split; [|split]]].
  - intros n c dx dy E1. assert (Hc : In (c, dx, dy) l) by apply (nth_error_In _ _ E1). destruct (H _ Hc) as (Nc & P1 & P2). cbn [fst] in Nc, P1, P2.
    assert (Tx : In (tknx c) toks) by (apply IT; exists c; split; [unfold pools; apply in_map_iff; exists (c, dx, dy); split; [reflexivity|exact Hc]|left; reflexivity]).
    assert (Ty : In (tkny c) toks) by (apply IT; exists c; split; [unfold pools; apply in_map_iff; exists (c, dx, dy); split; [reflexivity|exact Hc]|right; reflexivity]).
    split; [unfold label_at; rewrite (ROW n c dx dy E1); cbn [option_map fst]; unfold lab; rewrite LK by exact Hc; destruct (in_dec string_dec "cid"%string ("cid"%string :: xy_headings inclk)) as [_|G]; [reflexivity|exfalso; apply G; left; reflexivity]|].
    do 8 (split; [rewrite (HEAD n c dx dy _ E1) by (destruct inclk; unfold xy_headings; cbn [app In]; auto 12); destruct inclk; reflexivity|]).
    split; [intros ->; split; (rewrite (HEAD n c dx dy _ E1) by (unfold xy_headings; cbn [app In]; auto 12); reflexivity)|].
    split; [rewrite (TOK n c dx dy _ E1 Tx); unfold moved; rewrite String.eqb_refl, (proj2 (String.eqb_neq (tkny c) (tknx c))) by congruence; reflexivity|].
    split; [rewrite (TOK n c dx dy _ E1 Ty); unfold moved; rewrite String.eqb_refl; reflexivity|].
    intros t Ht N1 N2. rewrite (TOK n c dx dy _ E1 Ht). unfold moved. rewrite (proj2 (String.eqb_neq (tkny c) t)), (proj2 (String.eqb_neq (tknx c) t)) by congruence. reflexivity.
  - unfold label_at, F. cbn [f_rows]. rewrite nth_error_app2 by lia. rewrite LR, Nat.sub_diag. reflexivity.
  - intros t Ht. unfold cell_at, F. cbn [f_rows f_cols]. rewrite nth_error_app2 by lia. rewrite LR, Nat.sub_diag. cbn [nth_error snd].
    assert (X : exists a, cols = a ++ (summed inclk ++ toks) /\ List.length a = 8%nat /\ ~ In t a).
    { exists (firstn 8 (xy_headings inclk)). unfold cols. split; [destruct inclk; reflexivity|]. split; [destruct inclk; reflexivity|]. intros G. apply (PT t Ht). right. rewrite <- (firstn_skipn 8 (xy_headings inclk)). apply in_or_app. left. exact G. }
    destruct X as (a & -> & La & Na). rewrite under_app_right by (try exact Na; rewrite repeat_length, La; reflexivity). rewrite under_map by (apply in_or_app; right; exact Ht). unfold tot. do 2 f_equal. rewrite net_total.
    unfold ds, xy_rows. rewrite map_map. f_equal. apply map_combine_seq. intros n [[c dx] dy] E1. pose proof (nth_error_In _ _ E1) as Hc. rewrite LK by exact Hc.
    destruct (in_dec string_dec t ("cid"%string :: xy_headings inclk)) as [G|_]; [exfalso; apply PT in Ht; contradiction|].
    destruct (H _ Hc) as (Nc & _). cbn [fst] in Nc. unfold moved, flow. destruct (string_dec (tkny c) t) as [Ey|Ey].
    + rewrite Ey, String.eqb_refl. destruct (string_dec (tknx c) t) as [Ex|Ex]; [congruence|]. cbn [val]. lra.
    + rewrite (proj2 (String.eqb_neq _ _) Ey). destruct (string_dec (tknx c) t) as [Ex|Ex]; [rewrite Ex, String.eqb_refl; cbn [val]; lra|]. rewrite (proj2 (String.eqb_neq _ _) Ex). cbn [val]. lra.
  - intros t Ht N1 N2. unfold cell_at, F. cbn [f_rows f_cols]. rewrite nth_error_app2 by lia. rewrite LR, Nat.sub_diag. cbn [nth_error snd].
    assert (X : exists a, cols = a ++ (summed inclk ++ toks) /\ List.length a = 8%nat /\ In t a).
    { exists (firstn 8 (xy_headings inclk)). unfold cols. split; [destruct inclk; reflexivity|]. split; [destruct inclk; reflexivity|]. destruct inclk; unfold xy_headings in *; cbn [app firstn] in *; [|exact Ht].
      destruct N2 as [N2|N2]; [|discriminate]. cbn [In] in *. intuition congruence. }
    destruct X as (a & -> & La & Ia). rewrite under_app_left by (try exact Ia; rewrite repeat_length, La; reflexivity). apply under_repeat; [exact Ia|lia].
  - intros ->. assert (X : forall t (g : entry -> R), In t (summed true) -> (forall n e, In e l -> val (look (xy_base name true n e) t) = g e) -> cell_at F (List.length l) t = Some (Amt (sum_over g l))).
    { intros t g Ht Hg. unfold cell_at, F. cbn [f_rows f_cols]. rewrite nth_error_app2 by lia. rewrite LR, Nat.sub_diag. cbn [nth_error snd].
      change cols with (["pair"; "tknx"; "tkny"; "x"; "y"; "xa"; "ya"; "k"]%string ++ (summed true ++ toks)). rewrite under_app_right by (try reflexivity; destruct Ht as [<-|[<-|[]]]; cbn; intuition discriminate).
      rewrite under_map by (apply in_or_app; left; exact Ht). unfold tot. do 2 f_equal. rewrite sum_over_total. unfold ds, xy_rows. rewrite map_map. f_equal. apply map_combine_seq. intros n [[c dx] dy] E1.
      pose proof (nth_error_In _ _ E1) as Hc. rewrite LK by exact Hc. destruct (in_dec string_dec t ("cid"%string :: xy_headings true)) as [_|G]; [apply Hg, Hc|]. exfalso. apply G. destruct Ht as [<-|[<-|[]]]; unfold xy_headings; cbn [app In]; auto 14. }
    split; apply X; try (cbn; tauto); intros n [[c dx] dy] _; reflexivity.
Qed.

(** ** scaled variables *)
Lemma zipw_nth f u v n a b : nth_error u n = Some a -> nth_error v n = Some b -> nth_error (zipw f u v) n = Some (f a b).
Proof. revert v n. induction u as [|a' u IH]; intros [|b' v] [|n] A B; try discriminate; cbn [zipw nth_error] in *; [congruence|]. apply IH; assumption. Qed.
Lemma zipw_length f u v : List.length u = List.length v -> List.length (zipw f u v) = List.length u.
Proof. revert v. induction u as [|a u IH]; intros [|b v] L; try discriminate; [reflexivity|]. cbn [zipw List.length]. rewrite IH; [reflexivity|]. injection L as L. exact L. Qed.
Lemma scaled_spec raw sc tk : 
  (raw = None -> make_scaled (mkScaled raw sc tk) = Ret (mkScaled raw sc tk) /\ scaled_value (mkScaled raw sc tk) = None) /\
  (forall l, raw = Some l ->
    ((exists v, make_scaled (mkScaled raw sc tk) = Ret v) <-> (forall s, sc = Each s -> List.length s = List.length l) /\ (forall t, tk = Some t -> List.length t = List.length l)) /\
    ((exists v, make_scaled (mkScaled raw sc tk) = Ret v) \/ make_scaled (mkScaled raw sc tk) = Raise ValueError) /\
    forall v, make_scaled (mkScaled raw sc tk) = Ret v -> exists w, scaled_value v = Some w /\ List.length w = List.length l /\
      forall n a, nth_error l n = Some a -> (forall r, sc = One r -> nth_error w n = Some (a / r)) /\ (forall s, sc = Each s -> exists r, nth_error s n = Some r /\ nth_error w n = Some (a / r))).
Proof.
  split; [intros ->; split; reflexivity|]. intros l ->. unfold make_scaled, scaled_value. cbn [v_raw v_scale v_token].
  assert (T : match tk with None => false | Some t => negb (Nat.eqb (List.length t) (List.length l)) end = false <-> forall t, tk = Some t -> List.length t = List.length l).
  { destruct tk as [t|]; [|split; [intros _ t; discriminate|reflexivity]]. rewrite negb_false_iff, Nat.eqb_eq. split; [intros E t' G; congruence|]. intros G. apply G. reflexivity. }
  assert (S : match sc with One _ => false | Each s => negb (Nat.eqb (List.length s) (List.length l)) end = false <-> forall s, sc = Each s -> List.length s = List.length l).
  { destruct sc as [r|s]; [split; [intros _ s; discriminate|reflexivity]|]. rewrite negb_false_iff, Nat.eqb_eq. split; [intros E t' G; congruence|]. intros G. apply G. reflexivity. }
  destruct (match sc with One _ => false | Each s => _ end) eqn:E1; [|destruct (match tk with None => false | Some t => _ end) eqn:E2].
  - split; [split; [intros [v G]; discriminate|intros [A _]; apply S in A; discriminate]|]. split; [right; reflexivity|]. intros v G. discriminate.
  - split; [split; [intros [v G]; discriminate|intros [_ A]; apply T in A; discriminate]|]. split; [right; reflexivity|]. intros v G. discriminate.
  - split; [split; [intros _; split; [apply S|apply T]; reflexivity|intros _; eexists; reflexivity]|]. split; [left; eexists; reflexivity|]. intros v G. injection G as <-. cbn [v_raw v_scale].
    eexists. split; [reflexivity|]. destruct sc as [r|s].
    + split; [apply map_length|]. intros n a En. split; [intros r' G; injection G as <-; rewrite nth_error_map, En; reflexivity|discriminate].
    + pose proof (proj1 S eq_refl s eq_refl) as L. split; [apply zipw_length; congruence|]. intros n a En. split; [discriminate|]. intros s' G. injection G as <-.
      destruct (nth_error s n) as [r|] eqn:Es; [|apply nth_error_None in Es; assert ((n < List.length l)%nat) by (apply nth_error_Some; congruence); lia]. exists r. split; [reflexivity|]. apply zipw_nth; assumption.
Qed.
