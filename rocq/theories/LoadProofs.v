(** Proofs for C137. *)
From Coq Require Import Reals ZArith List Bool String Lra Lia.
From Verif Require Import CurveModel CurveProofs OrderModel LoadModel LoadSpec.
Import ListNotations.
Local Open Scope R_scope.

Lemma rlt_inv a b : rlt a b = true -> a < b. Proof. unfold rlt. destruct (Rlt_dec a b); [auto|discriminate]. Qed.
Lemma rlt_inv_false a b : rlt a b = false -> b <= a. Proof. unfold rlt. destruct (Rlt_dec a b); [discriminate|lra]. Qed.
Lemma record_plain r b s y z : complete r b s y z -> exists o, record_order false r = Ret o /\ describes r o.
Proof.
  intros C. pose proof C as (B & S0 & Y & Z). unfold record_order. rewrite S0, B, Y. cbn [num_of rbind].
  assert (Hz : exists oz, num_of (j_yint r) = Ret oz /\ z = match oz with None => y | Some z => z end). { destruct Z as [[Z1 Z2]|Z1]; rewrite Z1; cbn; eauto. }
  destruct Hz as (oz & Hz & ->). rewrite Hz. cbn [rbind]. unfold make_order, convert_prices. cbn [i_B i_S i_rev rbind].
  assert (K : forall l h, exists d, (let '(B1, W, l, h) := (Some b, Some s, Some l, Some h) in let* zd := convert_yint (mkIn (Some b) (Some s) oz None None None (Some y) None false false) l h in let '(z, d) := zd in
     let adj := if opt_eqb h l then true else false in let d := match d with Some d => Some d | None => z end in
     let '(z, d) := match z with Some z => (Some z, d) | None => match d with Some d => (Some d, Some d) | None => (Some y, Some y) end end in
     match Some y, z, l, h with Some y, Some z, Some l, Some h => if opt_eqb d (Some z) then Ret (mkOrder B1 W z h l y adj) else Raise AssertionError | _, _, _, _ => Raise AssertionError end) = Ret (mkOrder (Some b) (Some s) (match oz with None => y | Some z => z end) h l y d)).
  { intros l h. eexists. unfold convert_yint. cbn [i_yint i_pmarg i_D]. destruct oz as [w|]; cbn [rbind opt_eqb]; rewrite req_true by reflexivity; reflexivity. }
  destruct (rlt ((s + b) ^ 2) (b * b)) eqn:E.
  - apply rlt_inv in E. destruct (K ((s + b) ^ 2) (b * b)) as [d K0]. cbn [rbind i_y i_adj] in *. rewrite K0. eexists. split; [reflexivity|]. exists b, s, y, (match oz with None => y | Some z => z end). cbn. split; [exact C|]. repeat split; try reflexivity; [lra|]. right. split; [reflexivity|ring].
  - apply rlt_inv_false in E. destruct (K (b * b) ((s + b) ^ 2)) as [d K0]. cbn [rbind i_y i_adj] in *. rewrite K0. eexists. split; [reflexivity|]. exists b, s, y, (match oz with None => y | Some z => z end). cbn. split; [exact C|]. repeat split; try reflexivity; [lra|]. left. split; [reflexivity|ring].
Qed.
Lemma int_part_bound x : IZR (Int_part x) <= x < IZR (Int_part x) + 1.
Proof. destruct (base_Int_part x). lra. Qed.
Lemma record_floor r b s y z : complete r b s y z -> exists o, record_order true r = Ret o /\ describes_floor r o.
Proof.
  intros C. destruct (record_plain r b s y z C) as (o & E & (b' & s' & y' & z' & C' & Eb & Es & Ey & Ez & Hle & P)).
  assert (Hl : 0 <= o_plow o) by (destruct P as [[P1 P2]|[P1 P2]]; rewrite ?P1, ?P2; apply Rle_0_sqr).
  unfold record_order in *. destruct (num_of (j_S r)) as [vs|]; [|discriminate]. cbn [rbind] in *. destruct (num_of (j_B r)) as [vb|]; [|discriminate]. cbn [rbind] in *. destruct (num_of (j_y r)) as [vy|]; [|discriminate]. cbn [rbind] in *. destruct (num_of (j_yint r)) as [vz|]; [|discriminate]. cbn [rbind] in *. destruct (make_order _) as [c|]; [|discriminate]. cbn [rbind] in *. injection E as ->.
  unfold rsqrt. destruct (rlt (o_phigh o) 0) eqn:E1; [apply rlt_inv in E1; lra|]. destruct (rlt (o_plow o) 0) eqn:E2; [apply rlt_inv in E2; lra|]. cbn [rbind]. eexists. split; [reflexivity|].
  exists b', s', y', z', (Int_part (sqrt (o_phigh o))), (Int_part (sqrt (o_plow o))). cbn. split; [exact C'|]. split; [exact Ey|]. split; [exact Ez|]. split; [exact Hle|]. split; [exact P|]. split; [apply int_part_bound|]. split; [apply int_part_bound|]. split; reflexivity.
Qed.
Lemma record_null floor r : has_null r -> record_order floor r = Raise TypeError.
Proof.
  intros H. unfold record_order. destruct (j_S r) eqn:A; cbn [num_of rbind]; try reflexivity; destruct (j_B r) eqn:B; cbn [num_of rbind]; try reflexivity; destruct (j_y r) eqn:C; cbn [num_of rbind]; try reflexivity; destruct (j_yint r) eqn:D; cbn [num_of rbind]; try reflexivity; exfalso; destruct H as [H|[H|[H|H]]]; congruence.
Qed.
Lemma record_lacks floor r : lacks r -> record_order floor r = Raise AssertionError.
Proof.
  intros [N H]. unfold record_order. destruct (j_S r) eqn:A; [| |]; cbn [num_of rbind]; [|exfalso; apply N; left; exact A|]; (destruct (j_B r) eqn:B; cbn [num_of rbind]; [|exfalso; apply N; right; left; exact B|]); (destruct (j_y r) eqn:C; cbn [num_of rbind]; [|exfalso; apply N; right; right; left; exact C|]); (destruct (j_yint r) eqn:D; cbn [num_of rbind]; [|exfalso; apply N; right; right; right; exact D|]); try (exfalso; destruct H as [H|[H|H]]; discriminate); unfold make_order, convert_prices; cbn [i_B i_S i_plow i_phigh i_rev rbind]; try (destruct (rlt _ _)); cbn [rbind]; unfold convert_yint; cbn [i_yint i_pmarg i_D i_y rbind]; reflexivity.
Qed.
Lemma record_cases r : has_null r \/ lacks r \/ exists b s y z, complete r b s y z.
Proof.
  assert (D : forall v, v = JNull \/ v = JAbsent \/ exists x, v = JNum x) by (intros [| |x]; eauto).
  destruct (D (j_S r)) as [A|A]; [left; left; exact A|]. destruct (D (j_B r)) as [B|B]; [left; right; left; exact B|]. destruct (D (j_y r)) as [C|C]; [left; right; right; left; exact C|]. destruct (D (j_yint r)) as [E|E]; [left; right; right; right; exact E|]. right.
  assert (N : ~ has_null r). { intros [H|[H|[H|H]]]; rewrite H in *; [destruct A as [X|[x X]]|destruct B as [X|[x X]]|destruct C as [X|[x X]]|destruct E as [X|[x X]]]; discriminate. }
  destruct A as [A|[s A]]; [left; split; auto|]. destruct B as [B|[b B]]; [left; split; auto|]. destruct C as [C|[y C]]; [left; split; auto|]. right. destruct E as [E|[z E]]; [exists b, s, y, y|exists b, s, y, z]; repeat split; auto.
Qed.
(** the loop *)
Fixpoint all_records floor (l : list jrec) : res (list order) := match l with [] => Ret [] | r :: l => let* c := record_order floor r in let* cs := all_records floor l in Ret (c :: cs) end.
Lemma read_all floor num : forall l done, (num <= Z.of_nat (List.length done))%Z -> read_json floor num done l = let* cs := all_records floor l in Ret (done ++ cs)%list.
Proof.
  induction l as [|r l IH]; intros done H; cbn; [rewrite app_nil_r; reflexivity|]. destruct (record_order floor r) as [c|]; [|reflexivity]. cbn [rbind]. rewrite app_length. cbn [List.length]. destruct (Z.eqb_spec (Z.of_nat (List.length done + 1)) num) as [E|E]; [lia|]. rewrite IH by (rewrite app_length; cbn; lia). destruct (all_records floor l); cbn; [rewrite <- app_assoc; reflexivity|reflexivity].
Qed.
Lemma read_some floor : forall l k done, read_json floor (Z.of_nat (List.length done + S k)) done l = let* cs := all_records floor (firstn (S k) l) in Ret (done ++ cs)%list.
Proof.
  induction l as [|r l IH]; intros k done; [cbn; rewrite app_nil_r; reflexivity|]. cbn [read_json]. change (firstn (S k) (r :: l)) with (r :: firstn k l). cbn [all_records]. destruct (record_order floor r) as [c|]; [|reflexivity]. cbn [rbind]. rewrite app_length. cbn [List.length]. destruct k as [|k].
  - rewrite Z.eqb_refl. cbn. reflexivity.
  - destruct (Z.eqb_spec (Z.of_nat (List.length done + 1)) (Z.of_nat (List.length done + S (S k)))); [lia|]. replace (List.length done + S (S k))%nat with (List.length (done ++ [c]) + S k)%nat by (rewrite app_length; cbn; lia). rewrite IH. destruct (all_records floor (firstn (S k) l)); cbn; [rewrite <- app_assoc; reflexivity|reflexivity].
Qed.
Lemma firstn_min {A} n (l : list A) : firstn (Nat.min n (List.length l)) l = firstn n l.
Proof. destruct (Nat.min_spec n (List.length l)) as [[_ ->]|[H ->]]; [reflexivity|]. rewrite !firstn_all2; [reflexivity|exact H|lia]. Qed.
Lemma load_unfold floor l nixq num : make_orders_from_file floor (Json l) nixq num = let* cs := all_records floor (firstn (to_read num (List.length l)) l) in Ret (cs, if nixq then Some (map nix_of cs) else None).
Proof.
  unfold make_orders_from_file, to_read. destruct num as [k|].
  - destruct (Z.leb_spec k 0) as [H|H].
    + rewrite read_all by (cbn; exact H). rewrite firstn_all. destruct (all_records floor l); reflexivity.
    + replace k with (Z.of_nat (List.length (@nil order) + S (Z.to_nat k - 1)))%Z at 1 by (cbn; lia). rewrite read_some. rewrite firstn_min. replace (S (Z.to_nat k - 1)) with (Z.to_nat k) by lia. destruct (all_records _ _); reflexivity.
  - replace 10%Z with (Z.of_nat (List.length (@nil order) + 10))%Z by reflexivity. rewrite read_some. rewrite firstn_min. destruct (all_records _ _); reflexivity.
Qed.
Lemma all_ok floor l cs : all_records floor l = Ret cs -> Forall2 (fun r o => record_order floor r = Ret o) l cs.
Proof. revert cs. induction l as [|r l IH]; intros cs E; cbn in E; [injection E as <-; constructor|]. destruct (record_order floor r) as [c|] eqn:R; [|discriminate]. cbn in E. destruct (all_records floor l) as [t|]; [|discriminate]. cbn in E. injection E as <-. constructor; auto. Qed.
Lemma all_total floor l : Forall (fun r => exists b s y z, complete r b s y z) l -> exists cs, all_records floor l = Ret cs.
Proof.
  induction 1 as [|r l (b & s & y & z & C) F [cs E]]; [exists []; reflexivity|]. cbn. destruct floor; [destruct (record_floor r b s y z C) as (o & O & _)|destruct (record_plain r b s y z C) as (o & O & _)]; rewrite O; cbn; rewrite E; eexists; reflexivity.
Qed.
Lemma all_fail floor l r m e : Forall (fun r => exists b s y z, complete r b s y z) l -> record_order floor r = Raise e -> all_records floor (l ++ r :: m) = Raise e.
Proof.
  intros F R. induction F as [|x l (b & s & y & z & C) F IH]; cbn; [rewrite R; reflexivity|]. destruct floor; [destruct (record_floor x b s y z C) as (o & O & _)|destruct (record_plain x b s y z C) as (o & O & _)]; rewrite O; cbn; cbn in IH; rewrite IH; reflexivity.
Qed.
Lemma load_ok floor l nixq num : let m := firstn (to_read num (List.length l)) l in Forall (fun r => exists b s y z, complete r b s y z) m ->
  exists cs x, make_orders_from_file floor (Json l) nixq num = Ret (cs, x) /\ Forall2 (if floor then describes_floor else describes) m cs /\ (nixq = false -> x = None) /\
  (nixq = true -> exists ns, x = Some ns /\ Forall2 (fun c n => x_token1 n = "usdc"%string /\ x_token2 n = "eth"%string /\ x_1 n = (o_phigh c, o_plow c, o_yint c) /\ x_2 n = (o_phigh c, o_plow c, o_yint c)) cs ns).
Proof.
  intros m F. destruct (all_total floor m F) as [cs E]. rewrite load_unfold. fold m. rewrite E. cbn [rbind]. do 2 eexists. split; [reflexivity|]. apply all_ok in E. split; [|split; [intros ->; reflexivity|intros ->; eexists; split; [reflexivity|]]].
  - clearbody m. induction E as [|r o l' cs R E IH]; [constructor|]. inversion F as [|? ? (b & s & y & z & C) F']; subst. constructor; [|apply IH, F']. destruct floor; [destruct (record_floor r b s y z C) as (o' & O & D)|destruct (record_plain r b s y z C) as (o' & O & D)]; congruence.
  - clear. induction cs as [|c cs IH]; cbn; constructor; [repeat split|exact IH].
Qed.
Lemma load_fail floor l nixq num good r rest : firstn (to_read num (List.length l)) l = (good ++ r :: rest)%list -> Forall (fun r => exists b s y z, complete r b s y z) good ->
  (has_null r -> make_orders_from_file floor (Json l) nixq num = Raise TypeError) /\ (lacks r -> make_orders_from_file floor (Json l) nixq num = Raise AssertionError).
Proof.
  intros E F. rewrite load_unfold, E. split; intros H.
  - rewrite (all_fail floor good r rest TypeError F); [reflexivity|]. apply record_null, H.
  - rewrite (all_fail floor good r rest AssertionError F); [reflexivity|]. apply record_lacks, H.
Qed.
Lemma load_prefix floor l l' nixq num : firstn (to_read num (List.length l)) l = firstn (to_read num (List.length l')) l' -> make_orders_from_file floor (Json l) nixq num = make_orders_from_file floor (Json l') nixq num.
Proof. intros E. rewrite !load_unfold, E. reflexivity. Qed.
Lemma load_csv floor l nixq num : (l = [] -> make_orders_from_file floor (Csv l) nixq num = Ret ([], if nixq then Some [] else None)) /\
  (forall a b z rest, l = (a, b, z) :: rest -> make_orders_from_file floor (Csv l) nixq num = Raise (if rlt (Rmin a b) 0 then ValueError else AssertionError)).
Proof.
  split; [intros ->; destruct nixq; reflexivity|]. intros a b z rest ->. unfold make_orders_from_file. cbn [read_csv row_order]. unfold make_order, convert_prices. cbn [i_B i_S i_plow i_phigh].
  assert (G : forall l h : R, l <= h -> (let* bslh := (let* sl := rsqrt l in let* sh := rsqrt h in Ret (Some sl, Some (sh - sl), Some l, Some h)) in let '(B, W, l, h) := bslh in let* zd := convert_yint (mkIn None None (Some z) (Some b) (Some a) None None None false false) l h in let '(z, d) := zd in
     let adj := if opt_eqb h l then true else false in let d := match d with Some d => Some d | None => z end in
     let '(z, d) := match z with Some z => (Some z, d) | None => match d with Some d => (Some d, Some d) | None => (@None R, @None R) end end in
     match @None R, z, l, h with Some y, Some z, Some l, Some h => if opt_eqb d (Some z) then Ret (mkOrder B W z h l y adj) else Raise AssertionError | _, _, _, _ => Raise AssertionError end) = Raise (if rlt l 0 then ValueError else AssertionError)).
  { intros l h H. unfold rsqrt. destruct (rlt l 0) eqn:E1; [reflexivity|]. apply rlt_inv_false in E1. cbn [rbind]. destruct (rlt h 0) eqn:E2; [apply rlt_inv in E2; lra|]. cbn [rbind]. unfold convert_yint. cbn [i_yint rbind]. reflexivity. }
  destruct (rlt b a) eqn:E.
  - apply rlt_inv in E. rewrite Rmin_right by lra. cbn [i_y i_adj] in *. rewrite (G b a) by lra. destruct (rlt b 0); reflexivity.
  - apply rlt_inv_false in E. rewrite Rmin_left by lra. cbn [i_y i_adj] in *. rewrite (G a b) by lra. destruct (rlt a 0); reflexivity.
Qed.
Lemma load_unknown floor nixq num : make_orders_from_file floor Unknown nixq num = Ret ([], if nixq then Some [] else None).
Proof. destruct nixq; reflexivity. Qed.
Lemma load_floor_zero : exists r b s y z c, complete r b s y z /\ make_orders_from_file true (Json [r]) false None = Ret ([c], None) /\ 0 < b /\ o_B c = Some 0.
Proof.
  set (r := mkRec (JNum (/ 4)) (JNum (/ 2)) (JNum 10) JAbsent). assert (C : complete r (/ 2) (/ 4) 10 10) by (repeat split; left; split; reflexivity).
  destruct (load_ok true [r] false None) as (cs & x & E & F & X & _); [repeat constructor; exists (/ 2), (/ 4), 10, 10; exact C|]. rewrite (X eq_refl) in E. cbn in F. inversion F as [|? c ? t D F']; subst. inversion F'; subst. exists r, (/ 2), (/ 4), 10, 10, c. split; [exact C|]. split; [exact E|]. split; [lra|].
  destruct D as (b & s & y & z & h & l & (B & S0 & _) & _ & _ & Hle & P & L & _ & OB & _). cbn in B, S0. injection B as <-. injection S0 as <-. rewrite OB. f_equal. assert (PL : o_plow c = / 2 * / 2) by (destruct P as [[P1 P2]|[P1 P2]]; [exact P1|rewrite P1, P2 in Hle; lra]). rewrite PL, sqrt_square in L by lra. assert (l = 0%Z); [|subst l; lra]. destruct L as [L1 L2]. assert (A1 : (l < 1)%Z) by (apply lt_IZR; lra). assert (A2 : (-1 < l)%Z) by (apply lt_IZR; replace (IZR (-1)) with (-1) by reflexivity; lra). lia.
Qed.
