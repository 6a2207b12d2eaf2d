(** calc_liquidity_approx *)
From Coq Require Import Reals ZArith List Bool String Lra Lia.
From Verif Require Import TradeModel PairModel PairSpec PairProofs CurveModel CurveSpec CurveProofs CurveProofs2 CurveProofs3 CurveProofs4 CurveProofs5 UiModel UiSpec.
Import ListNotations.
Local Open Scope R_scope.

Lemma flat_ends c : valid c -> c_S c = 0 -> lowest c = highest c.
Proof. intros V HS. unfold lowest, highest, price_at, raw_price. rewrite HS, !Rmult_0_l. rewrite Rmin_left, Rmax_left by lra. reflexivity. Qed.
Lemma perc_share c a b : valid c -> a < b -> fst (liquidity_perc (lowest c) (highest c) a b) = share c a b.
Proof.
  intros V L. unfold share. destruct (Rlt_dec 0 (c_S c)) as [HS|HS]; [apply lp_value, low_high_lt; assumption|].
  assert (S0 : c_S c = 0) by (destruct V as (_ & S1 & _); lra). rewrite <- (flat_ends c V S0). unfold liquidity_perc. rewrite (rlt_false b a) by lra. rewrite (req_true (lowest c)) by reflexivity. rewrite (req_false a b) by lra. unfold rle, rlt. cbn [fst].
  destruct (Rle_dec a (lowest c)); [|reflexivity]. destruct (Rlt_dec (lowest c) b); reflexivity.
Qed.
Lemma share_add c a b d : valid c -> a < b -> b < d -> share c a d = share c a b + share c b d.
Proof.
  intros V L1 L2. unfold share. destruct (Rlt_dec 0 (c_S c)) as [HS|HS].
  - pose proof (low_high_lt c V HS) as L. rewrite (overlap_add (lowest c) (highest c) a b d) by lra. field. lra.
  - destruct (Rle_dec a (lowest c)), (Rlt_dec (lowest c) d), (Rlt_dec (lowest c) b), (Rle_dec b (lowest c)); lra.
Qed.
Lemma own_value u a b : fits u -> a < b -> liquidity_approx (u_curve u) a b (Some (has_basetoken (u_pair u) (u_tkn u))) false = Ret (c_y (u_curve u) * share (u_curve u) a b).
Proof.
  intros [B V] L. rewrite <- B. destruct (approx_own (u_curve u) a b V) as (v & E & ->). rewrite approx_perc in E by exact V. injection E as <-. rewrite perc_share by assumption. reflexivity.
Qed.
Lemma lowest_pos c : valid c -> 0 < lowest c.
Proof.
  intros V. pose proof V as (HB & HS & HZ & HY). unfold lowest. assert (P : forall y, 0 <= y <= c_yint c -> 0 < price_at c y).
  { intros y Y. unfold price_at, in_quote. pose proof (raw_pos c y V ltac:(lra)). destruct (c_base c); [apply Rinv_0_lt_compat|]; assumption. }
  unfold Rmin. destruct (Rle_dec _ _); apply P; lra.
Qed.
Lemma any_value c a b t : valid c -> exists v, liquidity_approx c a b t false = Ret v.
Proof.
  intros V. pose proof (lowest_pos c V) as LP. pose proof (low_high c) as LH. unfold liquidity_approx. rewrite pminmax_value by exact V. cbn [rbind]. destruct (liquidity_perc _ _ a b) as [v w] eqn:E. unfold req at 1. destruct (Req_EM_T v 0) as [|N]; [eauto|].
  assert (W : 0 < w).
  { unfold liquidity_perc in E. destruct (if rlt b a then (b, a) else (a, b)) as [p q]. destruct (req (highest c) (lowest c)); [injection E as _ <-; lra|].
    destruct (rle (highest c) p || rle q (lowest c)) eqn:O; [injection E as <- _; contradiction|]. injection E as _ <-. apply orb_false_iff in O as [O1 O2]. unfold rle in O1, O2. destruct (Rle_dec (highest c) p); [discriminate|]. destruct (Rle_dec q (lowest c)); [discriminate|].
    apply sqrt_lt_R0. apply Rmult_lt_0_compat; unfold rlt; destruct (Rlt_dec _ _); lra. }
  destruct (Bool.eqb _ _); [eexists; reflexivity|]. destruct (c_base c); [eexists; reflexivity|]. rewrite rdiv_ok by lra. eexists; reflexivity.
Qed.

(** ** one cell *)
Lemma cell_any tkn us a b : (forall u, In u us -> fits u) -> a < b -> exists v, cell_liq tkn us (a, b) = Ret v.
Proof.
  intros F L. unfold cell_liq. cbn [fst snd]. induction us as [|u us IH]; cbn [map sum_res]; [eauto|]. destruct (any_value (u_curve u) a b (Some (has_basetoken (u_pair u) tkn))) as (v & ->); [apply (F u); left; reflexivity|].
  cbn [rbind]. rewrite rdiv_ok by lra. cbn [rbind]. destruct IH as (w & ->); [intros x X; apply F; right; exact X|]. cbn [rbind]. eauto.
Qed.
Lemma cell_own tkn us a b : (forall u, In u us -> fits u /\ u_tkn u = tkn) -> a < b -> exists v, cell_liq tkn us (a, b) = Ret v /\ v * (b - a) = total_of (fun u => c_y (u_curve u) * share (u_curve u) a b) us.
Proof.
  intros F L. unfold cell_liq. cbn [fst snd]. induction us as [|u us IH]; cbn [map sum_res total_of]; [exists 0; split; [reflexivity|ring]|]. destruct (F u (or_introl eq_refl)) as [Fu Tu]. replace (has_basetoken (u_pair u) tkn) with (has_basetoken (u_pair u) (u_tkn u)) by (rewrite Tu; reflexivity). rewrite own_value by assumption. cbn [rbind].
  rewrite rdiv_ok by lra. cbn [rbind]. destruct IH as (w & -> & W); [intros x X; apply F; right; exact X|]. cbn [rbind]. eexists. split; [reflexivity|]. rewrite <- W. field. lra.
Qed.
Lemma total_add f g h us : (forall u, In u us -> f u = g u + h u) -> total_of f us = total_of g us + total_of h us.
Proof. induction us as [|u us IH]; intros H; cbn [total_of]; [ring|]. rewrite IH by (intros x X; apply H; right; exact X). rewrite (H u (or_introl eq_refl)). ring. Qed.
Lemma total_ext f g us : (forall u, In u us -> f u = g u) -> total_of f us = total_of g us.
Proof. induction us as [|u us IH]; intros H; cbn [total_of]; [reflexivity|]. rewrite IH by (intros x X; apply H; right; exact X). rewrite (H u (or_introl eq_refl)). reflexivity. Qed.

(** ** the grid *)
Lemma rises_tl a ps : rises (a :: ps) -> rises ps.
Proof. intros H i Hi. apply (H (S i)). cbn. lia. Qed.
Lemma rises_hd a b ps : rises (a :: b :: ps) -> a < b. Proof. intros H. apply (H 0%nat). cbn. lia. Qed.
Lemma rises_last a b ps : rises (a :: b :: ps) -> a < last (b :: ps) 0.
Proof.
  revert a b. induction ps as [|c ps IH]; intros a b H; [exact (rises_hd _ _ _ H)|]. pose proof (rises_hd _ _ _ H). pose proof (IH b c (rises_tl _ _ H)). change (last (b :: c :: ps) 0) with (last (c :: ps) 0). lra.
Qed.
Lemma purge_val pz x : known (purge pz x) = x.
Proof. unfold known, purge, req. destruct pz; cbn [andb]; [|reflexivity]. destruct (Req_EM_T x 0); [symmetry; assumption|reflexivity]. Qed.
Lemma grid_any tkn us ps : (forall u, In u us -> fits u) -> rises ps -> exists vs, all_res (map (cell_liq tkn us) (cells ps)) = Ret vs /\ List.length vs = pred (List.length ps).
Proof.
  intros F. induction ps as [|a ps IH]; intros Rs; [exists []; split; reflexivity|]. destruct ps as [|b ps]; [exists []; split; reflexivity|]. change (cells (a :: b :: ps)) with ((a, b) :: cells (b :: ps)). cbn [map all_res].
  destruct (cell_any tkn us a b F (rises_hd _ _ _ Rs)) as (v & ->). cbn [rbind]. destruct (IH (rises_tl _ _ Rs)) as (vs & -> & L). cbn [rbind]. eexists. split; [reflexivity|]. cbn [List.length pred] in *. lia.
Qed.
Lemma grid_own tkn us pz ps : (forall u, In u us -> fits u /\ u_tkn u = tkn) -> forall a b, rises (a :: b :: ps) -> exists vs, all_res (map (cell_liq tkn us) (cells (a :: b :: ps))) = Ret vs /\
  weighted (map (purge pz) vs) (a :: b :: ps) = total_of (fun u => c_y (u_curve u) * share (u_curve u) a (last (b :: ps) 0)) us.
Proof.
  intros F. induction ps as [|c ps IH]; intros a b Rs; destruct (cell_own tkn us a b F (rises_hd _ _ _ Rs)) as (v & E & V).
  - cbn [cells map all_res]. rewrite E. cbn [rbind]. eexists. split; [reflexivity|]. cbn [map weighted last]. rewrite purge_val, V. ring.
  - change (cells (a :: b :: c :: ps)) with ((a, b) :: cells (b :: c :: ps)). cbn [map all_res]. rewrite E. cbn [rbind]. destruct (IH b c (rises_tl _ _ Rs)) as (vs & -> & W). cbn [rbind]. eexists. split; [reflexivity|].
    change (map (purge pz) (v :: vs)) with (purge pz v :: map (purge pz) vs). change (weighted (purge pz v :: map (purge pz) vs) (a :: b :: c :: ps)) with (known (purge pz v) * (b - a) + weighted (map (purge pz) vs) (b :: c :: ps)).
    rewrite purge_val, V, W. change (last (b :: c :: ps) 0) with (last (c :: ps) 0). symmetry. apply total_add. intros u Hu. rewrite (share_add _ a b) ; [ring|apply (F u Hu)|exact (rises_hd _ _ _ Rs)|exact (rises_last _ _ _ (rises_tl _ _ Rs))].
Qed.
Lemma calc_spec us a b ps p (reverse pz : bool) : (forall u, In u us -> fits u) -> rises (a :: b :: ps) -> let t := if reverse then tknq p else tknb p in
  exists q, calc_liquidity_approx us (a :: b :: ps) p reverse pz = Ret q /\ q_tkn q = t /\ q_prices q = map (fun c => (fst c + snd c) / 2) (combine (a :: b :: ps) (b :: ps)) /\
   List.length (q_bid q) = S (List.length ps) /\ List.length (q_ask q) = S (List.length ps) /\
   weighted (if reverse then q_bid q else q_ask q) (a :: b :: ps) = total_of (fun u => c_y (u_curve u) * share (u_curve u) a (last (b :: ps) 0)) (filter (sells_on p t) us).
Proof.
  intros F Rs. unfold calc_liquidity_approx. cbv beta zeta. set (sel := fun t => filter (sells_on p t) us).
  change (filter (fun u => String.eqb (pair_iso (u_pair u)) (pair_iso p) && String.eqb (u_tkn u) (tknb p)) us) with (sel (tknb p)). change (filter (fun u => String.eqb (pair_iso (u_pair u)) (pair_iso p) && String.eqb (u_tkn u) (tknq p)) us) with (sel (tknq p)).
  assert (Fs : forall t u, In u (sel t) -> fits u /\ u_tkn u = t). { intros s u Hu. apply filter_In in Hu as [Hu Hs]. apply andb_true_iff in Hs as [_ Hs]. apply String.eqb_eq in Hs. auto. }
  assert (Cl : forall l a, map (fun c : R * R => / 2 * (fst c + snd c)) (cells (a :: l)) = map (fun c => (fst c + snd c) / 2) (combine (a :: l) l)).
  { clear. induction l as [|b l IH]; intros a; [reflexivity|]. change (cells (a :: b :: l)) with ((a, b) :: cells (b :: l)). cbn [map combine fst snd]. rewrite IH. f_equal. field. }
  change (filter (sells_on p (if reverse then tknq p else tknb p)) us) with (sel (if reverse then tknq p else tknb p)). destruct reverse; cbv iota.
  - destruct (grid_any (tknq p) (sel (tknb p)) (a :: b :: ps) (fun u H => proj1 (Fs _ u H)) Rs) as (va & -> & La). cbn [rbind]. destruct (grid_own (tknq p) (sel (tknq p)) pz ps (Fs (tknq p)) a b Rs) as (vb & Eb & Wb).
    destruct (grid_any (tknq p) (sel (tknq p)) (a :: b :: ps) (fun u H => proj1 (Fs _ u H)) Rs) as (vb' & Eb' & Lb). rewrite Eb in Eb'. injection Eb' as <-. rewrite Eb. cbn [rbind]. eexists. split; [reflexivity|]. cbn [q_bid q_ask q_prices q_tkn]. rewrite !map_length, La, Lb. rewrite Cl. repeat (split; [reflexivity|]). exact Wb.
  - destruct (grid_own (tknb p) (sel (tknb p)) pz ps (Fs (tknb p)) a b Rs) as (va & Ea & Wa). destruct (grid_any (tknb p) (sel (tknb p)) (a :: b :: ps) (fun u H => proj1 (Fs _ u H)) Rs) as (va' & Ea' & La). rewrite Ea in Ea'. injection Ea' as <-. rewrite Ea. cbn [rbind].
    destruct (grid_any (tknb p) (sel (tknq p)) (a :: b :: ps) (fun u H => proj1 (Fs _ u H)) Rs) as (vb & -> & Lb). cbn [rbind]. eexists. split; [reflexivity|]. cbn [q_bid q_ask q_prices q_tkn]. rewrite !map_length, La, Lb. rewrite Cl. repeat (split; [reflexivity|]). exact Wa.
Qed.
Lemma share_cover c a b : valid c -> a <= lowest c -> highest c < b -> share c a b = 1.
Proof.
  intros V A B. unfold share. destruct (Rlt_dec 0 (c_S c)) as [HS|HS].
  - pose proof (low_high_lt c V HS) as L. rewrite overlap_cover; [field; lra|lra| |]; [rewrite Rmin_left by lra; exact A|rewrite Rmax_right by lra; lra].
  - pose proof (low_high c). destruct (Rle_dec a (lowest c)); [|lra]. destruct (Rlt_dec (lowest c) b); lra.
Qed.
Lemma calc_cover us a b ps p (reverse pz : bool) : (forall u, In u us -> fits u) -> rises (a :: b :: ps) -> (forall u, In u us -> a <= lowest (u_curve u) /\ highest (u_curve u) < last (b :: ps) 0) ->
  exists q, calc_liquidity_approx us (a :: b :: ps) p reverse pz = Ret q /\
   weighted (if reverse then q_bid q else q_ask q) (a :: b :: ps) = total_of (fun u => c_y (u_curve u)) (filter (sells_on p (if reverse then tknq p else tknb p)) us).
Proof.
  intros F Rs C. destruct (calc_spec us a b ps p reverse pz F Rs) as (q & E & _ & _ & _ & _ & W). exists q. split; [exact E|]. rewrite W. apply total_ext. intros u Hu. apply filter_In in Hu as [Hu _]. rewrite share_cover; [ring|apply (F u Hu)|apply (C u Hu)|apply (C u Hu)].
Qed.
Lemma calc_missing us ps p reverse pz q : calc_liquidity_approx us ps p reverse pz = Ret q ->
  forall x, In x (q_bid q ++ q_ask q) -> if pz then x <> Some 0 else x <> None.
Proof.
  unfold calc_liquidity_approx. destruct (all_res _) as [va|]; [|discriminate]. cbn [rbind]. destruct (all_res _) as [vb|]; [|discriminate]. cbn [rbind]. intros E. injection E as <-. cbn [q_bid q_ask].
  intros x Hx. rewrite <- map_app in Hx. apply in_map_iff in Hx as (v & <- & _). unfold purge, req. destruct pz; cbn [andb]; [|discriminate]. destruct (Req_EM_T v 0); [discriminate|]. intros X. injection X as X. contradiction.
Qed.
Lemma calc_flat us a ps p reverse pz u : In u us -> sells_on p (tknb p) u = true -> fits u -> exists e, calc_liquidity_approx us (a :: a :: ps) p reverse pz = Raise e.
Proof.
  intros Hu Hs Fu. unfold calc_liquidity_approx. change (cells (a :: a :: ps)) with ((a, a) :: cells (a :: ps)). cbn [map all_res]. set (t := if reverse then tknq p else tknb p).
  assert (G : exists e, cell_liq t (filter (fun u => String.eqb (pair_iso (u_pair u)) (pair_iso p) && String.eqb (u_tkn u) (tknb p)) us) (a, a) = Raise e).
  { assert (I : In u (filter (fun u => String.eqb (pair_iso (u_pair u)) (pair_iso p) && String.eqb (u_tkn u) (tknb p)) us)) by (apply filter_In; split; assumption).
    revert I. generalize (filter (fun u => String.eqb (pair_iso (u_pair u)) (pair_iso p) && String.eqb (u_tkn u) (tknb p)) us). intros l. unfold cell_liq. cbn [fst snd]. induction l as [|v l IH]; intros I; [destruct I|]; destruct I as [<-|I]; cbn [map sum_res].
    - destruct (any_value (u_curve v) a a (Some (has_basetoken (u_pair v) t)) (proj2 Fu)) as (w & ->). cbn [rbind]. unfold rdiv. rewrite req_true by ring. cbn [rbind]. eauto.
    - destruct (IH I) as (e & E). rewrite E. match goal with |- exists _, rbind ?x _ = _ => destruct x end; cbn [rbind]; eauto. }
  destruct G as (e & ->). cbn [rbind]. eauto.
Qed.

(** ** cell by cell *)
Lemma worth_value c a b t : valid c -> a < b -> liquidity_approx c a b (Some t) false = Ret (worth c t a b).
Proof.
  intros V L. pose proof (lowest_pos c V) as LP. pose proof (low_high c) as LH. pose proof (perc_share c a b V L) as PS. unfold worth, liquidity_approx. rewrite pminmax_value by exact V. cbn [rbind]. destruct (liquidity_perc _ _ a b) as [v w] eqn:E. cbn [fst] in PS. subst v.
  unfold req. destruct (Req_EM_T (share c a b) 0) as [Z|N]; [rewrite Z; f_equal; ring|].
  assert (W : w = middle c a b /\ 0 < w).
  { unfold middle. unfold liquidity_perc in E. rewrite (rlt_false b a) in E by lra. destruct (Rlt_dec 0 (c_S c)) as [HS|HS].
    - pose proof (low_high_lt c V HS). rewrite (req_false (highest c)) in E by lra. destruct (rle (highest c) a || rle b (lowest c)) eqn:O; [injection E as E _; symmetry in E; contradiction|]. injection E as _ <-. apply orb_false_iff in O as [O1 O2]. unfold rle in O1, O2. destruct (Rle_dec (highest c) a); [discriminate|]. destruct (Rle_dec b (lowest c)); [discriminate|].
      split; [f_equal; f_equal; unfold rlt, Rmax, Rmin; destruct (Rlt_dec _ _), (Rle_dec _ _); lra|]. apply sqrt_lt_R0, Rmult_lt_0_compat; unfold rlt; destruct (Rlt_dec _ _); lra.
    - assert (S0 : c_S c = 0) by (destruct V as (_ & S1 & _); lra). rewrite req_true in E by (symmetry; apply flat_ends; assumption). injection E as _ <-. rewrite <- (flat_ends c V S0). split; [reflexivity|exact LP]. }
  destruct W as [-> W]. destruct (Bool.eqb t (c_base c)); [reflexivity|]. destruct (c_base c); [reflexivity|]. rewrite rdiv_ok by lra. reflexivity.
Qed.
Lemma cell_value tkn us a b : (forall u, In u us -> fits u) -> a < b -> exists v, cell_liq tkn us (a, b) = Ret v /\ v * (b - a) = total_of (fun u => worth (u_curve u) (has_basetoken (u_pair u) tkn) a b) us.
Proof.
  intros F L. unfold cell_liq. cbn [fst snd]. induction us as [|u us IH]; cbn [map sum_res total_of]; [exists 0; split; [reflexivity|ring]|]. rewrite worth_value by (try exact L; apply (F u); left; reflexivity). cbn [rbind].
  rewrite rdiv_ok by lra. cbn [rbind]. destruct IH as (w & -> & W); [intros x X; apply F; right; exact X|]. cbn [rbind]. eexists. split; [reflexivity|]. rewrite <- W. field. lra.
Qed.
Lemma grid_value tkn us pz ps : (forall u, In u us -> fits u) -> rises ps -> forall vs, all_res (map (cell_liq tkn us) (cells ps)) = Ret vs -> forall i, (S i < List.length ps)%nat ->
  known (nth i (map (purge pz) vs) None) * (nth (S i) ps 0 - nth i ps 0) = total_of (fun u => worth (u_curve u) (has_basetoken (u_pair u) tkn) (nth i ps 0) (nth (S i) ps 0)) us.
Proof.
  intros F. induction ps as [|a ps IH]; intros Rs vs E i Hi; [cbn in Hi; lia|]. destruct ps as [|b ps]; [cbn in Hi; lia|]. change (cells (a :: b :: ps)) with ((a, b) :: cells (b :: ps)) in E. cbn [map all_res] in E.
  destruct (cell_value tkn us a b F (rises_hd _ _ _ Rs)) as (v & Ev & V). rewrite Ev in E. cbn [rbind] in E. destruct (all_res (map (cell_liq tkn us) (cells (b :: ps)))) as [ws|] eqn:G; [|discriminate]. cbn [rbind] in E. injection E as <-.
  destruct i as [|i]; [cbn [map nth]; rewrite purge_val; exact V|]. change (nth (S i) (map (purge pz) (v :: ws)) None) with (nth i (map (purge pz) ws) None). change (nth (S (S i)) (a :: b :: ps) 0) with (nth (S i) (b :: ps) 0). change (nth (S i) (a :: b :: ps) 0) with (nth i (b :: ps) 0).
  apply (IH (rises_tl _ _ Rs) ws eq_refl). cbn [List.length] in *. lia.
Qed.
Lemma calc_cells us ps p (reverse pz : bool) q : (forall u, In u us -> fits u) -> rises ps -> calc_liquidity_approx us ps p reverse pz = Ret q -> forall i, (S i < List.length ps)%nat ->
  let a := nth i ps 0 in let b := nth (S i) ps 0 in let value t := total_of (fun u => worth (u_curve u) (has_basetoken (u_pair u) (q_tkn q)) a b) (filter (sells_on p t) us) in
  known (nth i (q_ask q) None) * (b - a) = value (tknb p) /\ known (nth i (q_bid q) None) * (b - a) = value (tknq p).
Proof.
  intros F Rs E i Hi. unfold calc_liquidity_approx in E. cbv beta zeta in E. set (t := if reverse then tknq p else tknb p) in *.
  change (filter (fun u => String.eqb (pair_iso (u_pair u)) (pair_iso p) && String.eqb (u_tkn u) (tknb p)) us) with (filter (sells_on p (tknb p)) us) in E. change (filter (fun u => String.eqb (pair_iso (u_pair u)) (pair_iso p) && String.eqb (u_tkn u) (tknq p)) us) with (filter (sells_on p (tknq p)) us) in E.
  destruct (all_res (map (cell_liq t (filter (sells_on p (tknb p)) us)) (cells ps))) as [va|] eqn:Ea; [|discriminate]. cbn [rbind] in E. destruct (all_res (map (cell_liq t (filter (sells_on p (tknq p)) us)) (cells ps))) as [vb|] eqn:Eb; [|discriminate]. cbn [rbind] in E. injection E as <-. cbn [q_ask q_bid q_tkn]. cbv zeta.
  split; apply grid_value; try assumption; intros u Hu; apply filter_In in Hu; apply F, Hu.
Qed.
