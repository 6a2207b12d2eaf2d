(** Properties of the optimizer's tables and result objects (C144-C145). *)
From Coq Require Import Reals Bool List String ZArith Lra Lia.
From Verif Require Import CurveModel PairModel HelperModel CpcModel CpcSpec ContainerModel OptModel OptSpec OptProps TiModel TiSpec TiProofs TiProofs2 TiProofs3.
Import ListNotations.
Local Open Scope R_scope.

(** ** C144: tables of trade instructions *)
Theorem C144_raw : forall info l, l <> [] -> Forall sane l -> exists f toks, to_format info l (Some "dfraw"%string) = Ret (Frame f) /\ f_cols f = headings ++ toks /\ NoDup (f_cols f) /\
  (forall t, In t toks <-> plain t /\ names t l) /\ List.length (f_rows f) = List.length l /\
  forall n i, nth_error l n = Some i ->
    (forall t, In t toks -> exists c, cell_at f n t = Some c /\ shows t i c) /\
    (plain (tknin i) -> plain (tknout i) -> label_at f n = Some (Txt (t_cid (info (ti_cid i)))) /\
       cell_at f n "pair" = Some (Txt (match t_pair (info (ti_cid i)) with Some p => fst p | None => ""%string end)) /\
       cell_at f n "pairp" = Some (Txt (match t_pair (info (ti_cid i)) with Some p => snd p | None => ""%string end)) /\
       cell_at f n "tknin" = Some (Txt (tknin i)) /\ cell_at f n "tknout" = Some (Txt (tknout i))).
Proof. exact raw_table. Qed.
Theorem C144_pretty : forall info l, l <> [] -> exists f f', to_format info l (Some "dfraw"%string) = Ret (Frame f) /\ to_format info l (Some "dfp"%string) = Ret (Frame f') /\
  f_cols f' = f_cols f /\ List.length (f_rows f') = List.length (f_rows f) /\
  forall n, label_at f' n = label_at f n /\ forall t, cell_at f' n t = match cell_at f n t with Some Hole => Some (Txt "") | c => c end.
Proof. exact pretty_table. Qed.
Theorem C144_aggregate : forall info l, l <> [] -> Forall sane l -> exists f, to_format info l (Some "dfaggr"%string) = Ret (Frame f) /\ NoDup (f_cols f) /\
  (forall t, In t (f_cols f) <-> plain t /\ names t l) /\ List.length (f_rows f) = (List.length l + 3)%nat /\
  (forall n i, nth_error l n = Some i -> (forall t, In t (f_cols f) -> exists c, cell_at f n t = Some c /\ shows t i c) /\
     (plain (tknin i) -> plain (tknout i) -> label_at f n = Some (Txt (t_cid (info (ti_cid i)))))) /\
  label_at f (List.length l) = Some (Txt "AMMIn") /\ label_at f (List.length l + 1) = Some (Txt "AMMOut") /\ label_at f (List.length l + 2) = Some (Txt "TOTAL NET") /\
  forall t, In t (f_cols f) -> cell_at f (List.length l) t = Some (Amt (receipts l t)) /\ cell_at f (List.length l + 1) t = Some (Amt (- payouts l t)) /\
    cell_at f (List.length l + 2) t = Some (Amt (receipts l t - payouts l t)).
Proof. exact aggregate_table. Qed.
Theorem C144_formats : forall info l,
  to_format info l None = Ret (Objects l) /\ to_format info l (Some "objects"%string) = Ret (Objects l) /\
  (exists ds, to_format info l (Some "dicts"%string) = Ret (Dicts ds) /\ Forall2 (fun i d => d = [("cid", Txt (t_cid (info (ti_cid i)))); ("tknin", Txt (tknin i)); ("amtin", Amt (amtin i)); ("tknout", Txt (tknout i)); ("amtout", Amt (amtout i))]%string) l ds) /\
  (forall fmt, String.prefix "df" fmt = true -> l = [] -> to_format info l (Some fmt) = Ret (Frame (mkFrame [] []))) /\
  (forall fmt, ~ In fmt ["objects"; "dicts"; "dfraw"; "dfaggr"; "dfp"]%string -> l <> [] \/ String.prefix "df" fmt = false -> to_format info l (Some fmt) = Raise ValueError) /\
  (to_df info [] None = Raise KeyError) /\ (l <> [] -> exists f, to_df info l None = Ret f /\ to_format info l (Some "dfraw"%string) = Ret (Frame f)).
Proof.
  intros info l. split; [reflexivity|]. split; [reflexivity|]. split; [|split; [|split; [|split; [reflexivity|]]]].
  - eexists. split; [reflexivity|]. induction l as [|i l IH]; cbn [map]; constructor; [reflexivity|exact IH].
  - intros fmt P ->. unfold to_format. destruct (String.eqb fmt "objects") eqn:E1; [apply String.eqb_eq in E1; subst fmt; discriminate|]. destruct (String.eqb fmt "dicts") eqn:E2; [apply String.eqb_eq in E2; subst fmt; discriminate|]. rewrite P. reflexivity.
  - intros fmt N Q. assert (X : forall s, In s ["objects"; "dicts"; "dfraw"; "dfaggr"; "dfp"]%string -> String.eqb fmt s = false) by (intros s Hs; apply String.eqb_neq; intros ->; contradiction).
    unfold to_format. rewrite !X by (cbn [In]; auto 8). destruct (String.prefix "df" fmt) eqn:P; [|reflexivity]. destruct Q as [Q|Q]; [|discriminate]. destruct (table_value info l Q) as (toks & E & _).
    destruct l as [|i0 l0]; [congruence|]. set (l := i0 :: l0) in *. unfold to_df. rewrite E. cbn [rbind]. rewrite !X by (cbn [In]; auto 8). reflexivity.
  - intros N. destruct (table_value info l N) as (toks & E & _). eexists. split; [unfold to_df; rewrite E; reflexivity|]. unfold to_format. destruct l as [|i0 l0]; [congruence|]. set (l := i0 :: l0) in *. cbn [String.eqb].
    change (String.prefix "df" "dfraw") with true. cbn match. unfold to_df. rewrite E. reflexivity.
Qed.
(** the bottom line of the table of a converged result is the result's own account *)
Theorem C144_settles : forall name m cs target P best, Forall proper cs -> reports m cs target (m_p m) P best -> m_minimal m = false -> (exists c dx dy, In (c, dx, dy) best /\ (dx <> 0 \/ dy <> 0)) ->
  exists f total_row, m_instructions name m (Some "dfaggr"%string) = Ret (Frame f) /\ label_at f total_row = Some (Txt "TOTAL NET") /\ (forall n, (total_row < n)%nat -> label_at f n = None) /\
    (forall t, plain t -> (In t (f_cols f) -> cell_at f total_row t = Some (Amt (dget (m_dtokens m) t))) /\ (~ In t (f_cols f) -> dget (m_dtokens m) t = 0)) /\
    (plain target -> In target (f_cols f) -> cell_at f total_row target = Some (Amt (m_value m))).
Proof. exact margp_table. Qed.
Theorem C144_idle : forall name m cs target P best fmt, Forall proper cs -> reports m cs target (m_p m) P best -> m_minimal m = false -> (forall c dx dy, In (c, dx, dy) best -> dx = 0 /\ dy = 0) ->
  String.prefix "df" fmt = true -> m_instructions name m (Some fmt) = Ret (Frame (mkFrame [] [])).
Proof. exact margp_idle. Qed.
(** the naive claim: every token of an instruction has a column *)
Theorem C144_columns_refuted : exists info l f, l <> [] /\ Forall sane l /\ to_format info l (Some "dfaggr"%string) = Ret (Frame f) /\
  exists t, names t l /\ 0 < receipts l t /\ ~ In t (f_cols f).
Proof.
  set (l := [mkTI 0 "pair" 2 "A" (- 1)]). assert (S : Forall sane l) by (repeat constructor; cbn; [discriminate|lra|lra]).
  destruct (C144_aggregate (fun _ => mkTag "" None) l) as (f & E & _ & I & _); [discriminate|exact S|]. exists (fun _ => mkTag "" None), l, f. split; [discriminate|]. split; [exact S|]. split; [exact E|].
  exists "pair"%string. split; [exists (mkTI 0 "pair" 2 "A" (- 1)); split; [left; reflexivity|left; reflexivity]|]. split; [cbn; lra|]. rewrite I. intros [P _]. apply P. right. left. reflexivity.
Qed.
Definition extis : list instruction := [mkTI 0 "B" 5 "A" (- (10 / 3)); mkTI 1 "A" (10 / 3) "B" (- 10)].
Example C144_ex : Forall sane extis /\ plain "A" /\ plain "B" /\ receipts extis "A" - payouts extis "A" = 0 /\ receipts extis "B" - payouts extis "B" = - 5 /\
  (exists f n, m_instructions (fun _ => "pool"%string) exresult (Some "dfaggr"%string) = Ret (Frame f) /\ (In "B"%string (f_cols f) -> cell_at f n "B" = Some (Amt (- 5)))).
Proof.
  split; [repeat constructor; cbn; try discriminate; lra|]. split; [unfold plain, headings; cbn; intuition discriminate|]. split; [unfold plain, headings; cbn; intuition discriminate|].
  split; [cbn; lra|]. split; [cbn; lra|].
  destruct C99_ex as (R & N & _). destruct (C144_settles (fun _ => "pool"%string) exresult [exa; exb] "B" exprices exbest ex_proper R N) as (f & n & E & _ & _ & _ & V).
  - exists exa, (- (10 / 3)), 5. split; [left; reflexivity|right; lra].
  - exists f, n. split; [exact E|]. apply V. unfold plain, headings; cbn; intuition discriminate.
Qed.

(** ** C145: the results of the convex and the simple optimizer *)
Theorem C145_scaled : forall raw sc tk,
  (raw = None -> make_scaled (mkScaled raw sc tk) = Ret (mkScaled raw sc tk) /\ scaled_value (mkScaled raw sc tk) = None) /\
  (forall l, raw = Some l ->
    ((exists v, make_scaled (mkScaled raw sc tk) = Ret v) <-> (forall s, sc = Each s -> List.length s = List.length l) /\ (forall t, tk = Some t -> List.length t = List.length l)) /\
    ((exists v, make_scaled (mkScaled raw sc tk) = Ret v) \/ make_scaled (mkScaled raw sc tk) = Raise ValueError) /\
    forall v, make_scaled (mkScaled raw sc tk) = Ret v -> exists w, scaled_value v = Some w /\ List.length w = List.length l /\
      forall n a, nth_error l n = Some a -> (forall r, sc = One r -> nth_error w n = Some (a / r)) /\ (forall s, sc = Each s -> exists r, nth_error s n = Some r /\ nth_error w n = Some (a / r))).
Proof. exact scaled_spec. Qed.
Theorem C145_nofees : forall cs dx dy vx vy, scaled_value dx = Some vx -> scaled_value dy = Some vy -> List.length vx = List.length cs -> List.length vy = List.length cs ->
  Forall (fun c => tknx c <> tkny c) cs -> Forall2 (fun a b => (a = 0 /\ b = 0) \/ a * b < 0) vx vy ->
  exists l trades, nofees_instructions cs dx dy = Ret l /\ pools trades = cs /\ map (fun e => snd (fst e)) trades = vx /\ map snd trades = vy /\ implements l trades.
Proof. exact nofees_implements. Qed.
(** a value of the solver in which a pool gives nothing for what it receives, or gives both *)
Theorem C145_nofees_refused : forall c cs dx dy a b vx vy, scaled_value dx = Some (a :: vx) -> scaled_value dy = Some (b :: vy) -> tknx c <> tkny c -> 0 <= a * b -> ~ (tiny a /\ tiny b) ->
  nofees_instructions (c :: cs) dx dy = Raise ValueError.
Proof.
  intros c cs dx dy a b vx vy E1 E2 N S T. unfold nofees_instructions. rewrite E1, E2. cbn [zip3 List.length seq combine filter moves].
  assert (M : negb (req a 0) || negb (req b 0) = true).
  { unfold req. destruct (Req_EM_T a 0) as [->|]; [|reflexivity]. destruct (Req_EM_T b 0) as [->|]; [|reflexivity]. exfalso. apply T. unfold tiny. rewrite Rabs_R0. split; apply Rinv_0_lt_compat, pow_lt; lra. }
  rewrite M. cbn [rmap]. destruct (C96_new 0 (tknx c) a (tkny c) b N) as (_ & _ & R). rewrite (R S T). reflexivity.
Qed.
Theorem C145_nofees_none : forall cs dx dy, scaled_value dx = None \/ scaled_value dy = None -> nofees_instructions cs dx dy = Raise TypeError.
Proof. intros cs dx dy [E|E]; unfold nofees_instructions; rewrite E; [reflexivity|]. destruct (scaled_value dx); reflexivity. Qed.
Theorem C145_table : forall name inclk (l : list (cpc * R * R)), l <> [] -> Forall (fun e => tknx (fst (fst e)) <> tkny (fst (fst e)) /\ xy_plain inclk (tknx (fst (fst e))) /\ xy_plain inclk (tkny (fst (fst e)))) l ->
  exists f toks, dxdydf name inclk l = Ret f /\ f_cols f = xy_headings inclk ++ toks /\ NoDup (f_cols f) /\
    (forall t, In t toks <-> exists c, In c (pools l) /\ (tknx c = t \/ tkny c = t)) /\ List.length (f_rows f) = (List.length l + 1)%nat /\
    (forall n c dx dy, nth_error l n = Some (c, dx, dy) -> label_at f n = Some (Txt (name n)) /\
       cell_at f n "pair" = Some (Txt (pair_of c)) /\ cell_at f n "tknx" = Some (Txt (tknx c)) /\ cell_at f n "tkny" = Some (Txt (tkny c)) /\
       cell_at f n "x" = Some (Amt (x c)) /\ cell_at f n "y" = Some (Amt (y c)) /\ cell_at f n "xa" = Some (Amt (x_act c)) /\ cell_at f n "ya" = Some (Amt (y_act c)) /\
       cell_at f n "kk" = Some (Amt (product_after (c, dx, dy) / k c)) /\
       (inclk = true -> cell_at f n "k" = Some (Amt (k c)) /\ cell_at f n "kpost" = Some (Amt (product_after (c, dx, dy)))) /\
       cell_at f n (tknx c) = Some (Amt dx) /\ cell_at f n (tkny c) = Some (Amt dy) /\ (forall t, In t toks -> t <> tknx c -> t <> tkny c -> cell_at f n t = Some Hole)) /\
    label_at f (List.length l) = Some (Txt "total") /\ (forall t, In t toks -> cell_at f (List.length l) t = Some (Amt (net l t))) /\
    (forall t, In t (xy_headings inclk) -> t <> "kpost"%string -> t <> "kk"%string \/ inclk = false -> cell_at f (List.length l) t = Some Hole) /\
    (inclk = true -> cell_at f (List.length l) "kpost" = Some (Amt (sum_over product_after l)) /\ cell_at f (List.length l) "kk" = Some (Amt (sum_over (fun e => product_after e / k (fst (fst e))) l))).
Proof. exact xy_table. Qed.
(** the naive claim: the total row adds up the tokens only *)
Theorem C145_total_refuted : exists name l f, l <> [] /\ Forall proper (pools l) /\ all_allowed l /\ Forall (fun e => product_after e = k (fst (fst e))) l /\ dxdydf name true l = Ret f /\
  label_at f (List.length l) = Some (Txt "total") /\ cell_at f (List.length l) "kk" = Some (Amt 2).
Proof.
  exists (fun _ => "pool"%string), exbest. assert (Q : Forall (fun e => product_after e = k (fst (fst e))) exbest).
  { repeat constructor; unfold product_after, exbest, exa, exb, y; cbn [fst snd k x]; field. }
  destruct (C145_table (fun _ => "pool"%string) true exbest) as (f & toks & E & _ & _ & _ & _ & _ & L & _ & _ & V).
  - discriminate.
  - repeat constructor; cbn; try discriminate; unfold xy_plain, xy_headings; cbn; intuition discriminate.
  - exists f. split; [discriminate|]. split; [exact ex_proper|]. split; [|split; [exact Q|split; [exact E|split; [exact L|]]]].
    + unfold all_allowed. pose proof ex_marginal as M. rewrite Forall_forall in *. intros [[c dx] dy] He. destruct (M _ He) as [A _]. exact A.
    + destruct (V eq_refl) as [_ ->]. do 2 f_equal. unfold sum_over, exbest, product_after, exa, exb, y; cbn [fold_right fst snd k x]. field.
Qed.
Theorem C145_simple : forall a b cs r, isprimary norm_cpc a b = true -> Forall proper cs -> Forall (on_pair a b) cs -> cs <> [] -> so_curves r = map wrap cs -> 0 < so_p r ->
  exists l trades, simple_instructions r = Ret l /\ pools trades = cs /\ all_allowed trades /\ dxdy_sum (so_curves r) (so_p r) = Ret (net trades a, net trades b) /\ implements l trades.
Proof. exact simple_implements. Qed.
Theorem C145_simple_table : forall name a b cs r, isprimary norm_cpc a b = true -> Forall proper cs -> Forall (on_pair a b) cs -> cs <> [] -> so_curves r = map wrap cs -> 0 < so_p r -> plain a -> plain b ->
  exists dx dy out, dxdy_sum (so_curves r) (so_p r) = Ret (dx, dy) /\ so_instructions name r (Some "dfaggr"%string) = Ret (Frame out) /\
    (out = mkFrame [] [] \/ (In a (f_cols out) /\ In b (f_cols out) /\ exists n, label_at out n = Some (Txt "TOTAL NET") /\ cell_at out n a = Some (Amt dx) /\ cell_at out n b = Some (Amt dy))).
Proof. exact simple_table. Qed.
(** a result with a target token is as the last two require, and is what the instructions leave *)
Theorem C145_simple_results : forall a b t o cs n r, isprimary norm_cpc a b = true -> (t = a /\ o = b) \/ (t = b /\ o = a) -> Forall proper cs -> Forall (on_pair a b) cs -> (exists c, In c cs /\ 0 < holding c b) ->
  simple_optimizer n cs t = Ret (Some r) -> so_curves r = map wrap cs /\ 0 < so_p r /\
  exists l trades, simple_instructions r = Ret l /\ implements l trades /\ pools trades = cs /\ all_allowed trades /\ so_result_ r = net trades t.
Proof.
  intros a b t o cs n r P T H O Z E. destruct (C94_target a b t o cs n r P T H O Z E) as (Hp & _). assert (N : cs <> []) by (destruct Z as (c & Hc & _); destruct cs; [destruct Hc|discriminate]).
  assert (C : so_curves r = map wrap cs /\ exists s, dxdy_sum (map wrap cs) (so_p r) = Ret s /\ so_result_ r = if String.eqb t a then fst s else snd s).
  { destruct (OptProofs4.one_pair_ok a b cs P H O N) as (E1 & _ & _ & _ & W). unfold simple_optimizer in E. rewrite E1 in E. cbn [rbind] in E. destruct (rmap side_p (map wrap cs)) as [ps|]; [|discriminate]. cbn [rbind] in E.
    destruct cs as [|c0 cs0]; [congruence|]. cbn [map] in E. destruct (W (wrap c0)) as [W1 W2]; [left; reflexivity|]. rewrite W1, W2 in E. destruct (negb _) in E; [discriminate|].
    match type of E with rbind ?u _ = _ => destruct u as [[g|]|]; [| |] end; cbn [rbind] in E; try discriminate. match type of E with rbind ?u _ = _ => destruct u as [s|] eqn:Es end; cbn [rbind] in E; [|discriminate].
    destruct g as [|g]; [discriminate|]. injection E as <-. cbn [so_curves so_p so_result_]. split; [reflexivity|]. exists s. split; [exact Es|reflexivity]. }
  destruct C as (C & s & Es & Er). split; [exact C|]. split; [exact Hp|]. destruct (C145_simple a b cs r P H O N C Hp) as (l & trades & L1 & L2 & L3 & L4 & L5). exists l, trades.
  split; [exact L1|]. split; [exact L5|]. split; [exact L2|]. split; [exact L3|]. rewrite C, Es in L4. injection L4 as ->. cbn [fst snd] in Er. rewrite Er.
  destruct (OptProofs4.one_pair_ok a b cs P H O N) as (_ & _ & _ & D & _). destruct T as [[-> _]|[-> _]]; [rewrite String.eqb_refl; reflexivity|]. rewrite (proj2 (String.eqb_neq b a)) by congruence. reflexivity.
Qed.
(** without curves there are no tokens to name *)
Theorem C145_simple_empty name r fmt : so_curves r = [] -> simple_instructions r = Raise IndexError /\ so_instructions name r fmt = Raise IndexError.
Proof. intros E. unfold so_instructions, simple_instructions. rewrite E. split; reflexivity. Qed.
Example C145_empty_ex : so_instructions (fun _ => "c"%string) (mkSO 0 1 []) None = Raise IndexError.
Proof. exact (proj2 (C145_simple_empty _ (mkSO 0 1 []) None eq_refl)). Qed.
Definition exso : so_result := mkSO (- 5) (9 / 4) [Direct exa; Direct exb].
Example C145_ex : (exists l trades, simple_instructions exso = Ret l /\ implements l trades /\ pools trades = [exa; exb]) /\
  (exists v, make_scaled (mkScaled (Some [6; 8]) (Each [2; 4]) None) = Ret v /\ scaled_value v = Some [6 / 2; 8 / 4]) /\ make_scaled (mkScaled (Some [6; 8]) (Each [2]) None) = Raise ValueError.
Proof.
  split; [|split; [eexists; split; reflexivity|reflexivity]].
  destruct (C145_simple "A" "B" [exa; exb] exso) as (l & tr & E & A & _ & _ & B); [reflexivity|exact ex_proper|repeat constructor|discriminate|reflexivity|cbn; lra|]. exists l, tr. split; [exact E|]. split; assumption.
Qed.

Print Assumptions C144_raw.
Print Assumptions C144_pretty.
Print Assumptions C144_aggregate.
Print Assumptions C144_formats.
Print Assumptions C144_settles.
Print Assumptions C144_idle.
Print Assumptions C144_columns_refuted.
Print Assumptions C145_scaled.
Print Assumptions C145_nofees.
Print Assumptions C145_nofees_refused.
Print Assumptions C145_nofees_none.
Print Assumptions C145_table.
Print Assumptions C145_total_refuted.
Print Assumptions C145_simple.
Print Assumptions C145_simple_table.
Print Assumptions C145_simple_results.
Print Assumptions C145_simple_empty.
