(** Coin lists, cache and queries *)
From Coq Require Import ZArith QArith List Bool String Ascii Lia.
From Verif Require Import CurveModel CcModel CcSpec.
From Verif Require SdkModel SdkProofs2.
Import ListNotations.
Local Open Scope string_scope.
Local Open Scope nat_scope.

(** ** splitting and joining *)
Lemma split_ne sep s : split_on sep s <> [].
Proof. destruct s as [|c s]; cbn; [discriminate|]. destruct (Ascii.eqb c sep); [discriminate|]. destruct (split_on sep s); discriminate. Qed.
Lemma app_nil_s s : s ++ "" = s. Proof. induction s as [|c s IH]; cbn; [reflexivity|]. rewrite IH. reflexivity. Qed.
Lemma app_assoc_s a b c : (a ++ b) ++ c = a ++ b ++ c. Proof. induction a as [|x a IH]; cbn; [reflexivity|]. rewrite IH. reflexivity. Qed.
Lemma concat_cons sep a b l : String.concat sep (a :: b :: l) = a ++ sep ++ String.concat sep (b :: l). Proof. reflexivity. Qed.
Lemma split_concat sep s : String.concat (String sep "") (split_on sep s) = s.
Proof.
  induction s as [|c s IH]; [reflexivity|]. cbn [split_on]. destruct (Ascii.eqb_spec c sep) as [->|N].
  - destruct (split_on sep s) as [|w ws] eqn:E; [destruct (split_ne sep s E)|]. rewrite concat_cons. cbn [append]. rewrite IH. reflexivity.
  - destruct (split_on sep s) as [|w ws] eqn:E; [destruct (split_ne sep s E)|]. destruct ws as [|v ws]; [cbn in *; rewrite IH; reflexivity|]. rewrite concat_cons in *. cbn [append] in *. rewrite IH. reflexivity.
Qed.
Lemma split_free sep s : Forall (fun w => occurs sep w = 0) (split_on sep s).
Proof.
  induction s as [|c s IH]; [repeat constructor|]. cbn [split_on]. destruct (Ascii.eqb c sep) eqn:E; [constructor; [reflexivity|exact IH]|]. destruct (split_on sep s) as [|w ws]; [repeat constructor; cbn; rewrite E; reflexivity|].
  inversion IH; subst. constructor; [cbn; rewrite E; assumption|assumption].
Qed.
Lemma split_length sep s : List.length (split_on sep s) = S (occurs sep s).
Proof.
  induction s as [|c s IH]; [reflexivity|]. cbn [split_on occurs]. destruct (Ascii.eqb c sep); [cbn; rewrite IH; reflexivity|]. destruct (split_on sep s) as [|w ws] eqn:E; [destruct (split_ne sep s E)|]. cbn in *. exact IH.
Qed.
Lemma split_one sep s : occurs sep s = 0 -> split_on sep s = [s].
Proof. induction s as [|c s IH]; intros H; [reflexivity|]. cbn in *. destruct (Ascii.eqb c sep); [discriminate|]. rewrite IH by exact H. reflexivity. Qed.
Lemma split_app_on sep a s : occurs sep a = 0 -> split_on sep (a ++ String sep s) = a :: split_on sep s.
Proof. induction a as [|c a IH]; intros H; [cbn; rewrite Ascii.eqb_refl; reflexivity|]. cbn in *. destruct (Ascii.eqb c sep); [discriminate|]. rewrite IH by exact H. reflexivity. Qed.
Lemma strip_blank x : SdkModel.strip (String " " x) = SdkModel.strip x. Proof. reflexivity. Qed.
Lemma split_blank sep s : sep <> " "%char -> exists w ws, split_on sep (String " " s) = String " " w :: ws /\ split_on sep s = w :: ws.
Proof. intros N. cbn [split_on]. destruct (Ascii.eqb_spec " "%char sep) as [E|_]; [congruence|]. destruct (split_on sep s) as [|w ws] eqn:E; [destruct (split_ne sep s E)|]. eauto. Qed.
Lemma unjoin_join l : l <> [] -> Forall (fun x => occurs "," x = 0 /\ trimmed x) l -> unjoin None (join None l) = l.
Proof.
  intros N F. unfold unjoin, join. induction F as [|a l [A B] F IH]; [contradiction|]. destruct l as [|b l]; [cbn [String.concat]; rewrite split_one by exact A; cbn; rewrite B; reflexivity|].
  rewrite concat_cons. change (a ++ ", " ++ String.concat ", " (b :: l)) with (a ++ String "," (String " " (String.concat ", " (b :: l)))). rewrite split_app_on by exact A.
  destruct (split_blank "," (String.concat ", " (b :: l)) ltac:(discriminate)) as (w & ws & E & E'). rewrite E. specialize (IH ltac:(discriminate)). rewrite E' in IH. cbn [map] in *. rewrite strip_blank, IH, B. reflexivity.
Qed.
Lemma unjoin_any sep s : let c := match sep with None => ","%char | Some c => c end in exists parts, String.concat (String c "") parts = s /\ Forall (fun w => occurs c w = 0) parts /\ List.length parts = S (occurs c s) /\ unjoin sep s = map SdkModel.strip parts.
Proof. intros c. exists (split_on c s). split; [apply split_concat|]. split; [apply split_free|]. split; [apply split_length|reflexivity]. Qed.
(** pairs *)
Lemma pair_round a b : occurs "/" a = 0 -> occurs "/" b = 0 -> pair_from_pt (a, b) = a ++ "/" ++ b /\ pt_from_pair (a ++ "/" ++ b) = Ret (a, b).
Proof. intros A B. split; [reflexivity|]. unfold pt_from_pair. change (a ++ "/" ++ b) with (a ++ String "/" b). rewrite split_app_on, split_one by assumption. reflexivity. Qed.
Lemma pair_inv s : (occurs "/" s = 1 -> exists a b, pt_from_pair s = Ret (a, b) /\ pair_from_pt (a, b) = s /\ occurs "/" a = 0 /\ occurs "/" b = 0) /\ (occurs "/" s <> 1 -> pt_from_pair s = Raise TypeError).
Proof.
  pose proof (split_length "/" s) as L. pose proof (split_free "/" s) as F. pose proof (split_concat "/" s) as C. unfold pt_from_pair. destruct (split_on "/" s) as [|a [|b [|c l]]]; cbn [List.length] in L; split; intros H; try lia; try reflexivity.
  inversion F as [|? ? Fa F']; subst. inversion F'; subst. exists a, b. repeat split; assumption.
Qed.
Lemma create_in c q b t : In (b, t) (create_pairs c q) <-> In b (coinlist c ",") /\ In t (match q with None => coinlist c "," | Some q => coinlist q "," end) /\ b <> t.
Proof.
  unfold create_pairs. cbv zeta. rewrite filter_In, in_flat_map. cbn [fst snd]. rewrite negb_true_iff, String.eqb_neq. split.
  - intros [(x & X & Y) N]. apply in_map_iff in Y as (y & E & Y). injection E as -> ->. auto.
  - intros (B & T & N). split; [|exact N]. exists t. split; [exact T|]. apply in_map_iff. eauto.
Qed.
Lemma NoDup_app_intro {A} (l1 l2 : list A) : NoDup l1 -> NoDup l2 -> (forall x, In x l1 -> ~ In x l2) -> NoDup (l1 ++ l2)%list.
Proof.
  intros N1 N2 D. induction N1 as [|a l N N1 IH]; [exact N2|]. cbn. constructor; [intros X; apply in_app_or in X as [X|X]; [contradiction|exact (D a (or_introl eq_refl) X)]|]. apply IH. intros x X. apply D. right. exact X.
Qed.
Lemma NoDup_prod (cs qs : list string) : NoDup cs -> NoDup qs -> NoDup (flat_map (fun q => map (fun c => (c, q)) cs) qs).
Proof.
  intros Nc. induction 1 as [|q qs Nq N IH]; [constructor|]. cbn. apply NoDup_app_intro.
  - clear - Nc. induction Nc as [|c cs N Nc IH]; cbn; constructor; [|exact IH]. intros X. apply in_map_iff in X as (y & E & Y). injection E as ->. contradiction.
  - exact IH.
  - intros [x y] X Y. apply in_map_iff in X as (c & E & C). injection E as <- <-. apply in_flat_map in Y as (q' & Q & Y). apply in_map_iff in Y as (c' & E & _). injection E as <- <-. contradiction.
Qed.
Lemma create_nodup c q : NoDup (coinlist c ",") -> NoDup (match q with None => coinlist c "," | Some q => coinlist q "," end) -> NoDup (create_pairs c q).
Proof. intros A B. unfold create_pairs. apply NoDup_filter, NoDup_prod; assumption. Qed.
Lemma filter_map_pair q cs : filter (fun p => negb (String.eqb (fst p) (snd p))) (map (fun c => (c, q)) cs) = map (fun c => (c, q)) (filter (fun c => negb (String.eqb c q)) cs).
Proof. induction cs as [|c cs IH]; [reflexivity|]. cbn. destruct (String.eqb c q); cbn; rewrite IH; reflexivity. Qed.
Lemma filter_none q cs : ~ In q cs -> filter (fun c => negb (String.eqb c q)) cs = cs.
Proof. induction cs as [|c cs IH]; intros N; [reflexivity|]. cbn. destruct (String.eqb_spec c q) as [->|_]; [exfalso; apply N; left; reflexivity|]. cbn. rewrite IH; [reflexivity|]. intros X. apply N. right. exact X. Qed.
Lemma filter_other q cs : NoDup cs -> In q cs -> S (List.length (filter (fun c => negb (String.eqb c q)) cs)) = List.length cs.
Proof.
  induction 1 as [|c cs N D IH]; intros I; [destruct I|]. cbn. destruct (String.eqb_spec c q) as [->|E]; cbn; [rewrite filter_none by exact N; reflexivity|]. destruct I as [I|I]; [congruence|]. rewrite IH by exact I. reflexivity.
Qed.
Lemma create_length c : NoDup (coinlist c ",") -> let n := List.length (coinlist c ",") in List.length (create_pairs c None) = n * (n - 1).
Proof.
  intros N n. unfold create_pairs. cbv zeta. set (cs := coinlist c ",") in *. assert (G : forall qs, incl qs cs -> List.length (filter (fun p => negb (String.eqb (fst p) (snd p))) (flat_map (fun q => map (fun c => (c, q)) cs) qs)) = List.length qs * (n - 1)).
  { induction qs as [|q qs IH]; intros I; [reflexivity|]. cbn [flat_map]. rewrite filter_app, app_length, IH by (intros x X; apply I; right; exact X). rewrite filter_map_pair, map_length. pose proof (filter_other q cs N (I q (or_introl eq_refl))) as F. change (List.length cs) with n in F. cbn [List.length]. lia. }
  apply G. intros x X. exact X.
Qed.
Lemma coinlist_spec c sep : (forall s, c = Joined s -> coinlist c sep = unjoin (Some sep) s) /\ (forall l, c = Items l -> coinlist c sep = l).
Proof. split; intros x ->; reflexivity. Qed.

(** ** cache *)
Lemma coinlist_pt_spec c sep :
  (forall l, c = Items l -> coinlist_pt c sep = Ret l) /\
  (forall s, c = Joined s -> Forall (fun x => occurs "/" x = 1) (unjoin (Some sep) s) -> exists ps, coinlist_pt c sep = Ret ps /\ map pair_from_pt ps = unjoin (Some sep) s /\ Forall (fun p => occurs "/" (fst p) = 0 /\ occurs "/" (snd p) = 0) ps) /\
  (forall s, c = Joined s -> ~ Forall (fun x => occurs "/" x = 1) (unjoin (Some sep) s) -> coinlist_pt c sep = Raise TypeError).
Proof.
  assert (G : forall l, (Forall (fun x => occurs "/" x = 1) (map SdkModel.strip l) -> exists ps, all_ok (fun x => pt_from_pair (SdkModel.strip x)) l = Ret ps /\ map pair_from_pt ps = map SdkModel.strip l /\ Forall (fun p => occurs "/" (fst p) = 0 /\ occurs "/" (snd p) = 0) ps) /\
      (~ Forall (fun x => occurs "/" x = 1) (map SdkModel.strip l) -> all_ok (fun x => pt_from_pair (SdkModel.strip x)) l = Raise TypeError)).
  { induction l as [|x l [IH1 IH2]]; cbn [map all_ok].
    - split; [intros _; exists []; repeat split; constructor|intros N; exfalso; apply N; constructor].
    - destruct (pair_inv (SdkModel.strip x)) as [P1 P2]. split.
      + intros F. inversion F as [|? ? Fx Fl]; subst. destruct (P1 Fx) as (a & b & E & B & Oa & Ob). destruct (IH1 Fl) as (ps & E2 & M & FF).
        exists ((a, b) :: ps). rewrite E. cbn [rbind]. rewrite E2. cbn [rbind]. cbn [map]. rewrite M, B. repeat split. constructor; [split; assumption|assumption].
      + intros N. destruct (Nat.eq_dec (occurs "/" (SdkModel.strip x)) 1) as [Y|Y].
        * destruct (P1 Y) as (a & b & E & _). rewrite E. cbn [rbind]. rewrite IH2; [reflexivity|]. intros F. apply N. constructor; assumption.
        * rewrite (P2 Y). reflexivity. }
  split; [intros l ->; reflexivity|]. split; intros s -> F; [exact (proj1 (G _) F)|exact (proj2 (G _) F)].
Qed.
Lemma cache_hit {D} c (w : world D) item d u r up : stored w item d -> cache_xxx c w item u r up = (Ret (Some d), w).
Proof. unfold stored, cache_xxx, cache. intros ->. reflexivity. Qed.
Lemma cache_silent {D} c (w : world D) item u r up : missing w item -> c_raise c = false -> cache_xxx c w item u r up = (Ret None, w).
Proof. unfold missing, cache_xxx, cache. intros -> ->. reflexivity. Qed.
Lemma cache_miss {D} c (w : world D) item u : missing w item -> c_raise c = true -> let w1 := mkWorld (w_files w) (w_writable w) (S (w_queries w)) in
  cache_xxx c w item u false false = (Raise OSError, w) /\ cache_xxx c w item u true false = (match u with Ret d => Ret (Some d) | Raise e => Raise e end, w1) /\
  (forall r e, u = Raise e -> cache_xxx c w item u r true = (Raise e, w1)) /\
  (forall r d, u = Ret d -> w_writable w = false -> cache_xxx c w item u r true = (Raise OSError, w1)) /\
  (forall r d, u = Ret d -> w_writable w = true -> exists w', cache_xxx c w item u r true = (Ret (Some d), w') /\ w_queries w' = S (w_queries w) /\ w_writable w' = true /\ stored w' item d /\ (forall i x, i <> item -> (stored w' i x <-> stored w i x))).
Proof.
  intros M R w1. unfold cache_xxx, cache, missing in *. rewrite M, R. split; [reflexivity|]. split; [destruct u; reflexivity|]. split; [intros r e ->; destruct r; reflexivity|]. split.
  - intros r d -> W. rewrite orb_true_r. unfold write_cache. cbn [w_writable]. rewrite W, R. subst w1. rewrite W. reflexivity.
  - intros r d -> W. rewrite orb_true_r. unfold write_cache. cbn [w_writable w_files w_queries]. rewrite W. eexists. split; [reflexivity|]. split; [reflexivity|]. split; [reflexivity|]. unfold stored. cbn [w_files]. split; [rewrite SdkProofs2.dget_dset, String.eqb_refl; reflexivity|].
    intros i x N. rewrite SdkProofs2.dget_dset. destruct (String.eqb_spec i item); [contradiction|]. reflexivity.
Qed.
Lemma cache_named {D} c (w : world D) u r up : cache_allexchanges c w u r up = cache_xxx c w "query_allexchanges" u true false /\ cache_coinlist c w u r up = cache_xxx c w "query_coinlist" u true false /\ cache_indexlist c w u r up = cache_xxx c w "query_indexlist" u true false.
Proof. repeat split. Qed.
Lemma cache_never_written {D} c (w : world D) u r up : w_files (snd (cache_allexchanges c w u r up)) = w_files w /\ w_files (snd (cache_coinlist c w u r up)) = w_files w /\ w_files (snd (cache_indexlist c w u r up)) = w_files w.
Proof.
  assert (G : forall item, w_files (snd (cache_xxx c w item u true false)) = w_files w). { intros item. unfold cache_xxx. destruct (cache c w item); [reflexivity|]. cbn. destruct u; reflexivity. } repeat split; apply G.
Qed.
Lemma write_read {D} c (w : world D) item d : (w_writable w = true -> exists w', write_cache c w item d = (Ret (Some item), w') /\ cache c w' item = Ret (Some d)) /\ (w_writable w = false -> write_cache c w item d = (if c_raise c then Raise OSError else Ret None, w)).
Proof.
  unfold write_cache, cache. split; intros ->; [|reflexivity]. eexists. split; [reflexivity|]. cbn [w_files]. rewrite SdkProofs2.dget_dset, String.eqb_refl. reflexivity.
Qed.
Lemma new_spec env nm k r : let raise := match r with None => true | Some b => b end in
  (forall s, k = KStr s -> new_cc env nm k r = Ret (mkCc (Key s) raise)) /\ (k = KTrue -> new_cc env nm k r = Ret (mkCc Anonymous raise)) /\ (k = KOther -> new_cc env nm k r = Raise ValueError) /\
  (k = KNone -> let name := match nm with None => "CCAPIKEY" | Some n => n end in (env name = None -> new_cc env nm k r = Raise RuntimeError) /\ forall s, env name = Some s -> new_cc env nm k r = Ret (mkCc (Key s) raise)).
Proof. cbv zeta. split; [intros s ->; reflexivity|]. split; [intros ->; reflexivity|]. split; [intros ->; reflexivity|]. intros ->. unfold new_cc. split; [intros E|intros s E]; rewrite E; reflexivity. Qed.

(** ** queries *)
Lemma given_get k l : SdkModel.dget k (given l) = match find (fun p => String.eqb k (fst p) && match snd p with None => false | Some _ => true end) l with Some (_, v) => v | None => None end.
Proof. induction l as [|[k' [v|]] l IH]; [reflexivity| |]; cbn; [destruct (String.eqb k k'); [reflexivity|exact IH]|]. rewrite andb_false_r. exact IH. Qed.
Lemma query_spec c s endpoint params : exists rq, fst (query c s endpoint params None) = Some rq /\ fst (query c s endpoint params (Some "GET")) = Some rq /\ r_url rq = "https://min-api.cryptocompare.com" ++ endpoint /\
  (forall k, k <> "api_key" -> forall v, NoDup (map fst params) -> (SdkModel.dget k (r_params rq) = Some v <-> In (k, Some v) params)) /\ (forall s, c_key c = Key s -> SdkModel.dget "api_key" (r_params rq) = Some (PStr s)) /\
  (a_ok (s rq) = true -> snd (query c s endpoint params None) = Ret (Some (s rq))) /\ (a_ok (s rq) = false -> snd (query c s endpoint params None) = if c_raise c then Raise AttributeError else Ret None).
Proof.
  unfold query. cbv zeta. cbn [String.eqb Ascii.eqb Bool.eqb fst snd]. eexists. split; [reflexivity|]. split; [reflexivity|]. split; [reflexivity|]. cbn [r_params]. split; [|split; [|split; intros ->; reflexivity]].
  - intros k N v D. assert (E : SdkModel.dget k (match c_key c with Key k0 => SdkModel.dset "api_key" (PStr k0) (given params) | Anonymous => given params end) = SdkModel.dget k (given params)) by (destruct (c_key c); [rewrite SdkProofs2.dget_dset; destruct (String.eqb_spec k "api_key"); [contradiction|reflexivity]|reflexivity]).
    rewrite E. clear E. induction params as [|[k' o] l IH]; [cbn; split; [discriminate|intros []]|]. inversion D as [|? ? Nk D']; subst. destruct o as [v'|]; cbn [given SdkModel.dget fst].
    + destruct (String.eqb_spec k k') as [->|Ne]; [split; [intros X; injection X as ->; left; reflexivity|intros [X|X]; [injection X as ->; reflexivity|exfalso; apply Nk, in_map_iff; exists (k', Some v); auto]]|].
      rewrite (IH D'). split; [intros X; right; exact X|intros [X|X]; [injection X as -> _; contradiction|exact X]].
    + rewrite (IH D'). split; [intros X; right; exact X|intros [X|X]; [discriminate|exact X]].
  - intros key ->. rewrite SdkProofs2.dget_dset. reflexivity.
Qed.
Lemma query_method c s endpoint params m : m <> "GET" -> query c s endpoint params (Some m) = (None, Raise ValueError).
Proof. intros N. unfold query. destruct (String.eqb_spec m "GET"); [contradiction|]. reflexivity. Qed.
Lemma freq_unknown c s freq f t e l ts pd : freq <> "day" -> freq <> "hour" -> freq <> "minute" -> query_freqlypair c s freq f t e l ts pd = (None, Raise ValueError).
Proof. intros A B C. unfold query_freqlypair, FREQS. cbn [existsb]. apply String.eqb_neq in A, B, C. rewrite A, B, C. reflexivity. Qed.
Lemma freq_spec c s freq f t e l ts pd : In freq ["day"; "hour"; "minute"] -> let rq := mkReq ("https://min-api.cryptocompare.com/data/v2/histo" ++ freq) (freq_params c f t e l ts) in let a := s rq in
  query_freqlypair c s freq f t e l ts pd =
  (Some rq, if negb (a_ok a) then (if c_raise c then Raise AttributeError else Ret None)
            else if a_error a then (if c_raise c then Raise RuntimeError else Ret None)
            else if negb pd then Raise TypeError
            else match a_history a with None => Raise KeyError | Some [] => Raise KeyError
                 | Some h => Ret (Some (map (fun k => (k_time k, [k_open k; k_close k; k_high k; k_low k; k_from k; k_to k])) h)) end).
Proof.
  intros F rq a. assert (X : existsb (String.eqb freq) FREQS = true) by (cbn in F; destruct F as [<-|[<-|[<-|[]]]]; reflexivity). unfold query_freqlypair. rewrite X. cbn [negb]. unfold query. cbv zeta. change (String.eqb "GET" "GET") with true. cbv iota beta.
  assert (E : forall l0, mkReq (url ("/data/v2/histo" ++ freq)) l0 = mkReq ("https://min-api.cryptocompare.com/data/v2/histo" ++ freq) l0) by reflexivity. rewrite E.
  match goal with |- context[mkReq _ ?p] => assert (P : p = freq_params c f t e l ts) end. { unfold freq_params, key_params. destruct (c_key c), f, e, l, ts; reflexivity. }
  rewrite P. fold rq. fold a. destruct (a_ok a); cbn [negb]; [|destruct (c_raise c); reflexivity]. destruct (a_error a); [reflexivity|]. destruct pd; [|reflexivity]. cbn [negb]. destruct (a_history a) as [[|h r]|]; reflexivity.
Qed.
Lemma raw_requests c s freq ps : In freq ["day"; "hour"; "minute"] -> forall acc t, snd (raw_tables c s freq ps acc) = Ret t -> fst (raw_tables c s freq ps acc) = map (fun p => pair_request c freq (fst p) (snd p)) ps.
Proof.
  intros F. induction ps as [|p ps IH]; intros acc t H; [reflexivity|]. cbn [raw_tables map] in *. rewrite (freq_spec c s freq (Some (fst p)) (Some (snd p)) None LFalse None true F) in *. cbv zeta in *.
  match goal with |- context[mkReq ?u ?l] => change (mkReq u l) with (pair_request c freq (fst p) (snd p)) in * end. destruct (if negb _ then _ else _) as [x|x]; [|discriminate]. destruct (raw_tables c s freq ps _) as [rqs out] eqn:E. cbn [fst snd] in *. specialize (IH (SdkModel.dset (pair_from_pt p) x acc) t). rewrite E in IH. cbn [fst snd] in IH. rewrite (IH H). reflexivity.
Qed.
Lemma raw_value c s freq ps : In freq ["day"; "hour"; "minute"] -> forall acc t, snd (raw_tables c s freq ps acc) = Ret t ->
  forall k, match SdkModel.dget k t with
            | None => SdkModel.dget k acc = None /\ ~ In k (map pair_from_pt ps)
            | Some v => (SdkModel.dget k acc = Some v /\ ~ In k (map pair_from_pt ps)) \/ exists p, In p ps /\ pair_from_pt p = k /\ snd (query_freqlypair c s freq (Some (fst p)) (Some (snd p)) None LFalse None true) = Ret v
            end.
Proof.
  intros F. induction ps as [|p ps IH]; intros acc t H k; [cbn in H; injection H as <-; destruct (SdkModel.dget k acc); [left|]; split; try reflexivity; intros []|].
  cbn [raw_tables] in H. destruct (query_freqlypair c s freq (Some (fst p)) (Some (snd p)) None LFalse None true) as [rq r] eqn:Q. destruct r as [v|e]; [|discriminate]. destruct (raw_tables c s freq ps _) as [rqs out] eqn:E. cbn [snd] in H.
  specialize (IH (SdkModel.dset (pair_from_pt p) v acc) t). rewrite E in IH. specialize (IH H k). rewrite SdkProofs2.dget_dset in IH. destruct (SdkModel.dget k t) as [x|].
  - destruct IH as [[A B]|(p' & I & K & V)]; [|right; exists p'; split; [right; exact I|auto]]. destruct (String.eqb_spec k (pair_from_pt p)) as [->|N]; [injection A as ->; right; exists p; split; [left; reflexivity|split; [reflexivity|rewrite Q; reflexivity]]|]. left. split; [exact A|]. intros [X|X]; [congruence|contradiction].
  - destruct IH as [A B]. destruct (String.eqb_spec k (pair_from_pt p)) as [Ek|N]; [discriminate|]. split; [exact A|]. intros [X|X]; [congruence|contradiction].
Qed.
Lemma dset_in {A} k (v : A) l x : In x (map fst (SdkModel.dset k v l)) -> x = k \/ In x (map fst l).
Proof. induction l as [|[k' y] l IH]; cbn; [intros [X|[]]; auto|]. destruct (String.eqb k k'); cbn; [tauto|]. intros [X|X]; [auto|]. destruct (IH X); auto. Qed.
Lemma dset_nodup {A} k (v : A) l : NoDup (map fst l) -> NoDup (map fst (SdkModel.dset k v l)).
Proof.
  induction l as [|[k' y] l IH]; intros N; cbn; [repeat constructor; intros []|]. inversion N as [|? ? B C]; subst. destruct (String.eqb_spec k k') as [E|E]; cbn; [constructor; assumption|]. constructor; [|apply IH, C]. intros X. apply dset_in in X as [X|X]; [congruence|contradiction].
Qed.
Lemma aggr_spec c s ps freq e l ts rqs t : (freq = None \/ exists f, freq = Some f /\ In f ["day"; "hour"; "minute"]) -> aggr_query c s (Items ps) freq e l ts = (rqs, Ret t) -> let f := match freq with None => "day" | Some f => f end in
  rqs = map (fun p => pair_request c f (fst p) (snd p)) ps /\ (forall k, SdkModel.dget k t <> None <-> In k (map pair_from_pt ps)) /\ (exists k h, SdkModel.dget k t = Some (Some h)) /\
  (forall k v, SdkModel.dget k t = Some v -> exists p, In p ps /\ pair_from_pt p = k /\ snd (query_freqlypair c s f (Some (fst p)) (Some (snd p)) None LFalse None true) = Ret v).
Proof.
  intros Hf E f. assert (F : In f ["day"; "hour"; "minute"]) by (unfold f; destruct Hf as [->|(g & -> & G)]; [left; reflexivity|exact G]). unfold aggr_query in E. cbn [aggr_pairs] in E. fold f in E. destruct (raw_tables c s f ps []) as [r out] eqn:R. injection E as <- E. destruct out as [t'|]; [|discriminate]. cbn [rbind] in E.
  destruct (forallb _ t') eqn:A in E; [discriminate|]. injection E as <-. pose proof (raw_requests c s f ps F [] t') as Q. rewrite R in Q. specialize (Q eq_refl). pose proof (raw_value c s f ps F [] t') as V. rewrite R in V. specialize (V eq_refl). cbn [fst] in Q. split; [exact Q|].
  assert (Vs : forall k v, SdkModel.dget k t' = Some v -> exists p, In p ps /\ pair_from_pt p = k /\ snd (query_freqlypair c s f (Some (fst p)) (Some (snd p)) None LFalse None true) = Ret v). { intros k v G. specialize (V k). rewrite G in V. destruct V as [[X _]|X]; [discriminate|exact X]. }
  split; [|split; [|exact Vs]].
  - intros k. split.
    + intros N. destruct (SdkModel.dget k t') as [v|] eqn:G; [|contradiction]. destruct (Vs k v G) as (p & I & K & _). apply in_map_iff. eauto.
    + intros I N. specialize (V k). rewrite N in V. destruct V as [_ V]. contradiction.
  - assert (U : NoDup (map fst t')). { clear - R. change [] with (@nil (string * option (list (Z * list Q)))) in R. assert (G : forall acc r out, NoDup (map fst acc) -> raw_tables c s f ps acc = (r, Ret out) -> NoDup (map fst out)); [|apply (G [] r t'); [constructor|exact R]]. clear. induction ps as [|p ps IH]; intros acc r out N H; cbn in H; [injection H as _ <-; exact N|].
      destruct (query_freqlypair c s f (Some (fst p)) (Some (snd p)) None LFalse None true) as [rq [v|e]]; [|discriminate]. destruct (raw_tables c s f ps _) as [q o] eqn:E. injection H as _ ->. refine (IH _ _ _ _ E). apply dset_nodup, N. }
    clear - A U. induction t' as [|[k [h|]] t' IH]; [discriminate| |]; [exists k, h; cbn; rewrite String.eqb_refl; reflexivity|]. cbn in A. inversion U as [|? ? N U']; subst. destruct (IH A U') as (k' & h & G). exists k', h. cbn. destruct (String.eqb_spec k' k) as [->|]; [|exact G]. exfalso. apply N. clear - G. induction t' as [|[a b] t IH]; [discriminate|]. cbn in *. destruct (String.eqb_spec k a) as [->|]; [left; reflexivity|right; apply IH, G].
Qed.
Lemma aggr_ignores c s ps freq e e' l l' ts ts' : aggr_query c s ps freq e l ts = aggr_query c s ps freq e' l' ts'.
Proof. reflexivity. Qed.
Lemma aggr_joined c s l freq e lim ts : l <> [] -> Forall (fun p => occurs "/" (fst p) = 0 /\ occurs "/" (snd p) = 0 /\ occurs "," (fst p) = 0 /\ occurs "," (snd p) = 0 /\ trimmed (fst p ++ "/" ++ snd p)) l ->
  aggr_query c s (Joined (join None (map (fun p => fst p ++ "/" ++ snd p) l))) freq e lim ts = aggr_query c s (Items l) freq e lim ts.
Proof.
  intros N F. unfold aggr_query. replace (aggr_pairs (Joined (join None (map (fun p => fst p ++ "/" ++ snd p) l)))) with (@Ret (list (string * string)) l); [reflexivity|]. cbn [aggr_pairs]. rewrite unjoin_join.
  - clear N. induction F as [|[a b] l (A & B & _) F IH]; [reflexivity|]. cbn [map all_ok fst snd] in *. rewrite (proj2 (pair_round a b A B)). cbn [rbind]. rewrite <- IH. reflexivity.
  - intros E. apply N. destruct l; [reflexivity|discriminate].
  - apply Forall_forall. intros x X. apply in_map_iff in X as ([a b] & <- & I). rewrite Forall_forall in F. destruct (F _ I) as (_ & _ & A & B & T). split; [|exact T]. cbn [fst snd] in *. clear - A B. induction a as [|ch a IH]; [exact B|]. cbn in *. destruct (Ascii.eqb ch ","); [discriminate|]. apply IH, A.
Qed.
