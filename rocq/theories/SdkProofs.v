(** Encoded orders. *)
From Coq Require Import ZArith QArith Qround List Bool String Lia Lqa.
From Verif Require Import TradeModel TradeSpec TradeProofs TradeProofs2 TradeProofs3 CurveModel SdkModel SdkSpec.
Import ListNotations.
Local Open Scope Z_scope.

Lemma one_pos : (0 < inject_Z ONE)%Q. Proof. reflexivity. Qed.
Lemma inj_lt a b : a < b -> (inject_Z a < inject_Z b)%Q. Proof. intros. rewrite <- Zlt_Qlt. assumption. Qed.
Lemma inj_le a b : a <= b -> (inject_Z a <= inject_Z b)%Q. Proof. intros. rewrite <- Zle_Qle. assumption. Qed.
Lemma qtrunc_floor q : (0 <= q)%Q -> qtrunc q = Qfloor q.
Proof. intros H. unfold qtrunc. apply Qle_bool_iff in H. rewrite H. reflexivity. Qed.
Lemma qtrunc_Z z : qtrunc (inject_Z z) = z.
Proof. unfold qtrunc. destruct (Qle_bool 0 (inject_Z z)); [apply Qfloor_Z|apply Qceiling_Z]. Qed.
Lemma encodeRate_some v : (0 <= v)%Q -> exists L, encodeRate v = Some L /\ 0 <= L.
Proof. intros H. destruct (encodeRate_bounds v H) as (L & E & N & _). eauto. Qed.
Lemma eo_rate v L : encodeRate v = Some L -> eo_encodeRate v = Ret L. Proof. unfold eo_encodeRate. intros ->. reflexivity. Qed.
Lemma decode_nonneg v : 0 <= v -> eo_decode (encodeFloat v) = Ret (inject_Z (decodeFloat (encodeFloat v)) / inject_Z ONE)%Q.
Proof.
  intros H. unfold eo_decode. assert (0 <= encodeFloat v / ONE) by (apply Z.div_pos; [apply encodeFloat_nonneg; exact H|reflexivity]).
  destruct (Z.ltb_spec (encodeFloat v / ONE) 0); [lia|reflexivity].
Qed.
Lemma rate_upper v L : encodeRate v = Some L -> 0 <= L /\ (inject_Z (L * L) <= v * inject_Z (2 ^ 96))%Q /\
  (v * inject_Z (2 ^ 190) < inject_Z ((L * (2 ^ 47 + 1) + 2 ^ 47) * (L * (2 ^ 47 + 1) + 2 ^ 47)))%Q.
Proof.
  intros H. destruct (encodeRate_nonneg _ _ H) as [Hv HL]. destruct (encodeRate_bounds v Hv) as (L' & E & _ & B & U). rewrite E in H. apply Some_inj in H. subst L'.
  split; [exact HL|]. split; [exact B|]. change (2 ^ 190) with (2 ^ 96 * 2 ^ 94). rewrite inject_Z_mult, Qmult_assoc. destruct U as [U|U].
  - apply Qlt_le_trans with (inject_Z ((L + 1) * (L + 1)) * inject_Z (2 ^ 94))%Q; [apply Qmult_lt_compat_r; [reflexivity|exact U]|].
    rewrite <- inject_Z_mult. apply inj_le. replace ((L + 1) * (L + 1) * 2 ^ 94) with (((L + 1) * 2 ^ 47) * ((L + 1) * 2 ^ 47)) by ring. apply Z.mul_le_mono_nonneg; lia.
  - eapply Qlt_le_trans; [exact U|]. apply inj_le. apply Z.mul_le_mono_nonneg; lia.
Qed.
Lemma below_root v G L : 0 <= G <= L -> (inject_Z (L * L) <= v * inject_Z (2 ^ 96))%Q -> (inject_Z G / inject_Z ONE * (inject_Z G / inject_Z ONE) <= v)%Q.
Proof.
  intros HG H. setoid_replace (inject_Z G / inject_Z ONE * (inject_Z G / inject_Z ONE))%Q with (inject_Z (G * G) / inject_Z (2 ^ 96))%Q.
  2:{ rewrite inject_Z_mult. change (inject_Z (2 ^ 96)) with (inject_Z ONE * inject_Z ONE)%Q. field. intros E0; discriminate E0. }
  apply Qle_shift_div_r; [reflexivity|]. eapply Qle_trans; [|exact H]. apply inj_le. apply Z.mul_le_mono_nonneg; lia.
Qed.
Lemma above_root v W u : (v * inject_Z (2 ^ 190) < inject_Z (W * W))%Q -> (u == inject_Z W / inject_Z (2 ^ 95))%Q -> (v < u * u)%Q.
Proof.
  intros H ->. setoid_replace (inject_Z W / inject_Z (2 ^ 95) * (inject_Z W / inject_Z (2 ^ 95)))%Q with (inject_Z (W * W) / inject_Z (2 ^ 190))%Q.
  2:{ rewrite inject_Z_mult. change (inject_Z (2 ^ 190)) with (inject_Z (2 ^ 95) * inject_Z (2 ^ 95))%Q. field. intros E0; discriminate E0. }
  apply Qlt_shift_div_l; [reflexivity|exact H].
Qed.
Lemma rate_near v L : encodeRate v = Some L -> root_near (inject_Z L / inject_Z ONE) v (two_to (-47)) (two_to (-48)).
Proof.
  intros H. destruct (rate_upper v L H) as (N & B & U). split; [apply (below_root v L L); [lia|exact B]|].
  apply (above_root _ _ _ U). rewrite inject_Z_plus, inject_Z_mult. change (two_to (-47)) with (/ inject_Z (2 ^ 47))%Q. change (two_to (-48)) with (/ inject_Z (2 ^ 48))%Q.
  rewrite inject_Z_plus. change (inject_Z (2 ^ 95)) with (inject_Z ONE * inject_Z (2 ^ 47))%Q. change (inject_Z (2 ^ 48)) with (inject_Z ONE). field. split; intros E0; discriminate E0.
Qed.
Lemma start_near v H G : encodeRate v = Some H -> 0 <= G <= H -> (H - G) * 2 ^ 47 <= H -> root_near (inject_Z G / inject_Z ONE) v (two_to (-45)) (two_to (-47)).
Proof.
  intros E HG D. destruct (rate_upper v H E) as (N & B & U). split; [apply (below_root v G H); [lia|exact B]|].
  set (W := G * (2 ^ 47 + 4) + 2 ^ 48). apply (above_root v W).
  - eapply Qlt_le_trans; [exact U|]. apply inj_le. apply Z.mul_le_mono_nonneg; unfold W; lia.
  - unfold W. rewrite inject_Z_plus, inject_Z_mult, inject_Z_plus. assert (T45 : (two_to (-45) == inject_Z 4 / inject_Z (2 ^ 47))%Q) by reflexivity. rewrite T45. change (two_to (-47)) with (/ inject_Z (2 ^ 47))%Q.
    change (inject_Z (2 ^ 95)) with (inject_Z ONE * inject_Z (2 ^ 47))%Q. change (inject_Z (2 ^ 48)) with (inject_Z ONE). field. split; intros E0; discriminate E0.
Qed.

(** the order made by [encode] *)
Lemma encode_prices hi lo t y z h l o : encodeRate hi = Some h -> encodeRate lo = Some l -> l <= h -> o = mkEorder t y z (encodeFloat (h - l)) (encodeFloat l) ->
  exists a b, eo_A_ o = Ret a /\ eo_B_ o = Ret b /\ eo_p_end o = Ret (b * b)%Q /\ eo_p_start o = Ret ((b + a) * (b + a))%Q /\ (0 <= a)%Q /\ (0 <= b)%Q /\
   root_near b lo (two_to (-47)) (two_to (-48)) /\ root_near (b + a) hi (two_to (-45)) (two_to (-47)).
Proof.
  intros Eh El HL ->. destruct (rate_upper lo l El) as (Nl & _ & _). destruct (rate_upper hi h Eh) as (Nh & _ & _).
  destruct (float_round_down (h - l) ltac:(lia)) as ((A0 & A1) & A2 & _ & _).
  set (a := decodeFloat (encodeFloat (h - l))) in *. assert (RB : decodeFloat (encodeFloat l) = l) by (apply (encodeRate_representable lo); exact El).
  exists (inject_Z a / inject_Z ONE)%Q, (inject_Z l / inject_Z ONE)%Q.
  assert (EA : eo_A_ (mkEorder t y z (encodeFloat (h - l)) (encodeFloat l)) = Ret (inject_Z a / inject_Z ONE)%Q) by (unfold eo_A_; cbn [eo_A]; rewrite decode_nonneg by lia; reflexivity).
  assert (EB : eo_B_ (mkEorder t y z (encodeFloat (h - l)) (encodeFloat l)) = Ret (inject_Z l / inject_Z ONE)%Q) by (unfold eo_B_; cbn [eo_B]; rewrite decode_nonneg by lia; rewrite RB; reflexivity).
  unfold eo_p_end, eo_p_start. rewrite EA, EB. cbn [rbind]. repeat split.
  - apply Qle_shift_div_l; [reflexivity|]. rewrite Qmult_0_l. apply (inj_le 0). exact A0.
  - apply Qle_shift_div_l; [reflexivity|]. rewrite Qmult_0_l. apply (inj_le 0). exact Nl.
  - apply rate_near. exact El.
  - apply rate_near. exact El.
  - assert (X := start_near hi h (l + a) Eh ltac:(lia) ltac:(lia)). destruct X as [X _]. rewrite inject_Z_plus in X. setoid_replace (inject_Z l / inject_Z ONE + inject_Z a / inject_Z ONE)%Q with ((inject_Z l + inject_Z a) / inject_Z ONE)%Q by (field; intros E0; discriminate E0). exact X.
  - assert (X := start_near hi h (l + a) Eh ltac:(lia) ltac:(lia)). destruct X as [_ X]. rewrite inject_Z_plus in X. setoid_replace (inject_Z l / inject_Z ONE + inject_Z a / inject_Z ONE)%Q with ((inject_Z l + inject_Z a) / inject_Z ONE)%Q by (field; intros E0; discriminate E0). exact X.
Qed.

Definition given (y : Q) (z : option Q) : Q := match z with Some z => z | None => y end.
Lemma encode_plain y hi lo z t : (0 <= y)%Q -> (0 <= lo)%Q -> (lo <= hi)%Q -> (0 <= given y z)%Q ->
  exists o, eo_encode y hi lo None z t = Ret o /\ eo_token o = match t with Some t => t | None => "TKN"%string end /\ is_floor y (eo_y o) /\ is_floor (given y z) (eo_z o) /\
  exists a b, eo_A_ o = Ret a /\ eo_B_ o = Ret b /\ eo_p_end o = Ret (b * b)%Q /\ eo_p_start o = Ret ((b + a) * (b + a))%Q /\ (0 <= a)%Q /\ (0 <= b)%Q /\
   root_near b lo (two_to (-47)) (two_to (-48)) /\ root_near (b + a) hi (two_to (-45)) (two_to (-47)).
Proof.
  intros Hy Hlo Hle Hz. destruct (encodeRate_some lo Hlo) as (l & El & Nl). destruct (encodeRate_some hi ltac:(lra)) as (h & Eh & Nh).
  assert (M := encodeRate_mono lo hi l h El Eh Hle). unfold eo_encode. rewrite (eo_rate _ _ Eh), (eo_rate _ _ El). cbn [rbind].
  assert (F : forall q, (0 <= q)%Q -> is_floor q (qtrunc q)). { intros q Hq. rewrite (qtrunc_floor q Hq). split; [apply Qfloor_le|]. assert (X := Qlt_floor q). exact X. }
  exists (mkEorder match t with Some t => t | None => "TKN"%string end (qtrunc y) (qtrunc (given y z)) (encodeFloat (h - l)) (encodeFloat l)).
  split; [destruct z, t; reflexivity|]. split; [reflexivity|]. cbn [eo_y eo_z]. split; [apply F; exact Hy|]. split; [apply F; exact Hz|].
  eapply encode_prices; eauto.
Qed.
Lemma encode_both y hi lo pm z t : eo_encode y hi lo (Some pm) (Some z) t = Raise ValueError. Proof. reflexivity. Qed.
Lemma encode_full y hi lo pm t : (hi <= pm)%Q -> eo_encode y hi lo (Some pm) None t = eo_encode y hi lo None None t.
Proof. intros H. unfold eo_encode. apply Qle_bool_iff in H. rewrite H. reflexivity. Qed.
Lemma encode_negative y hi lo pm z t : (hi < 0)%Q \/ (lo < 0)%Q -> eo_encode y hi lo pm z t = Raise ValueError.
Proof.
  intros H. assert (X : (let* h := eo_encodeRate hi in let* l := eo_encodeRate lo in Ret (h, l)) = Raise ValueError).
  { unfold eo_encodeRate, encodeRate. destruct H as [H|H].
    - destruct (Qle_bool 0 hi) eqn:E; [apply Qle_bool_iff in E; lra|reflexivity].
    - destruct (Qle_bool 0 lo) eqn:E; [apply Qle_bool_iff in E; lra|]. destruct (Qle_bool 0 hi); reflexivity. }
  unfold eo_encode. destruct pm, z; try reflexivity; destruct (eo_encodeRate hi); cbn [rbind] in *; try congruence; destruct (eo_encodeRate lo); cbn [rbind] in *; congruence.
Qed.
Lemma encode_marg y hi lo pm t : (0 < y)%Q -> (0 <= lo)%Q -> (lo < hi)%Q -> (pm < hi)%Q ->
  exists o, eo_encode y hi lo (Some pm) None t = Ret o /\ is_floor y (eo_y o) /\ is_floor (- (y * (hi - lo) / (hi - pm))) (eo_z o) /\ eo_z o < 0 /\ ((1 <= y)%Q -> eo_p_marg o = Raise RuntimeError).
Proof.
  intros Hy Hlo Hlt Hpm. destruct (encodeRate_some lo Hlo) as (l & El & Nl). destruct (encodeRate_some hi ltac:(lra)) as (h & Eh & Nh).
  unfold eo_encode. assert (E : Qle_bool hi pm = false). { destruct (Qle_bool hi pm) eqn:E; [apply Qle_bool_iff in E; lra|reflexivity]. } rewrite E.
  rewrite (eo_rate _ _ Eh), (eo_rate _ _ El). cbn [rbind]. eexists. split; [reflexivity|]. cbn [eo_y eo_z]. rewrite qtrunc_Z, (qtrunc_floor y) by lra.
  set (q := (y * (hi - lo) / (pm - hi))%Q). assert (Q0 : (q == - (y * (hi - lo) / (hi - pm)))%Q) by (unfold q; field; split; lra).
  assert (P : (0 < y * (hi - lo) / (hi - pm))%Q). { apply Qlt_shift_div_l; [lra|]. rewrite Qmult_0_l. apply Qlt_le_trans with (y * (hi - lo))%Q; [|lra]. rewrite <- (Qmult_0_l (hi - lo)). apply Qmult_lt_compat_r; lra. }
  assert (F : (inject_Z (Qfloor q) <= - (y * (hi - lo) / (hi - pm)))%Q) by (rewrite <- Q0; apply Qfloor_le). assert (G : (- (y * (hi - lo) / (hi - pm)) < inject_Z (Qfloor q + 1))%Q) by (rewrite <- Q0; apply Qlt_floor). unfold is_floor.
  split; [split; [apply Qfloor_le|apply Qlt_floor]|]. split; [split; assumption|].
  assert (Z0 : Qfloor q < 0). { rewrite Zlt_Qlt. change (inject_Z 0) with 0%Q. lra. }
  split; [exact Z0|]. intros H1. unfold eo_p_marg. cbn [eo_y eo_z]. assert (1 <= Qfloor y) by (change 1 with (Qfloor 1); apply Qfloor_resp_le; exact H1).
  destruct (Z.eqb_spec (Qfloor y) (Qfloor q)); [lia|]. destruct (Z.eqb_spec (Qfloor y) 0); [lia|reflexivity].
Qed.
(** the benchmark's encoding of the same full order *)
Lemma encode_benchmark y hi lo t : (0 <= y)%Q -> (0 <= lo)%Q -> (lo <= hi)%Q -> exists o e, eo_encode y hi lo None None t = Ret o /\ encodeOrder y lo hi hi = Some e /\
  eo_y o = o_y e /\ eo_z o = o_z e /\ eo_A o = o_A e /\ eo_B o = o_B e.
Proof.
  intros Hy Hlo Hle. destruct (encodeRate_some lo Hlo) as (l & El & Nl). destruct (encodeRate_some hi ltac:(lra)) as (h & Eh & Nh).
  unfold eo_encode, encodeOrder. rewrite (eo_rate _ _ Eh), (eo_rate _ _ El), El, Eh. cbn [rbind TradeModel.bind]. rewrite Z.eqb_refl. cbn [TradeModel.bind].
  do 2 eexists. split; [reflexivity|]. split; [reflexivity|]. cbn [eo_y eo_z eo_A eo_B o_y o_z o_A o_B]. rewrite (qtrunc_floor y Hy). auto.
Qed.
Lemma p_marg_cases o : (eo_y o = eo_z o -> eo_p_marg o = eo_p_start o) /\ (eo_y o = 0 -> eo_z o <> 0 -> eo_p_marg o = eo_p_end o) /\ (eo_y o <> eo_z o -> eo_y o <> 0 -> eo_p_marg o = Raise RuntimeError).
Proof.
  unfold eo_p_marg. split; [|split].
  - intros ->. rewrite Z.eqb_refl. reflexivity.
  - intros -> H. destruct (Z.eqb_spec 0 (eo_z o)); [congruence|reflexivity].
  - intros H1 H2. destruct (Z.eqb_spec (eo_y o) (eo_z o)); [congruence|]. destruct (Z.eqb_spec (eo_y o) 0); [congruence|reflexivity].
Qed.
Lemma yzAB_float y z A B t : (exists q, A = FloatN q) \/ (exists q, B = FloatN q) -> eo_encode_yzAB y z A B t = Raise TypeError.
Proof. intros [[q ->]|[q ->]]; [reflexivity|]. unfold eo_encode_yzAB. destruct A; reflexivity. Qed.
Lemma yzAB_int y z A B t : 0 <= A -> 0 <= B -> exists o, eo_encode_yzAB (IntN y) (IntN z) (IntN A) (IntN B) (Some t) = Ret o /\ eo_token o = t /\ eo_y o = y /\ eo_z o = z /\
  exists a b, eo_A_ o = Ret a /\ eo_B_ o = Ret b /\ (a <= inject_Z A / inject_Z (2 ^ 48))%Q /\ (b <= inject_Z B / inject_Z (2 ^ 48))%Q /\
   (A < 2 ^ 48 -> (a == inject_Z A / inject_Z (2 ^ 48))%Q) /\ (B < 2 ^ 48 -> (b == inject_Z B / inject_Z (2 ^ 48))%Q).
Proof.
  intros HA HB. eexists. split; [reflexivity|]. cbn [eo_token eo_y eo_z]. split; [reflexivity|]. unfold num_Q. rewrite !qtrunc_Z. split; [reflexivity|]. split; [reflexivity|].
  destruct (float_round_down A HA) as ((A0 & A1) & _ & A2 & _). destruct (float_round_down B HB) as ((B0 & B1) & _ & B2 & _).
  unfold eo_A_, eo_B_. cbn [eo_A eo_B]. rewrite !decode_nonneg by assumption. do 2 eexists. split; [reflexivity|]. split; [reflexivity|].
  assert (M : forall u v, u <= v -> (inject_Z u / inject_Z ONE <= inject_Z v / inject_Z (2 ^ 48))%Q).
  { intros u v H. change (inject_Z (2 ^ 48)) with (inject_Z ONE). unfold Qdiv. apply Qmult_le_compat_r; [apply inj_le; exact H|discriminate]. }
  split; [apply M; exact A1|]. split; [apply M; exact B1|]. split; intros H; [rewrite (A2 H)|rewrite (B2 H)]; reflexivity.
Qed.
(** a range with its ends exchanged *)
Lemma encode_swapped y hi lo z t h l : encodeRate hi = Some h -> encodeRate lo = Some l -> h < l -> exists o, eo_encode y hi lo None z t = Ret o /\ eo_A_ o = Raise ValueError /\ eo_p_start o = Raise ValueError.
Proof.
  intros Eh El H. unfold eo_encode. rewrite (eo_rate _ _ Eh), (eo_rate _ _ El). cbn [rbind].
  assert (N : encodeFloat (h - l) = h - l).
  { unfold encodeFloat. assert (X : (h - l) / ONE < 0) by (apply Z.div_lt_upper_bound; [reflexivity|lia]). unfold bitLength. destruct (Z.ltb_spec 0 ((h - l) / ONE)); [lia|]. rewrite Z.shiftr_0_r, Z.mul_0_l. apply Z.lor_0_r. }
  assert (A : forall t y z b, eo_A_ (mkEorder t y z (encodeFloat (h - l)) b) = Raise ValueError).
  { intros. unfold eo_A_, eo_decode. cbn [eo_A]. rewrite N. assert (X : (h - l) / ONE < 0) by (apply Z.div_lt_upper_bound; [reflexivity|lia]). destruct (Z.ltb_spec ((h - l) / ONE) 0); [reflexivity|lia]. }
  destruct z; (eexists; split; [reflexivity|]; split; [apply A|]; unfold eo_p_start; rewrite A; unfold eo_B_; cbn [eo_B]; rewrite decode_nonneg by (destruct (encodeRate_nonneg _ _ El); assumption); reflexivity).
Qed.
Lemma descr_zero o : eo_p_end o = Ret 0%Q \/ (exists e, eo_p_end o = Ret e /\ (e == 0)%Q) -> forall r, eo_descr o <> Ret r.
Proof.
  intros H r. assert (exists e, eo_p_end o = Ret e /\ (e == 0)%Q) as (e & E & Z0) by (destruct H as [H|H]; [exists 0%Q; split; [exact H|reflexivity]|exact H]).
  unfold eo_descr. destruct (eo_p_start o) as [s|]; [|discriminate]. cbn [rbind]. destruct (sdiv 1 s) as [x|]; [|discriminate]. cbn [rbind]. rewrite E. cbn [rbind]. unfold sdiv. apply Qeq_bool_iff in Z0. rewrite Z0. discriminate.
Qed.
