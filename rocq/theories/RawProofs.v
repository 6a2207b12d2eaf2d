(** Lemmas for RawProps.v. *)
From Coq Require Import ZArith QArith List Bool Ascii String DecimalString DecimalZ Permutation ListDec Lia.
From Verif Require Import TradeModel CurveModel SdkModel ReqModel ReqProofs RawModel.
Import ListNotations.
Local Open Scope string_scope.

(** the text t is read as the number z *)
Definition reads (t : string) (z : Z) : Prop := option_map Z.of_int (NilEmpty.int_of_string t) = Some z.
Definition numbers (d : odict) : Prop := Forall (fun e => exists z, snd e = PInt z) d.
Definition all_numbers (d : raw) : Prop := (exists n, r_id d = PInt n) /\ numbers (r_order0 d) /\ numbers (r_order1 d).
Definition keys (d : odict) : list string := map fst d.

Lemma dec_nonempty z : dec z <> "".
Proof. intros E. pose proof (dec_read z) as R. rewrite E in R. cbn in R. injection R as <-. discriminate E. Qed.
Lemma dec_inj a b : dec a = dec b -> a = b.
Proof. intros E. pose proof (dec_read a) as A. rewrite E, (dec_read b) in A. congruence. Qed.
Lemma pint_dec z : pint (PStr (dec z)) = Ret z.
Proof.
  pose proof (dec_read z) as R. pose proof (dec_nonempty z) as N. unfold pint. destruct (dec z) eqn:E; [congruence|]. rewrite <- E in *.
  destruct (NilEmpty.int_of_string (dec z)); [|discriminate]. cbn in R. injection R as <-. reflexivity.
Qed.

Lemma texts_keys d : keys (texts d) = keys d.
Proof. unfold keys, texts. rewrite map_map. reflexivity. Qed.
Lemma texts_twice d : texts (texts d) = texts d.
Proof. unfold texts. rewrite map_map. reflexivity. Qed.
Lemma texts_get k d : get k (texts d) = option_map (fun v => PStr (pstr v)) (get k d).
Proof. induction d as [|[a v] d IH]; [reflexivity|]. cbn. destruct (String.eqb a k); [reflexivity|exact IH]. Qed.
Lemma texts_read d : numbers d -> Forall2 (fun e f => fst f = fst e /\ exists z t, snd e = PInt z /\ snd f = PStr t /\ reads t z) d (texts d).
Proof.
  induction 1 as [|[k v] d (z & E) F IH]; [constructor|]. cbn in E. subst v. constructor; [|exact IH]. split; [reflexivity|]. exists z, (dec z). split; [reflexivity|]. split; [reflexivity|]. apply dec_read.
Qed.
Lemma get_number k d v : numbers d -> get k d = Some v -> exists z, v = PInt z.
Proof. induction 1 as [|[a w] d (z & E) F IH]; [discriminate|]. cbn. destruct (String.eqb a k); [|exact IH]. intros G. injection G as <-. exists z. exact E. Qed.
Lemma get_in k d : In k (keys d) <-> exists v, get k d = Some v.
Proof.
  induction d as [|[a w] d IH]; cbn; [split; [tauto|intros (v & E); discriminate]|]. destruct (String.eqb_spec a k) as [->|N]; [split; [eauto|tauto]|]. rewrite <- IH. split; [intros [?|?]; [congruence|assumption]|tauto].
Qed.
Definition four : list string := ["y"; "z"; "A"; "B"].
Lemma four_nodup : NoDup four.
Proof. repeat constructor; cbn; intuition discriminate. Qed.
Lemma from_sdk_ok t d : NoDup (keys d) ->
  (Permutation (keys d) four -> exists o, ro_from_sdk t d = Ret o /\ ro_token o = t /\ get "y" d = Some (ro_y o) /\ get "z" d = Some (ro_z o) /\ get "A" d = Some (ro_A o) /\ get "B" d = Some (ro_B o)) /\
  (~ Permutation (keys d) four -> ro_from_sdk t d = Raise TypeError).
Proof.
  intros N. unfold ro_from_sdk. destruct (forallb _ d) eqn:F.
  - assert (SUB : forall k, In k (keys d) -> In k four).
    { intros k I. apply in_map_iff in I. destruct I as ([a v] & <- & I). rewrite forallb_forall in F. specialize (F _ I). apply existsb_exists in F. destruct F as (x & J & E). apply String.eqb_eq in E. cbn in E. subst. exact J. }
    split.
    + intros P. assert (G : forall k, In k four -> exists v, get k d = Some v) by (intros k I; apply get_in; eapply Permutation_in; [apply Permutation_sym; exact P|exact I]).
      destruct (G "y") as (y & Ey); [cbn; tauto|]. destruct (G "z") as (z & Ez); [cbn; tauto|]. destruct (G "A") as (A & EA); [cbn; tauto|]. destruct (G "B") as (B & EB); [cbn; tauto|].
      rewrite Ey, Ez, EA, EB. eexists. split; [reflexivity|]. cbn. auto 6.
    + intros P. destruct (get "y" d) eqn:Ey; [|reflexivity]. destruct (get "z" d) eqn:Ez; [|reflexivity]. destruct (get "A" d) eqn:EA; [|reflexivity]. destruct (get "B" d) eqn:EB; [|reflexivity].
      exfalso. apply P. apply NoDup_Permutation; [exact N|apply four_nodup|]. intros k. split; [apply SUB|]. intros I. apply get_in. cbn in I. destruct I as [<-|[<-|[<-|[<-|[]]]]]; eauto.
  - split; [|reflexivity]. intros P. exfalso. assert (X : forallb (fun e => existsb (String.eqb (fst e)) four) d = true).
    { apply forallb_forall. intros [a v] I. apply existsb_exists. exists a. split; [|cbn; apply String.eqb_refl]. eapply Permutation_in; [exact P|]. apply in_map_iff. exists (a, v). auto. }
    unfold four in X. congruence.
Qed.
(** an order made after the dict has been changed *)
Lemma order_after t d o : numbers d -> ro_from_sdk t d = Ret o ->
  exists y z A B, o = mkRorder t (PInt y) (PInt z) (PInt A) (PInt B) /\ ro_from_sdk t (texts d) = Ret (mkRorder t (PStr (dec y)) (PStr (dec z)) (PStr (dec A)) (PStr (dec B))).
Proof.
  intros N H. unfold ro_from_sdk in *. destruct (forallb _ d) eqn:F; [|discriminate].
  assert (F' : forallb (fun e => existsb (String.eqb (fst e)) ["y"; "z"; "A"; "B"]) (texts d) = true).
  { rewrite forallb_forall in *. intros e I. apply in_map_iff in I. destruct I as (e0 & <- & I). cbn [fst]. apply F. exact I. }
  rewrite F'. rewrite !texts_get. destruct (get "y" d) eqn:Ey; [|discriminate]. destruct (get "z" d) eqn:Ez; [|discriminate]. destruct (get "A" d) eqn:EA; [|discriminate]. destruct (get "B" d) eqn:EB; [|discriminate]. injection H as <-.
  apply (get_number _ _ _ N) in Ey, Ez, EA, EB. destruct Ey as (y & ->), Ez as (z & ->), EA as (A & ->), EB as (B & ->). exists y, z, A, B. split; reflexivity.
Qed.
Lemma prices_after t y z A B : let o := mkRorder t (PInt y) (PInt z) (PInt A) (PInt B) in let o' := mkRorder t (PStr (dec y)) (PStr (dec z)) (PStr (dec A)) (PStr (dec B)) in
  ro_p_start o' = ro_p_start o /\ ro_p_end o' = ro_p_end o /\ ro_p_marg o' = (if (y =? z)%Z then ro_p_marg o else Raise RuntimeError).
Proof.
  intros o o'. assert (D : forall v, ro_decode (PStr (dec v)) = ro_decode (PInt v)) by (intros v; unfold ro_decode; rewrite pint_dec; reflexivity).
  assert (S : ro_p_start o' = ro_p_start o) by (unfold ro_p_start; cbn [o o' ro_A ro_B]; rewrite !D; reflexivity).
  assert (E : ro_p_end o' = ro_p_end o) by (unfold ro_p_end; cbn [o o' ro_A ro_B]; rewrite !D; reflexivity).
  split; [exact S|]. split; [exact E|]. unfold ro_p_marg. rewrite S. cbn [o o' ro_y ro_z peq]. destruct (Z.eqb_spec y z) as [->|N]; [rewrite String.eqb_refl; reflexivity|].
  destruct (String.eqb_spec (dec y) (dec z)) as [X|_]; [apply dec_inj in X; congruence|reflexivity].
Qed.
Lemma agrees t y z A B : let o := mkRorder t (PInt y) (PInt z) (PInt A) (PInt B) in let e := mkEorder t y z A B in
  ro_p_start o = eo_p_start e /\ ro_p_end o = eo_p_end e /\ ro_p_marg o = eo_p_marg e.
Proof. repeat split. Qed.
Lemma get_In k d v : get k d = Some v -> In (k, v) d.
Proof. induction d as [|[a w] d IH]; [discriminate|]. cbn. destruct (String.eqb_spec a k) as [->|N]; [intros E; injection E as ->; left; reflexivity|intros E; right; exact (IH E)]. Qed.
Lemma perm_dec (l : list string) : NoDup l -> Permutation l four \/ ~ Permutation l four.
Proof.
  intros N. destruct (incl_dec string_dec l four) as [I|I]; [destruct (incl_dec string_dec four l) as [J|J]|].
  - left. apply NoDup_Permutation; [exact N|apply four_nodup|]. intros x. split; [apply I|apply J].
  - right. intros P. apply J. intros x H. eapply Permutation_in; [apply Permutation_sym; exact P|exact H].
  - right. intros P. apply I. intros x H. eapply Permutation_in; [exact P|exact H].
Qed.
Lemma from_sdk_spec : forall d, NoDup (map fst (r_order0 d)) -> NoDup (map fst (r_order1 d)) ->
  let good o := Permutation (map fst o) four in
  (good (r_order0 d) /\ good (r_order1 d) -> exists s, es_from_sdk d = Ret s /\ es_sid s = r_id d /\ ro_token (es_order0 s) = r_token0 d /\ ro_token (es_order1 s) = r_token1 d /\
     (forall o e, (o = es_order0 s /\ e = r_order0 d) \/ (o = es_order1 s /\ e = r_order1 d) ->
        In ("y", ro_y o) e /\ In ("z", ro_z o) e /\ In ("A", ro_A o) e /\ In ("B", ro_B o) e)) /\
  (~ (good (r_order0 d) /\ good (r_order1 d)) -> es_from_sdk d = Raise TypeError).
Proof.
  intros d N0 N1 good. destruct (from_sdk_ok (r_token0 d) _ N0) as [Y0 F0]. destruct (from_sdk_ok (r_token1 d) _ N1) as [Y1 F1]. unfold es_from_sdk. split.
  - intros [P0 P1]. destruct (Y0 P0) as (o0 & -> & T0 & G0). destruct (Y1 P1) as (o1 & -> & T1 & G1). cbn [rbind]. eexists. split; [reflexivity|]. cbn [es_sid es_order0 es_order1]. split; [reflexivity|]. split; [exact T0|]. split; [exact T1|].
    intros o e [[-> ->]|[-> ->]]; [destruct G0 as (A & B & C & D)|destruct G1 as (A & B & C & D)]; repeat split; apply get_In; assumption.
  - intros NP. destruct (perm_dec _ N0) as [P0|P0]; [|rewrite (F0 P0); reflexivity]. destruct (Y0 P0) as (o0 & -> & _). cbn [rbind].
    destruct (perm_dec _ N1) as [P1|P1]; [exfalso; apply NP; split; assumption|]. rewrite (F1 P1). reflexivity.
Qed.
Lemma shared_spec : forall d s, all_numbers d -> es_from_sdk d = Ret s ->
  exists s', es_from_sdk (snd (raw_json d)) = Ret s' /\ peq (es_sid s') (es_sid s) = false /\
  forall pick, pick = es_order0 \/ pick = es_order1 -> exists y z A B t, pick s = mkRorder t (PInt y) (PInt z) (PInt A) (PInt B) /\
    ro_token (pick s') = t /\ ro_p_start (pick s') = ro_p_start (pick s) /\ ro_p_end (pick s') = ro_p_end (pick s) /\
    (y = z -> ro_p_marg (pick s') = ro_p_start (pick s)) /\ (y <> z -> ro_p_marg (pick s') = Raise RuntimeError) /\
    (y = 0%Z -> y <> z -> ro_p_marg (pick s) = ro_p_end (pick s)).
Proof.
  intros d s ((n & E) & N0 & N1) H. unfold es_from_sdk in *. destruct (ro_from_sdk (r_token0 d) (r_order0 d)) as [o0|] eqn:E0; [|discriminate]. cbn [rbind] in H. destruct (ro_from_sdk (r_token1 d) (r_order1 d)) as [o1|] eqn:E1; [|discriminate]. injection H as <-.
  destruct (order_after _ _ _ N0 E0) as (y0 & z0 & A0 & B0 & -> & X0). destruct (order_after _ _ _ N1 E1) as (y1 & z1 & A1 & B1 & -> & X1).
  cbn [raw_json snd r_token0 r_token1 r_order0 r_order1 r_id]. rewrite X0, X1. cbn [rbind]. eexists. split; [reflexivity|]. split; [cbn; rewrite E; reflexivity|].
  assert (K : forall t y z A B, let o := mkRorder t (PInt y) (PInt z) (PInt A) (PInt B) in let o' := mkRorder t (PStr (dec y)) (PStr (dec z)) (PStr (dec A)) (PStr (dec B)) in
    ro_token o' = t /\ ro_p_start o' = ro_p_start o /\ ro_p_end o' = ro_p_end o /\ (y = z -> ro_p_marg o' = ro_p_start o) /\ (y <> z -> ro_p_marg o' = Raise RuntimeError) /\ (y = 0%Z -> y <> z -> ro_p_marg o = ro_p_end o)).
  { intros t y z A B o o'. destruct (prices_after t y z A B) as (S & P & M). fold o o' in S, P, M. split; [reflexivity|]. split; [exact S|]. split; [exact P|]. split; [|split].
    - intros ->. rewrite M, Z.eqb_refl. unfold ro_p_marg. cbn [o ro_y ro_z peq]. rewrite Z.eqb_refl. reflexivity.
    - intros N. rewrite M. destruct (Z.eqb_spec y z); [contradiction|reflexivity].
    - intros -> N. unfold ro_p_marg. cbn [o ro_y ro_z peq]. destruct (Z.eqb_spec 0 z); [contradiction|]. reflexivity. }
  intros pick [->| ->]; cbn [es_order0 es_order1].
  - exists y0, z0, A0, B0, (r_token0 d). split; [reflexivity|]. apply K.
  - exists y1, z1, A1, B1, (r_token1 d). split; [reflexivity|]. apply K.
Qed.
Lemma descr_spec : forall s a b c d, ro_p_start (es_order0 s) = Ret a -> ro_p_end (es_order0 s) = Ret b -> ro_p_start (es_order1 s) = Ret c -> ro_p_end (es_order1 s) = Ret d ->
  (~ (a == 0)%Q -> ~ (b == 0)%Q -> exists p q, es_descr s = Ret ((p, q), (c, d)) /\ (p * a == 1)%Q /\ (q * b == 1)%Q) /\
  ((a == 0)%Q \/ (b == 0)%Q -> es_descr s = Raise ZeroDivision).
Proof.
  intros s a b c d Ea Eb Ec Ed. unfold es_descr. rewrite Ea, Eb, Ec, Ed. cbn [rbind]. unfold sdiv. split.
  - intros A B. destruct (Qeq_bool a 0) eqn:X; [apply Qeq_bool_iff in X; contradiction|]. cbn [rbind]. destruct (Qeq_bool b 0) eqn:Y; [apply Qeq_bool_iff in Y; contradiction|]. cbn [rbind].
    eexists. eexists. split; [reflexivity|]. split; field; assumption.
  - destruct (Qeq_bool a 0) eqn:X; cbn [rbind]; [reflexivity|]. intros [H|H]; [apply Qeq_bool_iff in H; congruence|]. apply Qeq_bool_iff in H. rewrite H. reflexivity.
Qed.
