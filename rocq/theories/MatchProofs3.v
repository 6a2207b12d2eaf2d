From Coq Require Import ZArith List Bool Lia.
From Verif Require Import TradeModel MatchModel.
Local Open Scope Z_scope.

Lemma limit_floor o : 0 < o_z o ->
  let A := decodeFloat (o_A o) in let B := decodeFloat (o_B o) in
  o_z o * getLimit o <= o_y o * A + o_z o * B < o_z o * getLimit o + o_z o.
Proof.
  intros Hz. cbv zeta. unfold getLimit. destruct (Z.ltb_spec 0 (o_z o)); [|lia].
  generalize (o_y o * decodeFloat (o_A o) + o_z o * decodeFloat (o_B o)). intros n.
  pose proof (Z.div_mod n (o_z o) ltac:(lia)). pose proof (Z.mod_pos_bound n (o_z o) Hz). lia.
Qed.
Lemma equalize_floor o L : 0 < decodeFloat (o_A o) ->
  let A := decodeFloat (o_A o) in let B := decodeFloat (o_B o) in
  let x := equalizeByTargetAmount o L in
  o_z o * L <= (o_y o - x) * A + o_z o * B < o_z o * L + A.
Proof.
  intros HA. cbv zeta. unfold equalizeByTargetAmount. destruct (Z.ltb_spec 0 (decodeFloat (o_A o))); [|lia].
  set (A := decodeFloat (o_A o)) in *. set (B := decodeFloat (o_B o)) in *. clearbody A B.
  set (n := o_y o * A + o_z o * (B - L)).
  pose proof (Z.div_mod n A ltac:(lia)). pose proof (Z.mod_pos_bound n A HA). set (x := n / A) in *. clearbody x.
  replace ((o_y o - x) * A + o_z o * B) with (n - A * x + o_z o * L) by (unfold n; ring). lia.
Qed.
Lemma equalize_flat o L : decodeFloat (o_A o) <= 0 -> equalizeByTargetAmount o L = o_y o.
Proof. intros H. unfold equalizeByTargetAmount. destruct (Z.ltb_spec 0 (decodeFloat (o_A o))); [lia|reflexivity]. Qed.
Lemma equalize_own o : 0 < o_z o -> 0 < decodeFloat (o_A o) ->
  let x := equalizeByTargetAmount o (getLimit o) in 0 <= x /\ x * decodeFloat (o_A o) < o_z o.
Proof.
  intros Hz HA. cbv zeta. pose proof (limit_floor o Hz) as L. pose proof (equalize_floor o (getLimit o) HA) as E. cbv zeta in L, E.
  set (A := decodeFloat (o_A o)) in *. set (B := decodeFloat (o_B o)) in *. set (x := equalizeByTargetAmount o (getLimit o)) in *. clearbody A B x.
  set (zL := o_z o * getLimit o) in *. set (zB := o_z o * B) in *. clearbody zL zB.
  replace ((o_y o - x) * A) with (o_y o * A - x * A) in E by ring. set (yA := o_y o * A) in *. clearbody yA.
  split; [|lia]. assert (- A < x * A) by lia. nia.
Qed.
(** a lower limit takes at least as much *)
Lemma equalize_mono o L L' : 0 <= o_z o -> L' <= L -> equalizeByTargetAmount o L <= equalizeByTargetAmount o L'.
Proof.
  intros Hz HL. unfold equalizeByTargetAmount. destruct (Z.ltb_spec 0 (decodeFloat (o_A o))); [|lia].
  apply Z.div_le_mono; [assumption|]. set (B := decodeFloat (o_B o)). clearbody B. nia.
Qed.
