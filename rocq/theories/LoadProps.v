(** Property C137: orders read from files (carbon/routers/base_router.py). *)
From Coq Require Import Reals ZArith List Bool String Lra Lia.
From Verif Require Import CurveModel CurveProofs OrderModel LoadModel LoadSpec LoadProofs.
Import ListNotations.
Local Open Scope R_scope.

(** ** C137: orders from files *)
Theorem C137_json floor l nixq num : let m := firstn (to_read num (List.length l)) l in Forall (fun r => exists b s y z, complete r b s y z) m ->
  exists cs x, make_orders_from_file floor (Json l) nixq num = Ret (cs, x) /\ Forall2 (if floor then describes_floor else describes) m cs /\ (nixq = false -> x = None) /\
  (nixq = true -> exists ns, x = Some ns /\ Forall2 (fun c n => x_token1 n = "usdc"%string /\ x_token2 n = "eth"%string /\ x_1 n = (o_phigh c, o_plow c, o_yint c) /\ x_2 n = (o_phigh c, o_plow c, o_yint c)) cs ns).
Proof. exact (load_ok floor l nixq num). Qed.
Print Assumptions C137_json.
(** the first faulty record among those read decides *)
Theorem C137_faults floor l nixq num good r rest : firstn (to_read num (List.length l)) l = (good ++ r :: rest)%list -> Forall (fun r => exists b s y z, complete r b s y z) good ->
  (has_null r -> make_orders_from_file floor (Json l) nixq num = Raise TypeError) /\ (lacks r -> make_orders_from_file floor (Json l) nixq num = Raise AssertionError).
Proof. exact (load_fail floor l nixq num good r rest). Qed.
Print Assumptions C137_faults.
(** every record is complete or faulty *)
Theorem C137_cases r : has_null r \/ lacks r \/ exists b s y z, complete r b s y z.
Proof. exact (record_cases r). Qed.
Print Assumptions C137_cases.
(** records beyond those read do not matter *)
Theorem C137_prefix floor l l' nixq num : firstn (to_read num (List.length l)) l = firstn (to_read num (List.length l')) l' -> make_orders_from_file floor (Json l) nixq num = make_orders_from_file floor (Json l') nixq num.
Proof. exact (load_prefix floor l l' nixq num). Qed.
Print Assumptions C137_prefix.
(** csv files cannot be read unless empty: the balance of the order is never set *)
Theorem C137_csv floor l nixq num : (l = [] -> make_orders_from_file floor (Csv l) nixq num = Ret ([], if nixq then Some [] else None)) /\
  (forall a b z rest, l = (a, b, z) :: rest -> make_orders_from_file floor (Csv l) nixq num = Raise (if rlt (Rmin a b) 0 then ValueError else AssertionError)).
Proof. exact (load_csv floor l nixq num). Qed.
Print Assumptions C137_csv.
Theorem C137_unknown floor nixq num : make_orders_from_file floor Unknown nixq num = Ret ([], if nixq then Some [] else None).
Proof. exact (load_unknown floor nixq num). Qed.
Print Assumptions C137_unknown.
Definition good_rec := mkRec (JNum 1) (JNum 2) (JNum 10) JAbsent.
Definition bad_rec := mkRec JNull (JNum 2) (JNum 10) JAbsent.
Example C137_ex : (exists c, make_orders_from_file false (Json [good_rec; bad_rec]) false (Some 1%Z) = Ret ([c], None) /\ describes good_rec c) /\ make_orders_from_file false (Json [good_rec; bad_rec]) false None = Raise TypeError.
Proof.
  assert (C : complete good_rec 2 1 10 10) by (repeat split; left; split; reflexivity). split.
  - destruct (load_ok false [good_rec; bad_rec] false (Some 1%Z)) as (cs & x & E & F & X & _); [repeat constructor; exists 2, 1, 10, 10; exact C|]. rewrite (X eq_refl) in E. cbn in F. inversion F as [|? c ? t D F']; subst. inversion F'; subst. exists c. auto.
  - apply (load_fail false [good_rec; bad_rec] false None [good_rec] bad_rec []); [reflexivity|repeat constructor; exists 2, 1, 10, 10; exact C|left; reflexivity].
Qed.
(** "a csv file of valid prices can be read" is false *)
Theorem C137_csv_refuted : exists l h z, 0 < l < h /\ 0 < z /\ forall floor nixq num, make_orders_from_file floor (Csv [(l, h, z)]) nixq num = Raise AssertionError.
Proof. exists 1, 2, 3. split; [lra|]. split; [lra|]. intros floor nixq num. rewrite (proj2 (load_csv floor [(1, 2, 3)] nixq num) 1 2 3 [] eq_refl). rewrite rlt_false; [reflexivity|]. rewrite Rmin_left; lra. Qed.
Print Assumptions C137_csv_refuted.
(** "with floor division B is the stored B scaled by 2^32" is false *)
Theorem C137_floor_refuted : exists r b s y z c, complete r b s y z /\ make_orders_from_file true (Json [r]) false None = Ret ([c], None) /\ 0 < b /\ o_B c = Some 0.
Proof. exact load_floor_zero. Qed.
Print Assumptions C137_floor_refuted.
