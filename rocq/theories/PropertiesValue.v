(** C81: values decide. *)
From Coq Require Import String List NArith ZArith Bool Lia.
From Verif Require Import Base Decimal Dates Amount Balance Compare.
From Verif Require Import SpecDecimal SpecAmount SpecDates SpecValue.
From Verif Require Import BaseFacts DecimalFacts RoundFacts ArithProofs ValueProofs.
Import ListNotations.
Open Scope list_scope.
Open Scope Z_scope.

(** ** C81: comparisons and arithmetic depend on the values of quantities only *)
Theorem C81_compare :
  forall a b, wf_dec a -> wf_dec b ->
  d_cmp a b = (units a ?= units b) /\ (d_eqb a b = true <-> units a = units b) /\ (d_leb a b = true <-> units a <= units b) /\ (d_ltb a b = true <-> units a < units b).
Proof. exact comparisons. Qed.
Print Assumptions C81_compare.
Theorem C81_max_min :
  forall a b, wf_dec a -> wf_dec b -> units (d_max a b) = Z.max (units a) (units b) /\ units (d_min a b) = Z.min (units a) (units b).
Proof. exact max_min_units. Qed.
Print Assumptions C81_max_min.
Theorem C81_equal_amounts :
  forall a b, wf_amt a -> wf_amt b -> amt_eqb a b = true <-> same_amount a b.
Proof. exact amount_eqb. Qed.
Print Assumptions C81_equal_amounts.
Theorem C81_equal_prices :
  forall a b, valid_dt (pp_when a) -> valid_dt (pp_when b) -> wf_amt (pp_price a) -> wf_amt (pp_price b) ->
  pp_eqb a b = true <-> pp_when a = pp_when b /\ same_amount (pp_price a) (pp_price b).
Proof. exact price_point_eqb. Qed.
Print Assumptions C81_equal_prices.

(** Every result is the exact one rounded half to even once, to as many decimals as fit. *)
Theorem C81_sum : forall a b r, wf_dec a -> wf_dec b -> d_add a b = Ok r -> nearest (units a + units b) 1 r.
Proof. exact d_add_nearest. Qed.
Print Assumptions C81_sum.
Theorem C81_difference : forall a b r, wf_dec a -> wf_dec b -> d_sub a b = Ok r -> nearest (units a - units b) 1 r.
Proof. exact d_sub_nearest. Qed.
Print Assumptions C81_difference.
Theorem C81_product : forall a b r, wf_dec a -> wf_dec b -> d_mul a b = Ok r -> nearest (units a * units b) unit1 r.
Proof. exact d_mul_nearest. Qed.
Print Assumptions C81_product.
Theorem C81_quotient :
  forall a b r, wf_dec a -> wf_dec b -> d_div a b = Ok r -> units b <> 0 /\ nearest (units a * unit1) (units b) r.
Proof. exact d_div_nearest. Qed.
Print Assumptions C81_quotient.
(** That determines the value of the result. *)
Theorem C81_determined :
  forall num den q q', den <> 0 -> nearest num den q -> nearest num den q' -> units q = units q'.
Proof. exact nearest_unique. Qed.
Print Assumptions C81_determined.

(** Amounts of the same value have sums, differences, products and quotients of the same value, or the same panic. *)
Theorem C81_same_arithmetic :
  forall a a' b b', same_amount a a' -> same_amount b b' ->
  same_outcome same_amount (amt_add a b) (amt_add a' b') /\ same_outcome same_amount (amt_plus a b) (amt_plus a' b')
  /\ same_outcome same_amount (amt_minus a b) (amt_minus a' b') /\ same_outcome same_amount (amt_mul a b) (amt_mul a' b')
  /\ same_outcome same_amount (amt_div a b) (amt_div a' b').
Proof.
  intros a a' b b' A B. split; [apply amt_add_congr; assumption|]. split; [apply amt_plus_congr; assumption|].
  split; [apply amt_minus_congr; assumption|]. split; [apply amt_mul_congr; assumption|apply amt_div_congr; assumption].
Qed.
Print Assumptions C81_same_arithmetic.
Theorem C81_same_signs :
  forall a a', same_amount a a' ->
  same_amount (amt_inverse a) (amt_inverse a') /\ same_amount (amt_invert a) (amt_invert a') /\ same_amount (amt_abs a) (amt_abs a')
  /\ amt_is_zero a = amt_is_zero a' /\ amt_is_null a = amt_is_null a'.
Proof.
  intros a a' A. split; [apply amt_inverse_congr, A|]. split; [apply amt_invert_congr, A|]. split; [apply amt_abs_congr, A|apply amt_zero_congr, A].
Qed.
Print Assumptions C81_same_signs.
(** Zero and null are what their names say; removing the commodity keeps the value. *)
Theorem C81_zero :
  forall a, wf_amt a -> (amt_is_zero a = true <-> aunits a = 0%Z) /\ (amt_is_null a = true <-> aunits a = 0%Z /\ a_c a = None)
  /\ aunits (amt_remove_commodity a) = aunits a /\ a_c (amt_remove_commodity a) = None.
Proof.
  intros a W. unfold amt_is_zero, amt_is_null, aunits. rewrite andb_true_iff, (d_is_zero_units _ W). split; [reflexivity|]. split; [|split; reflexivity].
  split; intros [A B]; (split; [exact A|]); destruct (a_c a); congruence.
Qed.
Print Assumptions C81_zero.
(** A product or quotient is in the commodity of the left operand, or of the right one if the left has none. *)
Theorem C03_product_commodity :
  forall a b r, amt_mul a b = Ok r \/ amt_div a b = Ok r ->
  (a_c a <> None -> a_c r = a_c a) /\ (a_c a = None -> a_c r = a_c b).
Proof.
  intros a b r [H|H]; unfold amt_mul, amt_div in H; inv_bind H; injection H as <-; cbn [a_c]; split; intros E; destruct (a_c a); cbn; congruence.
Qed.
Print Assumptions C03_product_commodity.
Example C03_product_case :
  amt_mul (mkAmt (mkDec false 3 0) (Some (lit "EUR"))) (mkAmt (mkDec false 2 0) (Some (lit "USD"))) = Ok (mkAmt (mkDec false 6 0) (Some (lit "EUR")))
  /\ amt_div (mkAmt (mkDec false 6 0) None) (mkAmt (mkDec false 2 0) (Some (lit "USD"))) = Ok (mkAmt (mkDec false 3 0) (Some (lit "USD")))
  /\ amt_is_null (mkAmt (mkDec false 0 2) (Some (lit "USD"))) = false /\ amt_is_null (mkAmt (mkDec true 0 2) None) = true.
Proof. repeat split; vm_compute; reflexivity. Qed.
Theorem C81_same_balances :
  forall b b' o o' a a', same_balance b b' -> same_balance o o' -> same_amount a a' ->
  same_outcome same_balance (bal_add b a) (bal_add b' a') /\ same_outcome same_balance (bal_sub b a) (bal_sub b' a')
  /\ same_outcome same_balance (bal_add_bal b o) (bal_add_bal b' o').
Proof.
  intros b b' o o' a a' B O A. split; [apply bal_add_congr; assumption|]. split; [apply bal_sub_congr; assumption|apply bal_add_bal_congr; assumption].
Qed.
Print Assumptions C81_same_balances.

(** 1.50 and 1.5 are the same amount though they are shown differently; 2.5 units of the last of 28 decimals are
    rounded to 2, and 3.5 to 4; of 2/3 there are 28 decimals. *)
Example C81_case :
  let a := mkAmt (mkDec false 150 2) (Some (lit "EUR")) in
  let b := mkAmt (mkDec false 15 1) (Some (lit "EUR")) in
  same_amount a b /\ amt_eqb a b = true /\ d_to_string (a_q a) <> d_to_string (a_q b)
  /\ amt_add a a = Ok (mkAmt (mkDec false 300 2) (Some (lit "EUR"))) /\ amt_add a b = Ok (mkAmt (mkDec false 300 2) (Some (lit "EUR")))
  /\ d_mul (mkDec false 25 1) (mkDec false 1 28) = Ok (mkDec false 2 28) /\ d_mul (mkDec false 35 1) (mkDec true 1 28) = Ok (mkDec true 4 28)
  /\ nearest (2 * unit1) 3 (mkDec false 6666666666666666666666666667 28)
  /\ d_cmp (mkDec true 150 2) (mkDec true 1 0) = Lt.
Proof.
  cbv zeta. split; [|split; [|split; [|split; [|split; [|split; [|split; [|split]]]]]]].
  - split; [reflexivity|]. split; [wf_lit|]. split; [wf_lit|vm_compute; reflexivity].
  - vm_compute; reflexivity.
  - vm_compute. discriminate.
  - vm_compute; reflexivity.
  - vm_compute; reflexivity.
  - vm_compute; reflexivity.
  - vm_compute; reflexivity.
  - split; [wf_lit|]. right. exists 28%nat, 6666666666666666666666666667. split; [apply Nat.le_refl|]. split; [apply Nat.le_refl|].
    split; [left; vm_compute; reflexivity|]. split; [vm_compute; reflexivity|]. split; [left; reflexivity|vm_compute; reflexivity].
  - vm_compute; reflexivity.
Qed.
