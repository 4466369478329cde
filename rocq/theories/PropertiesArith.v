(** C01-C05: quantities, amounts and balances. *)
From Coq Require Import String List NArith ZArith Bool Lia Permutation.
From Verif Require Import Base BaseFacts Decimal Amount Balance SpecDecimal SpecAmount
  DecimalFacts RoundFacts BalanceFacts ArithProofs.
Import ListNotations.
Open Scope Z_scope.

(** ** C01: quantity text round trip *)

(** Printing and parsing a representable quantity gives back its value and number of decimals, and
    the very same quantity unless it is a negative zero (which comes back as zero). *)
Theorem C01_quantity_round_trip :
  forall d, wf_dec d ->
    exists r, d_from_str (d_to_string d) = Some r
              /\ units r = units d /\ d_s r = d_s d
              /\ (units d <> 0 -> r = d).
Proof. exact quantity_round_trip. Qed.
Print Assumptions C01_quantity_round_trip.

Example C01_case : wf_dec (mkDec true 79228162514264337593543950335 28)
                   /\ d_to_string (mkDec true 79228162514264337593543950335 28)
                      = lit "-7.9228162514264337593543950335".
Proof. split; [wf_lit|vm_compute; reflexivity]. Qed.

(** Different quantities have different texts. *)
Theorem C01_quantity_text_injective :
  forall a b, wf_dec a -> wf_dec b -> d_to_string a = d_to_string b ->
              units a = units b /\ d_s a = d_s b.
Proof. exact quantity_text_injective. Qed.
Print Assumptions C01_quantity_text_injective.

(** ** C02: quantity literals are read exactly or rejected *)

Theorem C02_read_exactly :
  forall s d, d_from_str s = Some d ->
    wf_dec d /\
    exists neg whole frac,
      literal_of s neg whole frac /\ d_s d = length frac
      /\ units d = (if neg then - number (whole ++ frac) else number (whole ++ frac))
                   * 10 ^ Z.of_nat (28 - length frac).
Proof. exact read_exactly. Qed.
Print Assumptions C02_read_exactly.

(** Any character other than digits, point, underscore and a leading sign makes it unreadable. *)
Theorem C02_foreign_character :
  forall s1 c s2,
    is_digit c = false -> c <> point_c -> c <> underscore_c ->
    (s1 <> [] \/ (c <> plus_c /\ c <> minus_c)) ->
    d_from_str (s1 ++ c :: s2) = None.
Proof. exact foreign_character. Qed.
Print Assumptions C02_foreign_character.

Example C02_foreign_case : d_from_str (lit "1,000.00") = None.
Proof. reflexivity. Qed.

(** Every plain literal within range is read. *)
Theorem C02_complete :
  forall sign neg whole pt frac,
    (sign = [] /\ neg = false \/ sign = [plus_c] /\ neg = false
     \/ sign = [minus_c] /\ neg = true) ->
    forallb is_digit whole = true -> forallb is_digit frac = true ->
    (pt = [] /\ frac = [] \/ pt = [point_c]) -> whole ++ frac <> [] ->
    number (whole ++ frac) < 2 ^ 96 -> (length frac <= 28)%nat ->
    exists d, d_from_str (sign ++ whole ++ pt ++ frac) = Some d
              /\ d_s d = length frac
              /\ units d = (if neg then - number (whole ++ frac) else number (whole ++ frac))
                           * 10 ^ Z.of_nat (28 - length frac).
Proof. exact read_complete. Qed.
Print Assumptions C02_complete.

Example C02_case : exists d, d_from_str (lit "-1234.50") = Some d /\ units d = -1234 * unit1 - unit1 / 2.
Proof. eexists. split; [reflexivity|]. vm_compute. reflexivity. Qed.

(** ** C03: amount arithmetic is exact and never mixes commodities *)

Theorem C03_exact :
  forall a b, wf_amt a -> wf_amt b -> a_c a = a_c b ->
    (representable (aunits a + aunits b) ->
     (exists r, amt_add a b = Ok r /\ a_c r = a_c a /\ aunits r = aunits a + aunits b)
     /\ exists r, amt_plus a b = Ok r /\ a_c r = a_c a /\ aunits r = aunits a + aunits b)
    /\ (representable (aunits a - aunits b) ->
        exists r, amt_minus a b = Ok r /\ a_c r = a_c a /\ aunits r = aunits a - aunits b).
Proof. exact amounts_exact. Qed.
Print Assumptions C03_exact.

Theorem C03_no_mixing :
  forall a b, a_c a <> a_c b ->
    (exists p, amt_add a b = Panic p) /\ (exists p, amt_plus a b = Panic p)
    /\ exists p, amt_minus a b = Panic p.
Proof. exact amt_mixed. Qed.
Print Assumptions C03_no_mixing.

Example C03_case :
  let a := mkAmt (mkDec false 1005 2) (Some (lit "EUR")) in
  let b := mkAmt (mkDec true 3 0) (Some (lit "EUR")) in
  wf_amt a /\ wf_amt b /\ a_c a = a_c b /\ representable (aunits a + aunits b)
  /\ amt_add a b = Ok (mkAmt (mkDec false 705 2) (Some (lit "EUR"))).
Proof.
  cbv zeta. split; [wf_lit|]. split; [wf_lit|]. split; [reflexivity|].
  split; [exists (mkDec false 705 2); split; [wf_lit|reflexivity]|vm_compute; reflexivity].
Qed.

(** Products and quotients are exact whenever the exact result is representable. *)
Theorem C03_product_exact :
  forall a b d, wf_dec a -> wf_dec b -> wf_dec d -> units d * unit1 = units a * units b ->
    exists r, d_mul a b = Ok r /\ units r = units d.
Proof. exact product_exact. Qed.
Print Assumptions C03_product_exact.

Theorem C03_quotient_exact :
  forall a b d, wf_dec a -> wf_dec b -> wf_dec d -> units b <> 0 ->
    units d * units b = units a * unit1 ->
    exists r, d_div a b = Ok r /\ units r = units d.
Proof. exact quotient_exact. Qed.
Print Assumptions C03_quotient_exact.

Example C03_quotient_case :
  let a := mkDec false 1 0 in let b := mkDec true 8 0 in let d := mkDec true 125 3 in
  wf_dec a /\ wf_dec b /\ wf_dec d /\ units b <> 0 /\ units d * units b = units a * unit1
  /\ d_div a b = Ok d.
Proof.
  cbv zeta. split; [wf_lit|]. split; [wf_lit|]. split; [wf_lit|].
  split; [discriminate|]. split; vm_compute; reflexivity.
Qed.

(** ** C04: inverting an amount negates it *)

Theorem C04_invert :
  forall a, opposite a (amt_invert a) /\ amt_invert (amt_invert a) = a.
Proof. exact (fun a => conj (amt_invert_opposite a) (amt_invert_involutive a)). Qed.
Print Assumptions C04_invert.

(** [inverse] does not negate: a negative amount is returned as it is. *)
Theorem C04_inverse_refuted :
  exists a, wf_amt a /\ ~ opposite a (amt_inverse a) /\ amt_inverse a = a.
Proof. exact inverse_refuted. Qed.
Print Assumptions C04_inverse_refuted.

(** What [inverse] computes: minus the absolute value.  Missing from the full statement: negative
    amounts (refuted above). *)
Theorem C04_inverse_partial :
  forall a, wf_amt a ->
    a_c (amt_inverse a) = a_c a /\ aunits (amt_inverse a) = - Z.abs (aunits a)
    /\ (0 <= aunits a -> opposite a (amt_inverse a)).
Proof. exact inverse_partial. Qed.
Print Assumptions C04_inverse_partial.

Example C04_case : let a := mkAmt (mkDec false 25 0) (Some (lit "EUR")) in
                   wf_amt a /\ 0 <= aunits a.
Proof. split; [wf_lit|discriminate]. Qed.

(** ** C05: a balance holds exactly one exact sum per commodity *)

(** Exactness for every sequence whose running sums are representable. *)
Theorem C05_exact_sums :
  forall l, Forall wf_amt l -> (forall c n, representable (total c (firstn n l))) ->
    exists b, fold_outcome bal_add l bal_new = Ok b /\ is_balance_of b l.
Proof. exact bal_of_list. Qed.
Print Assumptions C05_exact_sums.

(** One entry per occurring commodity and no other. *)
Theorem C05_one_entry_per_commodity :
  forall b l, is_balance_of b l ->
    NoDup (map a_c b) /\ (forall c, In c (map a_c b) <-> exists a, In a l /\ a_c a = c)
    /\ forall c, holds b c = total c l.
Proof. exact one_entry_per_commodity. Qed.
Print Assumptions C05_one_entry_per_commodity.

(** Amounts that fit can be added in every order, with the same sum for every commodity. *)
Theorem C05_order_independent :
  forall l l', fits_amts l -> Permutation l l' ->
    exists b b', fold_outcome bal_add l bal_new = Ok b /\ fold_outcome bal_add l' bal_new = Ok b'
                 /\ is_balance_of b l /\ is_balance_of b' l'
                 /\ forall c, holds b c = holds b' c.
Proof. exact order_independent. Qed.
Print Assumptions C05_order_independent.

(** Adding a balance to a balance. *)
Theorem C05_balance_plus_balance :
  forall b1 l1 b2 l2, is_balance_of b1 l1 -> is_balance_of b2 l2 ->
    (forall c, representable (total c l1)) -> (forall c, representable (total c (l1 ++ l2))) ->
    exists b, bal_add_bal b1 b2 = Ok b /\ is_balance_of b (l1 ++ l2).
Proof. exact bal_add_bal_spec. Qed.
Print Assumptions C05_balance_plus_balance.

Example C05_case :
  let e := Some (lit "EUR") in let u := Some (lit "USD") in
  let l := [mkAmt (mkDec false 1050 2) e; mkAmt (mkDec true 3 0) u; mkAmt (mkDec true 2 1) e] in
  fits_amts l
  /\ fold_outcome bal_add l bal_new
     = Ok [mkAmt (mkDec false 1030 2) e; mkAmt (mkDec true 3 0) u].
Proof.
  cbv zeta. split; [|vm_compute; reflexivity]. split.
  - repeat (apply Forall_cons; [wf_lit|]). apply Forall_nil.
  - intros c. exists 2%nat. split; [lia|].
    unfold in_comm; cbn [filter map a_c a_q].
    destruct (comm_dec (Some (lit "EUR")) c); destruct (comm_dec (Some (lit "USD")) c);
      cbn [map a_q]; (split; [repeat (apply Forall_cons; [cbn [d_s]; lia|]); apply Forall_nil|vm_compute; reflexivity]).
Qed.

(** ** C50: products, quotients and sums are rounded, never wrong *)
Theorem C50_product : forall a b r, wf_dec a -> wf_dec b -> d_mul a b = Ok r -> rounded_product a b r.
Proof. exact d_mul_rounded. Qed.
Print Assumptions C50_product.

Theorem C50_quotient : forall a b r, wf_dec a -> wf_dec b -> d_div a b = Ok r -> rounded_quotient a b r.
Proof. exact d_div_rounded. Qed.
Print Assumptions C50_quotient.

Theorem C50_sum : forall a b r, wf_dec a -> wf_dec b -> d_add a b = Ok r -> rounded (units a + units b) 1 r.
Proof. exact d_add_rounded. Qed.
Print Assumptions C50_sum.

Theorem C50_exact_if_representable :
  forall num den q d, den <> 0 -> rounded num den q -> wf_dec d -> units d * den = num -> units q = units d.
Proof. exact rounded_exact. Qed.
Print Assumptions C50_exact_if_representable.

(** An exact product or quotient is never refused. *)
Theorem C50_product_exists :
  forall a b d, wf_dec a -> wf_dec b -> wf_dec d -> units d * unit1 = units a * units b ->
    exists r, d_mul a b = Ok r /\ wf_dec r /\ units r = units d.
Proof. exact d_mul_exact. Qed.
Print Assumptions C50_product_exists.
Theorem C50_quotient_exists :
  forall a b d, wf_dec a -> wf_dec b -> wf_dec d -> units b <> 0 -> units d * units b = units a * unit1 ->
    exists r, d_div a b = Ok r /\ wf_dec r /\ units r = units d.
Proof. exact d_div_exact. Qed.
Print Assumptions C50_quotient_exists.

(** 2 / 3 = 0.6666666666666666666666666667 *)
Example C50_case :
  d_div (mkDec false 2 0) (mkDec false 3 0) = Ok (mkDec false 6666666666666666666666666667 28)
  /\ d_mul (mkDec false 15 1) (mkDec true 25 1) = Ok (mkDec true 375 2).
Proof. split; vm_compute; reflexivity. Qed.
