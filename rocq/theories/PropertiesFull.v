(** C09, C61, C62: when arithmetic has a result; full journals. *)
From Coq Require Import String List NArith ZArith Bool Lia.
From Verif Require Import Base Decimal Dates Amount Balance Scanner History Pool Account Journal Xact Parser Lib.
From Verif Require Import SpecDecimal SpecAmount SpecDates SpecPool SpecAccount SpecXact SpecJournal SpecText SpecReading SpecScan SpecWhole SpecFull.
From Verif Require Import ArithProofs DefinedFacts DefinedProofs FullProofs DemoJournal DemoReading DemoScan DemoWhole DemoFull.
Import ListNotations.
Open Scope list_scope.
Open Scope nat_scope.

(** ** C61: arithmetic is refused exactly when the result is out of range *)

(** In range: below 2^96 - 1/2 in size, so that rounding to an integer gives one that fits. *)
Theorem C61_sum :
  forall a b, wf_amt a -> wf_amt b -> a_c a = a_c b ->
  ((exists r, amt_plus a b = Ok r) <-> (2 * Z.abs (aunits a + aunits b) < (2 ^ 97 - 1) * unit1)%Z)
  /\ ((exists r, amt_add a b = Ok r) <-> (2 * Z.abs (aunits a + aunits b) < (2 ^ 97 - 1) * unit1)%Z).
Proof. exact sum_some. Qed.
Print Assumptions C61_sum.
Theorem C61_difference :
  forall a b, wf_amt a -> wf_amt b -> a_c a = a_c b ->
  (exists r, amt_minus a b = Ok r) <-> (2 * Z.abs (aunits a - aunits b) < (2 ^ 97 - 1) * unit1)%Z.
Proof. exact difference_some. Qed.
Print Assumptions C61_difference.
Theorem C61_product :
  forall a b, wf_amt a -> wf_amt b ->
  (exists r, amt_mul a b = Ok r) <-> (2 * Z.abs (aunits a * aunits b) < (2 ^ 97 - 1) * unit1 * unit1)%Z.
Proof. exact product_some. Qed.
Print Assumptions C61_product.
(** The quotient of the values is the quotient of the multiples of 10^-28. *)
Theorem C61_quotient :
  forall a b, wf_amt a -> wf_amt b ->
  (exists r, amt_div a b = Ok r) <-> aunits b <> 0%Z /\ (2 * Z.abs (aunits a) < (2 ^ 97 - 1) * Z.abs (aunits b))%Z.
Proof. exact quotient_some. Qed.
Print Assumptions C61_quotient.
(** Without a result there is a panic. *)
Theorem C61_ends :
  forall a b, amt_add a b <> Diverge /\ amt_plus a b <> Diverge /\ amt_minus a b <> Diverge /\ amt_mul a b <> Diverge /\ amt_div a b <> Diverge.
Proof. exact arithmetic_ends. Qed.
Print Assumptions C61_ends.

(** The largest amount and 0.4 have a sum; the largest amount and 0.5 have none. *)
Example C61_case :
  let big := mkAmt (mkDec false (2 ^ 96 - 1) 0) (Some (lit "EUR")) in
  let four := mkAmt (mkDec false 4 1) (Some (lit "EUR")) in
  let five := mkAmt (mkDec false 5 1) (Some (lit "EUR")) in
  wf_amt big /\ wf_amt four /\ wf_amt five
  /\ amt_plus big four = Ok big /\ amt_plus big five = Panic PArith
  /\ amt_mul big five = Ok (mkAmt (mkDec false (2 ^ 95) 0) (Some (lit "EUR"))) /\ amt_div big five = Panic PArith.
Proof. cbv zeta. split; [wf_lit|]. split; [wf_lit|]. split; [wf_lit|]. vm_compute. auto. Qed.

(** ** C62: full journals *)
Theorem C62_full_journal :
  forall depth cwd fs t lines ws j,
  lines_of t lines -> says cwd fs depth lines ws -> Forall xact_ok ws -> lots_ok (j_pool j) ws -> reachable_journal j ->
  exists j' new rss, parse_text depth cwd fs t j = Ok j' /\ j_xacts j' = j_xacts j ++ new /\ Forall2 fxact_is ws new
    /\ Forall2 xact_records new rss /\ prices_after (j_pool j) (concat rss) (j_pool j').
Proof. exact full_journal_accepted. Qed.
Print Assumptions C62_full_journal.

(** Four transactions, the first one in an included file; the second one has lots, both kinds of costs and
    notes; the third one implies that a VTI costs 20.5 EUR; in the others an amount is left out. *)
Example C62_case :
  lines_of full_text full_lines /\ says (lit "/home") full_fs 1 full_lines [fb; fa; fc; fb] /\ Forall xact_ok [fb; fa; fc; fb]
  /\ lots_ok (j_pool j1) [fb; fa; fc; fb] /\ reachable_journal j1 /\ parse_text 1 (lit "/home") full_fs full_text j1 = Ok full_j
  /\ map (fun x => map (fun p => (po_account p, option_map aunits (po_amount p), option_map aunits (po_cost p), po_note p)) (x_posts x)) (skipn 2 (j_xacts full_j))
     = [ [([lit "Assets"; lit "Cash"], Some (1234 * (unit1 / 100))%Z, None, None); ([lit "Expenses"; lit "Food"], Some (-1234 * (unit1 / 100))%Z, None, None)];
         [([lit "Assets"; lit "Stocks"], Some (10 * unit1)%Z, Some (205 * unit1)%Z, Some (lit "first note"));
          ([lit "Assets"; lit "Cash"], Some (5 * unit1)%Z, Some (100 * unit1)%Z, None); ([lit "Assets"; lit "Cash"], Some (-305 * unit1)%Z, None, None)];
         [([lit "Assets"; lit "Cash"], Some (4 * unit1)%Z, Some (82 * unit1)%Z, None); ([lit "Assets"; lit "Cash"], Some (-82 * unit1)%Z, None, None)];
         [([lit "Assets"; lit "Cash"], Some (1234 * (unit1 / 100))%Z, None, None); ([lit "Expenses"; lit "Food"], Some (-1234 * (unit1 / 100))%Z, None, None)] ].
Proof.
  split; [exact full_lines_of|]. split; [exact full_said|]. split; [exact full_ok|]. split; [exact full_lots|]. split; [exact j1_reachable|]. split; [exact full_j_ok|].
  vm_compute. reflexivity.
Qed.

(** ** C09: a written cost is kept *)

(** The cost of every posting is the one written for it, or none, unless the transaction implies another
    one.  Missing: the postings whose commodity is priced by the transaction, see [C09_cost_refuted]. *)
Theorem C09_written_cost_partial :
  forall depth cwd fs t lines ws j,
  lines_of t lines -> says cwd fs depth lines ws -> Forall xact_ok ws -> lots_ok (j_pool j) ws -> reachable_journal j ->
  exists j' new, parse_text depth cwd fs t j = Ok j' /\ j_xacts j' = j_xacts j ++ new /\ length new = length ws
    /\ forall n w x i fp v p, nth_error ws n = Some w -> nth_error new n = Some x ->
       nth_error (fx_posts w) i = Some fp -> nth_error (x_posts x) i = Some p -> fp_value fp = Some v ->
       (forall y r, ~ priced_at w (wa_symbol (wv_amount v)) y r) -> cost_is v (po_cost p).
Proof. exact written_cost_kept. Qed.
Print Assumptions C09_written_cost_partial.

(** The first two postings of the second transaction have costs, one for each unit and one for all. *)
Example C09_written_case :
  nth_error [fb; fa; fc; fb] 1 = Some fa
  /\ map (fun p => option_map wv_cost (fp_value p)) (fx_posts fa)
     = [Some (Some (true, mkWA (205 * (unit1 / 10)) 1 (lit "EUR"))); Some (Some (false, mkWA (100 * unit1) 0 (lit "EUR"))); Some None]
  /\ (forall y r, ~ priced_at fa (lit "VTI") y r)
  /\ option_map (fun x => map (fun p => option_map aunits (po_cost p)) (x_posts x)) (nth_error (skipn 2 (j_xacts full_j)) 1)
     = Some [Some (205 * unit1)%Z; Some (100 * unit1)%Z; None].
Proof.
  split; [reflexivity|]. split; [vm_compute; reflexivity|]. split; [|vm_compute; reflexivity].
  intros y r (N & P & F & S & T & _). apply S. vm_compute. reflexivity.
Qed.
