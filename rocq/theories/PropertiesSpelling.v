(** C82: spelling does not matter. *)
From Coq Require Import String List NArith ZArith Bool Lia.
From Verif Require Import Base Decimal Dates Amount Balance Scanner History Pool Account Journal Xact Parser Report Options Lib.
From Verif Require Import SpecDecimal SpecAmount SpecDates SpecText SpecReading SpecScan SpecPriceLog SpecEnd SpecValue SpecSpelling.
From Verif Require Import BaseFacts DatesFacts ValueProofs SpellingProofs DemoScan DemoFull.
Import ListNotations.
Open Scope list_scope.
Open Scope nat_scope.

(** ** C82: files that say the same give the same values *)
(** Both are read, and the journals are equal but for the decimals; or both end alike. *)
Theorem C82_reading :
  forall depth cwd fs fs' src src' j j', same_files fs fs' -> same_source src src' -> same_journal j j' ->
  same_outcome same_journal (read_into_journal depth cwd fs src j) (read_into_journal depth cwd fs' src' j').
Proof. exact reading_alike. Qed.
Print Assumptions C82_reading.
Theorem C82_totals :
  forall j j', same_journal j j' -> forall a, same_outcome same_balance (account_total (j_xacts j) a) (account_total (j_xacts j') a).
Proof. intros j j' (_ & _ & X). exact (total_rel _ _ X). Qed.
Print Assumptions C82_totals.
Theorem C82_report :
  forall j j', same_journal j j' ->
  same_outcome (Forall2 same_shown) (balance_report j) (balance_report j') /\ report_accounts j = report_accounts j'.
Proof. exact report_alike. Qed.
Print Assumptions C82_report.
Theorem C82_prices :
  forall astar j j' s t now moment oldest, knows_ends astar -> same_journal j j' ->
  same_outcome (opt_rel (fun x y => fst x = fst y /\ same_amount (snd x) (snd y)))
    (pool_find_price astar (j_pool j) s t now moment oldest) (pool_find_price astar (j_pool j') s t now moment oldest).
Proof. intros astar j j' s t now moment oldest K (_ & P & _). exact (price_alike _ _ _ _ _ _ _ _ K P). Qed.
Print Assumptions C82_prices.
Theorem C82_run :
  forall depth cwd fs fs' args, same_files fs fs' ->
  same_outcome (fun out out' => out = out' \/ Forall2 same_shown out out') (run depth cwd fs args) (run depth cwd fs' args).
Proof. exact run_alike. Qed.
Print Assumptions C82_run.

Definition one_way : list str := [lit "2023-05-03 Broker" ++ nl; lit "  Assets:Stock  2 VTI @ 2.50 EUR" ++ nl; lit "  Assets:Cash  -5 EUR" ++ nl; nl; lit "# prices" ++ nl;
  lit "i 2023-05-04 12:30:00 VTI 2.60 EUR"].
Definition other_way : list str := [lit "2023-5-3   Broker" ++ nl; lit "    Assets:Stock    2.0 VTI  @   2.5 EUR" ++ nl; lit " Assets:Cash  EUR -5.000" ++ nl; 13%N :: nl; lit "; also prices" ++ nl;
  lit "i  2023-5-4 12:30:0  VTI  2.6  EUR"].
Definition one_fs : filesystem := fun p => if str_eqb p (lit "j") then Some (text_source (concat one_way)) else None.
Definition other_fs : filesystem := fun p => if str_eqb p (lit "j") then Some (text_source (concat other_way)) else None.
Lemma same_number_of u k k' q q' : denotes q u k -> denotes q' u k' -> same_number q q'.
Proof. intros. right. exists u, k, k'. auto. Qed.
Lemma same_day_of d d' v : parse_date_opt d = Some v -> parse_date_opt d' = Some v -> same_day d d'.
Proof. intros A B. right. exists v. split; apply parse_date_iff; assumption. Qed.
Lemma dec_of sign neg whole frac q u : q = sign ++ whole ++ [point_c] ++ frac ->
  (sign = [] /\ neg = false \/ sign = [minus_c] /\ neg = true) ->
  forallb is_digit whole && forallb is_digit frac && negb (is_empty (whole ++ frac)) && (length frac <=? 28) && (number (whole ++ frac) <? 2 ^ 96)%Z = true ->
  ((if neg then - number (whole ++ frac) else number (whole ++ frac)) * 10 ^ Z.of_nat (28 - length frac) = u)%Z ->
  denotes q u (length frac).
Proof. intros -> S H U. apply (denotes_check sign neg whole [point_c] frac u S H); auto. Qed.
Lemma one_element e : (match e with c :: _ => negb (is_ws c) | [] => false end) && forallb (fun c => negb ((c =? 32) || (c =? 9)))%N e = true -> element e.
Proof.
  intros H. apply andb_prop in H as [A B]. split.
  - destruct e as [|c r]; [discriminate|]. exists c, r. split; [reflexivity|]. apply negb_true_iff, A.
  - rewrite forallb_forall in B. apply Forall_forall. intros c I. apply B in I. apply negb_true_iff, orb_false_elim in I as [X Y]. apply N.eqb_neq in X, Y. auto.
Qed.
Lemma sp_gap w : spaces w -> gap (32%N :: w).
Proof. intros W. split; [exact W|]. exists 32%N, w. auto. Qed.

Lemma two_ways : same_source (map Some one_way) (map Some other_way).
Proof.
  unfold one_way, other_way. cbn [map]. repeat apply Forall2_cons; try apply Forall2_nil.
  - apply (sl_header _ _ (lit "2023-05-03") (lit "2023-5-3") [] [] (lit "Broker") []); try reflexivity.
    + apply (hl_payee (lit "2023-05-03") [] [] [] (lit "Broker") nl []); try reflexivity; try (split; [discriminate|reflexivity]); try constructor; try reflexivity.
      * apply trimmed_check. reflexivity.
      * apply ScanProofs.find_sub_not. reflexivity.
      * intros _. apply ScanProofs.find_sub_not. reflexivity.
    + apply (hl_payee (lit "2023-5-3") [] [] (sp ++ sp) (lit "Broker") nl []); try reflexivity; try (split; [discriminate|reflexivity]); try constructor; try reflexivity.
      * apply trimmed_check. reflexivity.
      * apply ScanProofs.find_sub_not. reflexivity.
      * intros _. apply ScanProofs.find_sub_not. reflexivity.
    + apply (same_day_of _ _ (mkDate 2023 5 3)); vm_compute; reflexivity.
    + left. reflexivity.
  - apply (sl_posting _ _ (mkPT (lit "Assets:Stock") (lit "2") (lit "VTI") [] [] [] (lit "2.50") (lit "EUR") true) (mkPT (lit "Assets:Stock") (lit "2.0") (lit "VTI") [] [] [] (lit "2.5") (lit "EUR") true)).
    + apply (pl_amount (lit "  ") (lit "Assets:Stock") [] (lit "2" ++ sp ++ lit "VTI") (lit "2") (lit "VTI") [] [] [] [] [] (sp ++ lit "@ " ++ [] ++ (lit "2.50" ++ sp ++ lit "EUR")) (lit "2.50") (lit "EUR") true nl); try reflexivity.
      * apply check_account_ok. reflexivity.
      * apply after_vti. reflexivity.
      * constructor.
      * constructor.
      * apply c_unit; [apply space_one|reflexivity|apply after_eur; reflexivity].
      * discriminate.
    + apply (pl_amount (lit "    ") (lit "Assets:Stock") (lit "  ") (lit "2.0" ++ sp ++ lit "VTI") (lit "2.0") (lit "VTI") [] [] [] [] [] (lit "  " ++ lit "@ " ++ lit "  " ++ (lit "2.5" ++ sp ++ lit "EUR")) (lit "2.5") (lit "EUR") true nl); try reflexivity.
      * apply check_account_ok. reflexivity.
      * apply after_vti. reflexivity.
      * constructor.
      * constructor.
      * apply c_unit; [split; [discriminate|reflexivity]|reflexivity|apply after_eur; reflexivity].
      * discriminate.
    + repeat split; try (left; reflexivity).
      * eapply (same_number_of (2 * unit1)); [apply denotes_int; vm_compute; reflexivity|eapply (dec_of [] false (lit "2") (lit "0")); [reflexivity|auto|vm_compute; reflexivity|vm_compute; reflexivity]].
      * eapply (same_number_of (25 * 10 ^ 27)); [eapply (dec_of [] false (lit "2") (lit "50")); [reflexivity|auto|vm_compute; reflexivity|vm_compute; reflexivity]|eapply (dec_of [] false (lit "2") (lit "5")); [reflexivity|auto|vm_compute; reflexivity|vm_compute; reflexivity]].
  - apply (sl_posting _ _ (mkPT (lit "Assets:Cash") (lit "-5") (lit "EUR") [] [] [] [] [] false) (mkPT (lit "Assets:Cash") (lit "-5.000") (lit "EUR") [] [] [] [] [] false)).
    + apply (pl_amount (lit "  ") (lit "Assets:Cash") [] (lit "-5" ++ sp ++ lit "EUR") (lit "-5") (lit "EUR") [] [] [] [] [] [] [] [] false nl); try reflexivity.
      * apply check_account_ok. reflexivity.
      * apply after_eur. reflexivity.
      * constructor.
      * constructor.
      * constructor.
      * discriminate.
    + apply (pl_amount (lit " ") (lit "Assets:Cash") [] (lit "EUR" ++ sp ++ lit "-5.000") (lit "-5.000") (lit "EUR") [] [] [] [] [] [] [] [] false nl); try reflexivity.
      * apply check_account_ok. reflexivity.
      * apply wa_before; [apply quantity_check; reflexivity|reflexivity|apply symbol_check; reflexivity|apply starts_check; reflexivity|discriminate].
      * constructor.
      * constructor.
      * constructor.
      * discriminate.
    + repeat split; try (left; reflexivity).
      eapply (same_number_of (-5 * unit1)); [|eapply (dec_of [minus_c] true (lit "5") (lit "000")); [reflexivity|auto|vm_compute; reflexivity|vm_compute; reflexivity]].
      apply (denotes_check [minus_c] true (lit "5") [] []); [auto|vm_compute; reflexivity|auto|vm_compute; reflexivity].
  - apply sl_empty; cbn; auto.
  - apply sl_comment; eexists _, _; split; reflexivity.
  - apply (sl_price _ _ (lit "2023-05-04") (lit "2023-5-4") (lit "12:30:00") (lit "12:30:0") (lit "VTI") (lit "2.60") (lit "2.6") (lit "EUR")).
    + apply (pp sp (lit "2023-05-04") sp (lit "12:30:00" ++ sp) (lit "12:30:00") (lit "VTI") sp (lit "2.60") sp (lit "EUR") []); try (apply sp_gap; reflexivity); try (apply one_element; reflexivity); [apply space_one|left; reflexivity|].
      right. exists sp. split; [reflexivity|]. split; [apply one_element; reflexivity|]. split; [reflexivity|apply sp_gap; reflexivity].
    + apply (pp (lit "  ") (lit "2023-5-4") sp (lit "12:30:0" ++ lit "  ") (lit "12:30:0") (lit "VTI") (lit "  ") (lit "2.6") (lit "  ") (lit "EUR") []); try (apply sp_gap; reflexivity); try (apply one_element; reflexivity); [split; [discriminate|reflexivity]|left; reflexivity|].
      right. exists (lit "  "). split; [reflexivity|]. split; [apply one_element; reflexivity|]. split; [reflexivity|apply sp_gap; reflexivity].
    + apply (same_day_of _ _ (mkDate 2023 5 4)); vm_compute; reflexivity.
    + right. exists (mkTime 12 30 0). split; apply parse_time_iff; vm_compute; reflexivity.
    + eapply (same_number_of (26 * 10 ^ 27)); [eapply (dec_of [] false (lit "2") (lit "60")); [reflexivity|auto|vm_compute; reflexivity|vm_compute; reflexivity]|eapply (dec_of [] false (lit "2") (lit "6")); [reflexivity|auto|vm_compute; reflexivity|vm_compute; reflexivity]].
Qed.
(** The two journals have the same balances and prices, shown with other decimals. *)
Example C82_case :
  same_files one_fs other_fs /\ same_journal journal_new journal_new /\ knows_ends bfs
  /\ run 1 [] one_fs [lit "bal"; lit "-f"; lit "j"] = Ok [lit "Account  has balance -5 EUR2 VTI"; lit "Account Assets has balance -5 EUR2 VTI"; lit "Account Assets:Cash has balance -5 EUR"; lit "Account Assets:Stock has balance 2 VTI"]
  /\ run 1 [] other_fs [lit "bal"; lit "-f"; lit "j"] = Ok [lit "Account  has balance -5.000 EUR2.0 VTI"; lit "Account Assets has balance -5.000 EUR2.0 VTI"; lit "Account Assets:Cash has balance -5.000 EUR"; lit "Account Assets:Stock has balance 2.0 VTI"].
Proof.
  split.
  { intros p. unfold one_fs, other_fs. destruct (str_eqb p (lit "j")); [|exact I]. cbn [opt_rel].
    replace (text_source (concat one_way)) with (map Some one_way) by (vm_compute; reflexivity). replace (text_source (concat other_way)) with (map Some other_way) by (vm_compute; reflexivity). exact two_ways. }
  split; [exact same_new|]. split; [exact bfs_ends|]. split; vm_compute; reflexivity.
Qed.
