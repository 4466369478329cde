(** C102: the reports depend on the sums only. *)
From Coq Require Import String List NArith ZArith Bool Lia.
From Verif Require Import Base Decimal Dates Amount Balance Account Journal Xact Parser Report Options Lib.
From Verif Require Import SpecDecimal SpecAmount SpecAccount SpecScan SpecWhole SpecCommand SpecFull SpecEnd SpecFullEnd SpecOrder SpecSums.
From Verif Require Import SumsProofs DemoJournal DemoScan DemoWhole DemoFull DemoFullEnd DemoOrder DemoSums.
Import ListNotations.
Open Scope list_scope.
Open Scope nat_scope.

(** ** C102: how sums are divided over postings makes no difference to the reports *)
(** If each account has postings in the same commodities with the same sums, the balance command prints the
    same accounts with the same amounts.  Missing: the same number of decimals, which is refuted. *)
Theorem C102_balance_partial :
  forall d c f args files verb ws d' c' f' args' files' verb' ws',
  said_run d c f args files verb ws -> balance_verb verb -> said_run d' c' f' args' files' verb' ws' -> balance_verb verb' ->
  Forall xact_ok ws -> lots_ok (j_pool journal_new) ws -> full_sums_fit ws ->
  Forall xact_ok ws' -> lots_ok (j_pool journal_new) ws' -> full_sums_fit ws' -> same_sums (full_entries ws) (full_entries ws') ->
  exists out out', run d c f args = Ok out /\ run d' c' f' args' = Ok out' /\ same_report out out'.
Proof. exact sums_balance. Qed.
Print Assumptions C102_balance_partial.
(** The accounts command prints the same. *)
Theorem C102_accounts :
  forall d c f args files verb ws d' c' f' args' files' verb' ws',
  said_run d c f args files verb ws -> accounts_verb verb -> said_run d' c' f' args' files' verb' ws' -> accounts_verb verb' ->
  Forall xact_ok ws -> lots_ok (j_pool journal_new) ws -> Forall xact_ok ws' -> lots_ok (j_pool journal_new) ws' ->
  same_sums (full_entries ws) (full_entries ws') ->
  exists out, run d c f args = Ok out /\ run d' c' f' args' = Ok out.
Proof. exact sums_accounts. Qed.
Print Assumptions C102_accounts.
(** So it is if a posting is split in two, *)
Theorem C102_split :
  forall a b w w', split_in w w' -> same_sums (full_entries (a ++ w :: b)) (full_entries (a ++ w' :: b)).
Proof. exact split_sums. Qed.
Print Assumptions C102_split.
(** or two transactions are made one. *)
Theorem C102_merge :
  forall a b w1 w2 w, merged w1 w2 w -> same_sums (full_entries (a ++ w1 :: w2 :: b)) (full_entries (a ++ w :: b)).
Proof. intros a b w1 w2 w M. rewrite (merge_sums a b w1 w2 w M). apply same_refl. Qed.
Print Assumptions C102_merge.
(** So it is too if the amount left out is written. *)
Theorem C102_written_out :
  forall a b w w', written_out w w' -> same_sums (full_entries (a ++ w :: b)) (full_entries (a ++ w' :: b)).
Proof. intros a b w w' M. rewrite (written_sums a b w w' M). apply same_refl. Qed.
Print Assumptions C102_written_out.
(** The text may change when a posting is split. *)
Theorem C102_text_refuted :
  ~ (forall d c f args files verb w args' files' w', said_run d c f args files verb [w] -> said_run d c f args' files' verb [w'] -> balance_verb verb ->
     Forall xact_ok [w] -> lots_ok (j_pool journal_new) [w] -> full_sums_fit [w] -> Forall xact_ok [w'] -> lots_ok (j_pool journal_new) [w'] -> full_sums_fit [w'] ->
     split_in w w' -> run d c f args = run d c f args').
Proof. exact split_refuted. Qed.
Print Assumptions C102_text_refuted.
Example C102_case :
  said_run 1 (lit "/w") sums_fs (sums_args (lit "balance") five_file) [five_file] (lit "balance") [x_five]
  /\ said_run 1 (lit "/w") sums_fs (sums_args (lit "balance") halves_file) [halves_file] (lit "balance") [x_halves]
  /\ said_run 1 (lit "/w") sums_fs (sums_args (lit "accounts") halves_file) [halves_file] (lit "accounts") [x_halves]
  /\ balance_verb (lit "balance") /\ accounts_verb (lit "accounts")
  /\ Forall xact_ok [x_five] /\ lots_ok (j_pool journal_new) [x_five] /\ full_sums_fit [x_five]
  /\ Forall xact_ok [x_halves] /\ lots_ok (j_pool journal_new) [x_halves] /\ full_sums_fit [x_halves]
  /\ split_in x_five x_halves /\ same_sums (full_entries [x_five]) (full_entries [x_halves])
  /\ run 1 (lit "/w") sums_fs (sums_args (lit "balance") five_file)
     = Ok (map lit ["Account  has balance 0 EUR"; "Account Assets has balance 5 EUR"; "Account Assets:Cash has balance 5 EUR";
                    "Account Expenses has balance -5 EUR"; "Account Expenses:Food has balance -5 EUR"]%string)
  /\ run 1 (lit "/w") sums_fs (sums_args (lit "balance") halves_file)
     = Ok (map lit ["Account  has balance 0.00 EUR"; "Account Assets has balance 5.00 EUR"; "Account Assets:Cash has balance 5.00 EUR";
                    "Account Expenses has balance -5.00 EUR"; "Account Expenses:Food has balance -5.00 EUR"]%string).
Proof.
  destruct (sums_said (lit "balance") ltac:(discriminate)) as [A B]. split; [exact A|]. split; [exact B|]. split; [exact (proj2 (sums_said (lit "accounts") ltac:(discriminate)))|]. clear A B.
  split; [right; right; reflexivity|]. split; [reflexivity|]. split; [exact whole_ok|]. split; [exact whole_lots|]. split; [exact whole_fit|].
  split; [exact halves_ok|]. split; [exact halves_lots|]. split; [exact halves_fit|]. split; [exact halves_split|]. split; [exact (split_sums [] [] _ _ halves_split)|].
  split; vm_compute; reflexivity.
Qed.
Example C102_merge_case : merged x_round x_round (demo_x (fx_posts x_round ++ fx_posts x_round)).
Proof. split; [repeat constructor; discriminate|reflexivity]. Qed.
Definition x_five_out : fxact := demo_x [mkFP cash (Some v_five) []; mkFP food (plain_value (rest_value x_five) 0 (lit "EUR")) []].
Example C102_written_case : written_out x_five x_five_out /\ (rest_value x_five =? -5 * unit1)%Z = true.
Proof.
  split; [|vm_compute; reflexivity]. exists [mkFP cash (Some v_five) []], [], food, (lit "EUR"), 0, [], []. split; [reflexivity|]. split; [reflexivity|].
  split; [repeat constructor; discriminate|reflexivity].
Qed.
