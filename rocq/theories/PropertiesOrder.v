(** C74: the order of the transactions. *)
From Coq Require Import String List NArith ZArith Bool Lia Permutation.
From Verif Require Import Base Decimal Dates Amount Balance Account Journal Xact Parser Report Options Lib.
From Verif Require Import SpecDecimal SpecAmount SpecAccount SpecScan SpecWhole SpecCommand SpecFull SpecEnd SpecFullEnd SpecOrder.
From Verif Require Import OrderProofs DemoFull DemoFullEnd DemoOrder.
Import ListNotations.
Open Scope list_scope.
Open Scope nat_scope.

(** ** C74: the order of files, transactions and postings makes no difference to the reports *)
(** The accounts command prints the same. *)
Theorem C74_accounts :
  forall d c f args files verb ws d' c' f' args' files' verb' ws',
  said_run d c f args files verb ws -> accounts_verb verb -> said_run d' c' f' args' files' verb' ws' -> accounts_verb verb' ->
  Forall xact_ok ws -> lots_ok (j_pool journal_new) ws -> Permutation ws ws' ->
  exists out, run d c f args = Ok out /\ run d' c' f' args' = Ok out.
Proof. exact order_accounts. Qed.
Print Assumptions C74_accounts.
(** The balance command prints the same accounts with the same amounts.  Missing: that they are printed
    with the same number of decimals, which is refuted. *)
Theorem C74_balance_partial :
  forall d c f args files verb ws d' c' f' args' files' verb' ws',
  said_run d c f args files verb ws -> balance_verb verb -> said_run d' c' f' args' files' verb' ws' -> balance_verb verb' ->
  Forall xact_ok ws -> lots_ok (j_pool journal_new) ws -> full_sums_fit ws -> Permutation ws ws' ->
  exists out out', run d c f args = Ok out /\ run d' c' f' args' = Ok out' /\ same_report out out'.
Proof. exact order_balance. Qed.
Print Assumptions C74_balance_partial.
(** The same if the transactions differ but their postings say the same. *)
Theorem C74_postings_partial :
  forall d c f args files verb ws d' c' f' args' files' verb' ws',
  said_run d c f args files verb ws -> balance_verb verb -> said_run d' c' f' args' files' verb' ws' -> balance_verb verb' ->
  Forall xact_ok ws -> lots_ok (j_pool journal_new) ws -> full_sums_fit ws ->
  Forall xact_ok ws' -> lots_ok (j_pool journal_new) ws' -> full_sums_fit ws' -> Permutation (full_entries ws) (full_entries ws') ->
  exists out out', run d c f args = Ok out /\ run d' c' f' args' = Ok out' /\ same_report out out'.
Proof. exact same_entries_balance. Qed.
Print Assumptions C74_postings_partial.
(** Even in a single commodity the text depends on the order of the files. *)
Theorem C74_decimals_refuted :
  ~ (forall d c f args files verb ws args' files' ws', said_run d c f args files verb ws -> said_run d c f args' files' verb ws' -> balance_verb verb ->
     Forall xact_ok ws -> lots_ok (j_pool journal_new) ws -> full_sums_fit ws -> Permutation ws ws' ->
     (exists s, Forall (fun w => Forall (fun v => wa_symbol (wv_amount v) = s) (values_of (fx_posts w))) ws) ->
     run d c f args = run d c f args').
Proof. exact order_refuted. Qed.
Print Assumptions C74_decimals_refuted.
Example C74_case :
  said_run 1 (lit "/w") order_fs (order_args (lit "balance") five_file round_file) [five_file; round_file] (lit "balance") [x_five; x_round]
  /\ said_run 1 (lit "/w") order_fs (order_args (lit "balance") round_file five_file) [round_file; five_file] (lit "balance") [x_round; x_five]
  /\ balance_verb (lit "balance") /\ accounts_verb (lit "accounts")
  /\ Forall xact_ok [x_five; x_round] /\ lots_ok (j_pool journal_new) [x_five; x_round] /\ full_sums_fit [x_five; x_round]
  /\ run 1 (lit "/w") order_fs (order_args (lit "balance") five_file round_file)
     = Ok (map lit ["Account  has balance 0.00 EUR"; "Account Assets has balance 5.00 EUR"; "Account Assets:Cash has balance 5.00 EUR";
                    "Account Expenses has balance -5 EUR"; "Account Expenses:Food has balance -5 EUR"]%string)
  /\ run 1 (lit "/w") order_fs (order_args (lit "balance") round_file five_file)
     = Ok (map lit ["Account  has balance 0 EUR"; "Account Assets has balance 5 EUR"; "Account Assets:Cash has balance 5 EUR";
                    "Account Expenses has balance -5 EUR"; "Account Expenses:Food has balance -5 EUR"]%string).
Proof.
  destruct (order_said (lit "balance") ltac:(discriminate) ltac:(discriminate)) as [A B]. split; [exact A|]. split; [exact B|]. clear A B.
  split; [right; right; reflexivity|]. split; [reflexivity|]. split; [exact order_ok|]. split; [exact order_lots|]. split; [exact order_fit|].
  split; vm_compute; reflexivity.
Qed.
