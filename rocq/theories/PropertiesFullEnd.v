(** C63: the reports on full journals. *)
From Coq Require Import String List NArith ZArith Bool Lia Sorted Permutation.
From Verif Require Import Base Decimal Dates Amount Balance Scanner History Pool Account Journal Xact Parser Report Options Lib.
From Verif Require Import SpecDecimal SpecAmount SpecAccount SpecScan SpecWhole SpecReport SpecCommand SpecFull SpecEnd SpecFullEnd.
From Verif Require Import FullEndProofs DemoFull DemoFullEnd.
Import ListNotations.
Open Scope list_scope.
Open Scope nat_scope.

(** ** C63: the balance and accounts commands on files with lots, costs, notes and includes *)
Theorem C63_balance :
  forall depth cwd fs args verb cmds files wss,
  args_mean args (verb :: cmds) files -> balance_verb verb -> Forall2 (ffile_says depth cwd fs) files wss ->
  Forall xact_ok (concat wss) -> lots_ok (j_pool journal_new) (concat wss) -> full_sums_fit (concat wss) ->
  exists out ps, run depth cwd fs args = Ok out /\ accounts_of_entries (full_entries (concat wss)) ps
    /\ Forall2 (fun p line => exists b, totals_said (below p (full_entries (concat wss))) b
                /\ line = lit "Account " ++ shown_name p ++ lit " has balance " ++ shown_amounts b) ps out.
Proof. exact full_balance. Qed.
Print Assumptions C63_balance.
Theorem C63_accounts :
  forall depth cwd fs args verb cmds files wss,
  args_mean args (verb :: cmds) files -> accounts_verb verb -> Forall2 (ffile_says depth cwd fs) files wss ->
  Forall xact_ok (concat wss) -> lots_ok (j_pool journal_new) (concat wss) ->
  exists out ps, run depth cwd fs args = Ok out /\ accounts_of_entries (full_entries (concat wss)) ps
    /\ Permutation out (map (fun p => last p []) ps) /\ StronglySorted (fun a b => str_lt a b \/ a = b) out.
Proof. exact full_accounts. Qed.
Print Assumptions C63_accounts.

(** Two files, the first one of which includes the second one. *)
Example C63_case :
  args_mean full_args [lit "balance"] [main_file; old_file] /\ balance_verb (lit "balance")
  /\ args_mean (lit "accounts" :: tl full_args) [lit "accounts"] [main_file; old_file] /\ accounts_verb (lit "accounts")
  /\ Forall2 (ffile_says 1 (lit "/home") full_fs) [main_file; old_file] [[fb; fa; fc; fb]; [fb]]
  /\ Forall xact_ok [fb; fa; fc; fb; fb] /\ lots_ok (j_pool journal_new) [fb; fa; fc; fb; fb] /\ full_sums_fit [fb; fa; fc; fb; fb]
  /\ run 1 (lit "/home") full_fs full_args = Ok (map lit [
       "Account  has balance -387.00 EUR5 IVV14 VTI"; "Account Assets has balance -349.98 EUR5 IVV14 VTI";
       "Account Assets:Cash has balance -349.98 EUR5 IVV4 VTI"; "Account Assets:Stocks has balance 10 VTI";
       "Account Expenses has balance -37.02 EUR"; "Account Expenses:Food has balance -37.02 EUR"]%string)
  /\ run 1 (lit "/home") full_fs (lit "accounts" :: tl full_args) = Ok (map lit [""; "Assets"; "Cash"; "Expenses"; "Food"; "Stocks"]%string).
Proof.
  split; [apply (full_args_mean (lit "balance")); discriminate|]. split; [right; right; reflexivity|]. split; [apply (full_args_mean (lit "accounts")); discriminate|].
  split; [reflexivity|]. split; [exact full_files|]. split; [exact full_files_ok|]. split; [exact full_files_lots|]. split; [exact full_files_fit|].
  split; vm_compute; reflexivity.
Qed.
