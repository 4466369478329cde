(** C52, C53: from written files to printed reports. *)
From Coq Require Import String List NArith ZArith Bool Lia Sorted Permutation.
From Verif Require Import Base Decimal Dates Amount Balance Scanner History Pool Account Journal Xact Parser Report Options Lib.
From Verif Require Import SpecDecimal SpecAmount SpecDates SpecPool SpecAccount SpecXact SpecJournal SpecText SpecReading SpecScan SpecWhole SpecReport SpecCommand SpecEnd.
From Verif Require Import EndProofs DemoJournal DemoScan DemoWhole DemoEnd.
Import ListNotations.
Open Scope list_scope.
Open Scope nat_scope.

(** ** C52: the balance command shows the sums of what is written in the files *)

(** Missing from the full statement: transactions in which a positive amount is left out. *)
Theorem C52_balance_partial :
  forall depth cwd fs args verb cmds files wss,
  args_mean args (verb :: cmds) files -> balance_verb verb -> Forall2 (file_says fs) files wss ->
  Forall well_formed (concat wss) -> Forall no_positive_rest (concat wss) -> sums_fit (concat wss) ->
  exists out ps, run depth cwd fs args = Ok out /\ accounts_said (concat wss) ps
    /\ Forall2 (fun p line => exists b, totals_said (below p (entries (concat wss))) b
                /\ line = lit "Account " ++ shown_name p ++ lit " has balance " ++ shown_amounts b) ps out.
Proof. exact balance_end. Qed.
Print Assumptions C52_balance_partial.

Theorem C52_balance_refuted :
  ~ (forall depth cwd fs args verb cmds files wss,
       args_mean args (verb :: cmds) files -> balance_verb verb -> Forall2 (file_says fs) files wss ->
       Forall well_formed (concat wss) -> sums_fit (concat wss) ->
       exists out ps, run depth cwd fs args = Ok out /\ accounts_said (concat wss) ps
         /\ Forall2 (fun p line => exists b, totals_said (below p (entries (concat wss))) b
                     /\ line = lit "Account " ++ shown_name p ++ lit " has balance " ++ shown_amounts b) ps out).
Proof. exact balance_end_refuted. Qed.
Print Assumptions C52_balance_refuted.

(** Two files, three transactions, two commodities, and what is printed. *)
Example C52_case :
  args_mean end_args [lit "bal"] [file_a; file_b] /\ balance_verb (lit "bal")
  /\ Forall2 (file_says end_fs) [file_a; file_b] [[wa]; [wc; wd]]
  /\ Forall well_formed [wa; wc; wd] /\ Forall no_positive_rest [wa; wc; wd] /\ sums_fit [wa; wc; wd]
  /\ run 1 [] end_fs end_args = Ok (map lit [
       "Account  has balance 0 VTI0.00 EUR"; "Account Assets has balance 0 VTI62.34 EUR"; "Account Assets:Broker has balance 10 VTI";
       "Account Assets:Cash has balance 62.34 EUR-10 VTI"; "Account Expenses has balance -62.34 EUR"; "Account Expenses:Food has balance -62.34 EUR"]%string).
Proof.
  split; [exact end_args_mean|]. split; [right; left; reflexivity|]. split; [exact end_files|]. split; [exact end_well_formed|].
  split; [exact end_rest|]. split; [exact end_fit|]. vm_compute. reflexivity.
Qed.

(** ** C53: the accounts are those that postings name, and their parents *)
Theorem C53_read_accounts :
  forall depth cwd fs src j j' q, reachable_journal j -> read_into_journal depth cwd fs src j = Ok j' ->
  (exists_at (j_master j') q <-> exists_at (j_master j) q \/ exists p, In p (all_posts j') /\ prefix_of q (po_account p) = true).
Proof. exact read_accounts. Qed.
Print Assumptions C53_read_accounts.

(** The accounts command on written files. *)
Theorem C53_accounts_command :
  forall depth cwd fs args verb cmds files wss,
  args_mean args (verb :: cmds) files -> accounts_verb verb -> Forall2 (file_says fs) files wss -> Forall well_formed (concat wss) ->
  exists out ps, run depth cwd fs args = Ok out /\ accounts_said (concat wss) ps
    /\ Permutation out (map (fun p => last p []) ps) /\ StronglySorted (fun a b => str_lt a b \/ a = b) out.
Proof. exact accounts_end. Qed.
Print Assumptions C53_accounts_command.

Example C53_case :
  Forall2 (file_says end_fs) [file_a; file_b] [[wa]; [wc; wd]] /\ Forall well_formed [wa; wc; wd]
  /\ args_mean (lit "accounts" :: tl end_args) [lit "accounts"] [file_a; file_b] /\ accounts_verb (lit "accounts")
  /\ run 1 [] end_fs (lit "accounts" :: tl end_args) = Ok (map lit [""; "Assets"; "Broker"; "Cash"; "Expenses"; "Food"]%string).
Proof.
  split; [exact end_files|]. split; [exact end_well_formed|]. split; [|split; [reflexivity|vm_compute; reflexivity]].
  apply am_word; [discriminate|]. apply (am_files 1 [file_a] [lit "-f"; file_b]); [reflexivity|]. apply (am_files 1 [file_b] []); [reflexivity|]. apply am_nil.
Qed.

(** Reading a text into a journal that already has accounts. *)
Example C53_read_case :
  reachable_journal j1 /\ read_into_journal 1 [] (fun _ => None) (text_source whole_text) j1 = Ok whole_j
  /\ get_account (j_master j1) (components food) <> None /\ get_account (j_master whole_j) [lit "Income"] = None.
Proof. split; [exact j1_reachable|]. split; [exact whole_j_ok|]. split; [vm_compute; discriminate|vm_compute; reflexivity]. Qed.
