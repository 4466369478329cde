(** C103: costs and lots in the balance report. *)
From Coq Require Import String List NArith ZArith Bool Lia.
From Verif Require Import Base Decimal Dates Amount Balance Account Journal Xact Parser Report Options Lib.
From Verif Require Import SpecDecimal SpecAmount SpecAccount SpecJournal SpecScan SpecWhole SpecCommand SpecFull SpecEnd SpecFullEnd SpecOrder SpecLocal SpecCosts.
From Verif Require Import CostsProofs DemoJournal DemoScan DemoFull DemoFullEnd DemoOrder DemoCosts.
Import ListNotations.
Open Scope list_scope.
Open Scope nat_scope.

(** ** C103: costs, lots and the division into transactions make no difference to the balance report *)
(** If two sets of files have the same amounts for the same accounts, none left out, the same text is printed. *)
Theorem C103_run :
  forall d c f args files verb ws d' c' f' args' files' verb' ws',
  said_run d c f args files verb ws -> balance_verb verb -> said_run d' c' f' args' files' verb' ws' -> balance_verb verb' ->
  Forall xact_ok ws -> lots_ok (j_pool journal_new) ws -> Forall xact_ok ws' -> lots_ok (j_pool journal_new) ws' ->
  Forall2 same_amount_written (postings_of ws) (postings_of ws') ->
  forall out, run d c f args = Ok out <-> run d' c' f' args' = Ok out.
Proof. exact costs_aside. Qed.
Print Assumptions C103_run.
(** Whatever was read: journals with the same accounts and in each of them the same amounts in the same order have the same report. *)
Theorem C103_report :
  forall j j', reachable_journal j -> reachable_journal j' -> same_below [] j j' -> forall out, balance_report j = Ok out <-> balance_report j' = Ok out.
Proof. exact same_reports. Qed.
Print Assumptions C103_report.
(** A cost of 100 EUR is written, or one of 82 EUR is implied. *)
Example C103_case :
  said_run 1 (lit "/w") costs_fs (costs_args costs_file) [costs_file] (lit "balance") [x_costs]
  /\ said_run 1 (lit "/w") costs_fs (costs_args plain_file) [plain_file] (lit "balance") [x_plain] /\ balance_verb (lit "balance")
  /\ Forall xact_ok [x_costs] /\ lots_ok (j_pool journal_new) [x_costs] /\ Forall xact_ok [x_plain] /\ lots_ok (j_pool journal_new) [x_plain]
  /\ Forall2 same_amount_written (postings_of [x_costs]) (postings_of [x_plain])
  /\ run 1 (lit "/w") costs_fs (costs_args costs_file)
     = Ok (map lit ["Account  has balance 4 VTI-82 EUR"; "Account Assets has balance 4 VTI-82 EUR"; "Account Assets:Cash has balance 4 VTI-82 EUR"]%string)
  /\ (exists j j', read_into_journal 1 (lit "/w") costs_fs (text_source costs_text) journal_new = Ok j
        /\ read_into_journal 1 (lit "/w") costs_fs (text_source plain_text) journal_new = Ok j'
        /\ map (fun x => map (fun p => option_map (fun a => d_m (a_q a)) (po_cost p)) (x_posts x)) (j_xacts j) = [[Some 100%Z; None]]
        /\ map (fun x => map (fun p => option_map (fun a => d_m (a_q a)) (po_cost p)) (x_posts x)) (j_xacts j') = [[Some 820%Z; None]]).
Proof.
  destruct costs_said as [A B]. split; [exact A|]. split; [exact B|]. clear A B. split; [right; right; reflexivity|].
  split; [exact costs_ok|]. split; [exact costs_lots|]. split; [exact plain_ok|]. split; [exact plain_lots|]. split; [exact costs_same|].
  split; [vm_compute; reflexivity|]. eexists. eexists. split; [vm_compute; reflexivity|]. split; [vm_compute; reflexivity|]. split; vm_compute; reflexivity.
Qed.
