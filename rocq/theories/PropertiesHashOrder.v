(** C97: the order in which hash maps give their entries. *)
From Coq Require Import String List NArith ZArith Bool Lia.
From Verif Require Import Base Decimal Dates Amount Balance Scanner History Pool Account Journal Xact Parser Report Options Lib HashOrder OldReport.
From Verif Require Import SpecText SpecAccount SpecValue SpecHashOrder.
From Verif Require Import HashOrderProofs.
Import ListNotations.
Open Scope list_scope.
Open Scope nat_scope.

(** Whatever the order of the maps is, and whenever it changes, the program prints the same or panics in the same way. *)
Theorem C97_run :
  forall order depth cwd fs args, rearranges order -> o_run order depth cwd fs args = run depth cwd fs args.
Proof. intros order depth cwd fs args R. exact (o_running order R depth cwd fs args). Qed.
Print Assumptions C97_run.
(** The journal that is read has the same entries. *)
Theorem C97_reading :
  forall order depth cwd fs files, rearranges order ->
  same_outcome same_maps (read_journal_files depth cwd fs files) (o_read_journal_files order depth cwd fs files).
Proof. intros order depth cwd fs files R. exact (o_reading order R depth cwd fs files). Qed.
Print Assumptions C97_reading.
(** Journals with the same entries are read into alike, ... *)
Theorem C97_source :
  forall depth cwd fs src j j', one_entry_each j -> one_entry_each j' -> same_maps j j' ->
  same_outcome same_maps (read_into_journal depth cwd fs src j) (read_into_journal depth cwd fs src j').
Proof. exact maps_reading. Qed.
Print Assumptions C97_source.
(** ... have the same reports, ... *)
Theorem C97_reports :
  forall j j', one_entry_each j -> one_entry_each j' -> same_maps j j' ->
  balance_report j = balance_report j' /\ report_accounts j = report_accounts j' /\ get_account_balances j = get_account_balances j'.
Proof. exact maps_reports. Qed.
Print Assumptions C97_reports.
(** ... and the same accounts, totals and prices are found in them. *)
Theorem C97_lookups :
  forall j j', one_entry_each j -> one_entry_each j' -> same_maps j j' ->
  (forall name, find_account (j_master j) name = find_account (j_master j') name)
  /\ (forall p, match get_account (j_master j) p, get_account (j_master j') p with
               | Some a, Some a' => account_total (j_xacts j) a = account_total (j_xacts j') a'
               | None, None => True
               | _, _ => False
               end)
  /\ forall astar source target now moment oldest,
     pool_find_price astar (j_pool j) source target now moment oldest = pool_find_price astar (j_pool j') source target now moment oldest.
Proof. exact maps_lookups. Qed.
Print Assumptions C97_lookups.
(** The maps of a journal that has been read have one entry for each name. *)
Theorem C97_one_entry :
  forall depth cwd fs files j, read_journal_files depth cwd fs files = Ok j -> one_entry_each j.
Proof. exact read_one_entry. Qed.
Print Assumptions C97_one_entry.

(** There are such orderings: all maps backwards. *)
Example C97_backwards : rearranges all_backwards.
Proof. exact backwards_rearranges. Qed.
Definition map_text : str := lit "2024-01-01 Buy
  Assets:Broker  10 VTI {5 USD} @ 5 USD
  Assets:Cash  -50 USD

2024-01-02 Pay
  Expenses:Food  7 EUR
  Expenses:Rent  1 GBP
  Assets:Bank  -7 EUR
  Assets:Abroad  -1 GBP
 ; rent
".
Definition map_fs : filesystem := fun p => if str_eqb p (lit "/w/j") then Some (text_source map_text) else None.
Definition map_journal (order : ordering) : journal := match o_read_journal_files order 2 (lit "/w") map_fs [lit "/w/j"] with Ok j => j | _ => journal_new end.
(** The maps are really different, and the output is the same: the amounts of the first line are in the order of the names of
    the accounts. *)
Example C97_case :
  map ac_name (ac_children (j_master (map_journal (fun _ _ j => j)))) = [lit "Assets"; lit "Expenses"]
  /\ map ac_name (ac_children (j_master (map_journal all_backwards))) = [lit "Expenses"; lit "Assets"]
  /\ map fst (p_comms (j_pool (map_journal (fun _ _ j => j)))) = [lit "VTI"; lit "USD"; lit "EUR"; lit "GBP"]
  /\ map fst (p_comms (j_pool (map_journal all_backwards))) <> [lit "VTI"; lit "USD"; lit "EUR"; lit "GBP"]
  /\ o_run all_backwards 2 (lit "/w") map_fs [lit "b"; lit "-f"; lit "/w/j"] = run 2 (lit "/w") map_fs [lit "b"; lit "-f"; lit "/w/j"]
  /\ exists rest, run 2 (lit "/w") map_fs [lit "b"; lit "-f"; lit "/w/j"] = Ok (lit "Account  has balance 0 GBP0 EUR10 VTI-50 USD" :: rest).
Proof.
  split; [vm_compute; reflexivity|]. split; [vm_compute; reflexivity|]. split; [vm_compute; reflexivity|]. split; [vm_compute; discriminate|].
  split; [vm_compute; reflexivity|]. vm_compute. eexists. reflexivity.
Qed.
