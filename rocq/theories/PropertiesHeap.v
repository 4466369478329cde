(** Properties of the program with pointers: [C55] that it does what the program with names does, [C56] when
    its behaviour is defined. *)
From Coq Require Import String List NArith ZArith Bool Lia.
From Verif Require Import Base Decimal Dates Amount Balance Scanner History Pool Account Journal Xact Parser Report Options Lib Memory Heap.
From Verif Require Import SpecMemory SpecHeap.
From Verif Require Import HeapFacts HeapRead HeapReport HeapSafe HeapSafeReport DemoJournal DemoMemory DemoHeap.
Import ListNotations.
Open Scope list_scope.
Open Scope nat_scope.

(** ** C55 *)
Lemma reading_agrees pol strict depth cwd fs files :
  undefined (h_read_files pol strict depth cwd fs files)
  \/ match h_read_files pol strict depth cwd fs files with
     | Ok h => read_journal_files depth cwd fs files = Ok (view h)
     | Panic p => read_journal_files depth cwd fs files = Panic p
     | Diverge => read_journal_files depth cwd fs files = Diverge
     end.
Proof.
  pose proof (files_agree pol strict depth cwd fs files) as F. unfold undefined. destruct (h_read_files pol strict depth cwd fs files) as [h|p|]; cbn [agree] in F.
  - right. apply F.
  - destruct p; auto.
  - auto.
Qed.
Theorem C55_reading :
  forall pol strict depth cwd fs files,
  undefined (h_read_files pol strict depth cwd fs files)
  \/ match h_read_files pol strict depth cwd fs files with
     | Ok h => read_journal_files depth cwd fs files = Ok (view h)
     | Panic p => read_journal_files depth cwd fs files = Panic p
     | Diverge => read_journal_files depth cwd fs files = Diverge
     end.
Proof. exact reading_agrees. Qed.
Print Assumptions C55_reading.

Theorem C55_output :
  forall pol strict depth cwd fs args,
  undefined (h_run pol strict depth cwd fs args) \/ h_run pol strict depth cwd fs args = run depth cwd fs args.
Proof. intros. apply agree_or, run_agree. Qed.
Print Assumptions C55_output.

(** So the growth of containers cannot be seen in the output. *)
Theorem C55_growth_unseen :
  forall pol pol' strict strict' depth cwd fs args,
  ~ undefined (h_run pol strict depth cwd fs args) -> ~ undefined (h_run pol' strict' depth cwd fs args) ->
  h_run pol strict depth cwd fs args = h_run pol' strict' depth cwd fs args.
Proof.
  intros pol pol' strict strict' depth cwd fs args N N'.
  destruct (C55_output pol strict depth cwd fs args) as [U|E]; [contradiction|]. destruct (C55_output pol' strict' depth cwd fs args) as [U|E']; [contradiction|]. congruence.
Qed.
Print Assumptions C55_growth_unseen.

(** Both cases happen: the output of one journal, and the undefined behaviour of another with five postings
    under a policy with room for four, but not under one with room for eight. *)
Definition roomy : policy := mkPolicy (fun c => c + 8) (fun c => c + 8).
Example C55_case :
  h_run std_policy true 0 [] (heap_fs tidy) (heap_args (lit "bal")) = Ok
    [lit "Account  has balance 10 VTI-250 CHF0.00 EUR"; lit "Account Assets has balance 10 VTI-250 CHF5.00 EUR";
     lit "Account Assets:Broker has balance 10 VTI"; lit "Account Assets:Cash has balance -250 CHF5.00 EUR";
     lit "Account Expenses has balance 2.50 EUR"; lit "Account Expenses:Food has balance 2.50 EUR";
     lit "Account Income has balance -7.50 EUR"; lit "Account Income:Interest has balance -7.50 EUR"]
  /\ undefined (h_run std_policy false 0 [] (heap_fs postings5) (heap_args (lit "bal")))
  /\ h_run roomy false 0 [] (heap_fs postings5) (heap_args (lit "bal")) = Ok
       [lit "Account  has balance 0 EUR"; lit "Account Assets has balance -4 EUR"; lit "Account Assets:Cash has balance -4 EUR";
        lit "Account Expenses has balance 4 EUR"; lit "Account Expenses:Food has balance 4 EUR"].
Proof. split; [vm_compute; reflexivity|]. split; vm_compute; reflexivity. Qed.

(** ** C56 *)
Theorem C56_reading_partial :
  forall pol strict depth cwd fs files j, grows pol -> read_journal_files depth cwd fs files = Ok j ->
  few_commodities pol j -> (strict = true -> all_priced j) ->
  exists h, h_read_files pol strict depth cwd fs files = Ok h /\ view h = j.
Proof. intros pol strict depth cwd fs files j G. exact (read_defined pol G strict depth cwd fs files j). Qed.
Print Assumptions C56_reading_partial.

Theorem C56_command_partial :
  forall pol strict depth cwd fs args cmds files j, grows pol ->
  process_arguments args = Ok (cmds, files) -> read_journal_files depth cwd fs files = Ok j ->
  few_commodities pol j -> few_postings pol j -> few_children pol j -> (strict = true -> all_priced j) ->
  h_run pol strict depth cwd fs args = run depth cwd fs args.
Proof. intros pol strict depth cwd fs args cmds files j G. exact (run_defined pol G strict depth cwd fs args cmds files j). Qed.
Print Assumptions C56_command_partial.

(** A fourth commodity. *)
Theorem C56_commodities_refuted :
  ~ (forall strict depth cwd fs files j, read_journal_files depth cwd fs files = Ok j ->
       few_postings std_policy j -> few_children std_policy j -> all_priced j ->
       ~ undefined (h_read_files std_policy strict depth cwd fs files)).
Proof.
  intros H. refine (H false 0 [] (heap_fs commodities4) [heap_file] (heap_j commodities4) _ _ _ _ _).
  - vm_compute. reflexivity.
  - apply posts_ok. vm_compute. reflexivity.
  - apply children_ok. vm_compute. reflexivity.
  - apply priced_ok. vm_compute. reflexivity.
  - vm_compute. reflexivity.
Qed.
Print Assumptions C56_commodities_refuted.

(** A fifth posting. *)
Theorem C56_postings_refuted :
  ~ (forall strict depth cwd fs args cmds files j,
       process_arguments args = Ok (cmds, files) -> read_journal_files depth cwd fs files = Ok j ->
       few_commodities std_policy j -> few_children std_policy j -> all_priced j ->
       ~ undefined (h_run std_policy strict depth cwd fs args)).
Proof.
  intros H. refine (H false 0 [] (heap_fs postings5) (heap_args (lit "bal")) [lit "bal"] [heap_file] (heap_j postings5) _ _ _ _ _ _).
  - vm_compute. reflexivity.
  - vm_compute. reflexivity.
  - apply comms_ok. vm_compute. reflexivity.
  - apply children_ok. vm_compute. reflexivity.
  - apply priced_ok. vm_compute. reflexivity.
  - vm_compute. reflexivity.
Qed.
Print Assumptions C56_postings_refuted.

(** A fourth account beside others. *)
Theorem C56_children_refuted :
  ~ (forall strict depth cwd fs args cmds files j,
       process_arguments args = Ok (cmds, files) -> read_journal_files depth cwd fs files = Ok j ->
       few_commodities std_policy j -> few_postings std_policy j -> all_priced j ->
       ~ undefined (h_run std_policy strict depth cwd fs args)).
Proof.
  intros H. refine (H false 0 [] (heap_fs children4) (heap_args (lit "bal")) [lit "bal"] [heap_file] (heap_j children4) _ _ _ _ _ _).
  - vm_compute. reflexivity.
  - vm_compute. reflexivity.
  - apply comms_ok. vm_compute. reflexivity.
  - apply posts_ok. vm_compute. reflexivity.
  - apply priced_ok. vm_compute. reflexivity.
  - vm_compute. reflexivity.
Qed.
Print Assumptions C56_children_refuted.

(** A null reference, if forming one is what is undefined. *)
Theorem C56_null_refuted :
  ~ (forall depth cwd fs files j, read_journal_files depth cwd fs files = Ok j ->
       few_commodities std_policy j -> few_postings std_policy j -> few_children std_policy j ->
       ~ undefined (h_read_files std_policy true depth cwd fs files)).
Proof.
  intros H. refine (H 0 [] (heap_fs bare) [heap_file] (heap_j bare) _ _ _ _ _).
  - vm_compute. reflexivity.
  - apply comms_ok. vm_compute. reflexivity.
  - apply posts_ok. vm_compute. reflexivity.
  - apply children_ok. vm_compute. reflexivity.
  - vm_compute. reflexivity.
Qed.
Print Assumptions C56_null_refuted.

(** A journal that meets all the conditions, with a cost, a missing amount and three commodities. *)
Example C56_case :
  grows std_policy /\ process_arguments (heap_args (lit "bal")) = Ok ([lit "bal"], [heap_file])
  /\ read_journal_files 0 [] (heap_fs tidy) [heap_file] = Ok (heap_j tidy)
  /\ few_commodities std_policy (heap_j tidy) /\ few_postings std_policy (heap_j tidy) /\ few_children std_policy (heap_j tidy) /\ all_priced (heap_j tidy)
  /\ length (p_comms (j_pool (heap_j tidy))) = 3 /\ map (fun x => length (x_posts x)) (j_xacts (heap_j tidy)) = [4; 2]
  /\ map (fun p => po_cost p) (all_posts (heap_j tidy)) <> repeat None 6.
Proof.
  split; [exact std_grows|]. split; [vm_compute; reflexivity|]. destruct tidy_read as (A & B & C & D & E).
  repeat (split; [assumption|]). split; [vm_compute; reflexivity|]. split; [vm_compute; reflexivity|]. vm_compute. discriminate.
Qed.
