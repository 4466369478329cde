(** C56: exactly which balance reports are defined, if there are few commodities. *)
From Coq Require Import String List NArith ZArith Bool Lia.
From Verif Require Import Base Decimal Dates Amount Balance Scanner History Pool Account Journal Xact Parser Report Options Lib Memory Heap.
From Verif Require Import SpecText SpecCommand SpecMemory SpecHeap SpecExact.
From Verif Require Import HeapExactProofs DemoMemory DemoHeap DemoExact.
Import ListNotations.
Open Scope list_scope.
Open Scope nat_scope.

(** More journals than in [C56_command_partial]: accounts may be moved as long as none of them has accounts below it. *)
Theorem C56_balance_partial :
  forall pol strict depth cwd fs args verb cmds files j, grows pol ->
  process_arguments args = Ok (verb :: cmds, files) -> balance_verb verb -> read_journal_files depth cwd fs files = Ok j ->
  few_commodities pol j -> few_postings pol j -> parents_stay pol j -> (strict = true -> all_priced j) ->
  h_run pol strict depth cwd fs args = run depth cwd fs args.
Proof. intros pol strict depth cwd fs args verb cmds files j G. exact (report_defined pol G strict depth cwd fs args verb cmds files j). Qed.
Print Assumptions C56_balance_partial.
Theorem C56_few_children :
  forall pol depth cwd fs files j, grows pol -> read_journal_files depth cwd fs files = Ok j -> few_children pol j -> parents_stay pol j.
Proof. intros pol depth cwd fs files j G. exact (few_stay pol G depth cwd fs files j). Qed.
Print Assumptions C56_few_children.
(** And no others. *)
Theorem C56_balance_exact_partial :
  forall pol strict depth cwd fs args verb cmds files j out, grows pol ->
  process_arguments args = Ok (verb :: cmds, files) -> balance_verb verb -> read_journal_files depth cwd fs files = Ok j ->
  few_commodities pol j -> (strict = true -> all_priced j) -> run depth cwd fs args = Ok out ->
  (h_run pol strict depth cwd fs args = Ok out <-> few_postings pol j /\ parents_stay pol j).
Proof. intros pol strict depth cwd fs args verb cmds files j out G. exact (report_exact pol G strict depth cwd fs args verb cmds files j out). Qed.
Print Assumptions C56_balance_exact_partial.
(** However the containers grow, there is a journal on which the balance command is undefined, also without commodities. *)
Theorem C56_every_growth_refuted :
  forall pol, grows pol -> exists text out, run 0 [] (heap_fs text) (heap_args (lit "bal")) = Ok out
  /\ undefined (h_run pol false 0 [] (heap_fs text) (heap_args (lit "bal"))).
Proof.
  intros pol G. exists (many_text (S (S (vec_next pol 0)))), [lit "Account  has balance 0"; lit "Account A has balance 0"].
  split; [apply many_run; lia|apply many_undefined, G].
Qed.
Print Assumptions C56_every_growth_refuted.

(** Four accounts side by side and an account below one of them: the command is defined if that comes last, and
    undefined if it comes first. *)
Example C56_order_case :
  process_arguments (heap_args (lit "bal")) = Ok ([lit "bal"], [heap_file]) /\ balance_verb (lit "bal")
  /\ read_journal_files 0 [] (heap_fs children_late) [heap_file] = Ok (heap_j children_late)
  /\ few_commodities std_policy (heap_j children_late) /\ all_priced (heap_j children_late)
  /\ few_postings std_policy (heap_j children_late) /\ parents_stay std_policy (heap_j children_late) /\ ~ few_children std_policy (heap_j children_late)
  /\ h_run std_policy true 0 [] (heap_fs children_late) (heap_args (lit "bal")) = run 0 [] (heap_fs children_late) (heap_args (lit "bal"))
  /\ read_journal_files 0 [] (heap_fs children4) [heap_file] = Ok (heap_j children4) /\ few_commodities std_policy (heap_j children4)
  /\ few_postings std_policy (heap_j children4) /\ ~ parents_stay std_policy (heap_j children4).
Proof.
  destruct late_read as (A & B & C). assert (V : balance_verb (lit "bal")) by (right; left; reflexivity).
  assert (P : process_arguments (heap_args (lit "bal")) = Ok ([lit "bal"], [heap_file])) by (vm_compute; reflexivity).
  assert (R : exists out, run 0 [] (heap_fs children_late) (heap_args (lit "bal")) = Ok out /\ h_run std_policy true 0 [] (heap_fs children_late) (heap_args (lit "bal")) = Ok out) by (eexists; split; vm_compute; reflexivity).
  destruct R as (out & R1 & R2). pose proof R2 as X. apply (C56_balance_exact_partial std_policy true 0 [] _ _ _ _ _ _ out std_grows P V A B (fun _ => C) R1) in X as [X1 X2].
  repeat (split; [first [assumption|congruence]|]). split; [|split; [congruence|]].
  - intros F. specialize (F [] _ eq_refl). revert F. vm_compute. intros F. repeat apply le_S_n in F. inversion F.
  - assert (A' : read_journal_files 0 [] (heap_fs children4) [heap_file] = Ok (heap_j children4)) by (vm_compute; reflexivity).
    assert (B' : few_commodities std_policy (heap_j children4)) by (apply comms_ok; vm_compute; reflexivity). assert (F' : few_postings std_policy (heap_j children4)) by (apply posts_ok; vm_compute; reflexivity).
    repeat (split; [assumption|]). intros Y. assert (E : h_run std_policy false 0 [] (heap_fs children4) (heap_args (lit "bal")) = run 0 [] (heap_fs children4) (heap_args (lit "bal"))).
    { apply (C56_balance_partial std_policy false 0 [] _ _ _ _ _ _ std_grows P V A' B' F' Y). discriminate. }
    revert E. vm_compute. discriminate.
Qed.
