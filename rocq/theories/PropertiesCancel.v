(** C98: a file and then its reversal. *)
From Coq Require Import String List NArith ZArith Bool Lia.
From Verif Require Import Base Decimal Dates Amount Balance Scanner History Pool Account Journal Xact Parser Report Options Lib.
From Verif Require Import SpecText SpecAmount SpecReading SpecAccount SpecReport SpecCommand SpecEnd SpecTogether SpecOpposite SpecCancel.
From Verif Require Import ReadingFacts CommandProofs CancelProofs DemoXact PropertiesOpposite.
Import ListNotations.
Open Scope list_scope.
Open Scope nat_scope.

(** When a source that can be read is followed by the one with the opposite amounts, that can be read too; then nothing is
    left in any account.  Included files have the opposite amounts, too. *)
Theorem C98_source :
  forall depth cwd fs fs' src src' j1, opposite_files fs fs' -> opposite_source src src' ->
  read_into_journal depth cwd fs src journal_new = Ok j1 ->
  exists j, read_into_journal depth cwd fs' src' j1 = Ok j /\ cancelled j1 j.
Proof. exact source_cancelled. Qed.
Print Assumptions C98_source.
(** The same for two files without include lines that are given to the program, ... *)
Theorem C98_files :
  forall depth cwd fs f f' src src' j1, fs f = Some src -> fs f' = Some src' -> no_includes src -> opposite_source src src' ->
  read_journal_files depth cwd fs [f] = Ok j1 -> exists j, read_journal_files depth cwd fs [f; f'] = Ok j /\ cancelled j1 j.
Proof. exact files_cancelled. Qed.
Print Assumptions C98_files.
(** ... which then shows zeros only, for the accounts of the first file. *)
Theorem C98_run :
  forall depth cwd fs f f' src src' j1 args verb cmds, fs f = Some src -> fs f' = Some src' -> no_includes src -> opposite_source src src' ->
  read_journal_files depth cwd fs [f] = Ok j1 -> fit_twice (all_posts j1) -> args_mean args (verb :: cmds) [f; f'] -> balance_verb verb ->
  exists out ps, run depth cwd fs args = Ok out /\ in_order (j_master j1) ps
  /\ Forall2 (fun p line => exists b, nothing_left b /\ line = lit "Account " ++ shown_name p ++ lit " has balance " ++ shown_amounts b) ps out.
Proof. exact run_cancelled. Qed.
Print Assumptions C98_run.

Definition both_fs : filesystem := fun p => if str_eqb p (lit "j") then Some (map Some bought) else if str_eqb p (lit "r") then Some (map Some sold) else None.
Definition first_journal : journal := match read_journal_files 1 [] both_fs [lit "j"] with Ok j => j | _ => journal_new end.
(** Two commodities bought with a lot and prices and sold again: the hypotheses hold, and what is printed. *)
Example C98_case :
  opposite_source (map Some bought) (map Some sold) /\ no_includes (map Some bought)
  /\ read_journal_files 1 [] both_fs [lit "j"] = Ok first_journal /\ fit_twice (all_posts first_journal) /\ length (all_posts first_journal) = 6
  /\ args_mean [lit "b"; lit "-f"; lit "j"; lit "-f"; lit "r"] [lit "b"] [lit "j"; lit "r"]
  /\ run 1 [] both_fs [lit "b"; lit "-f"; lit "j"; lit "-f"; lit "r"] = Ok [lit "Account  has balance 0 EUR0 USD0 VTI"; lit "Account Assets has balance 0 EUR0 USD0 VTI";
       lit "Account Assets:Cash has balance 0 EUR"; lit "Account Assets:Dollars has balance 0 USD"; lit "Account Assets:Stock has balance 0 VTI"].
Proof.
  split; [exact two_trades|]. split; [|split; [vm_compute; reflexivity|split; [|split; [vm_compute; reflexivity|split; [|vm_compute; reflexivity]]]]].
  - intros l arg I L. apply include_line_arg in L as [L _]. unfold bought in I. cbn [map In] in I.
    repeat (destruct I as [I|I]; [injection I as <-; first [reflexivity|vm_compute in L; discriminate L]|]). contradiction.
  - apply (fits_check_ok 2). vm_compute. reflexivity.
  - apply arguments_meaning. vm_compute. reflexivity.
Qed.
(** Not so if an amount is left out (C93): the left-out amount is negative in both files. *)
Example C98_left_out :
  exists out, run 1 [] (fun p => if str_eqb p (lit "j") then Some (map Some given_all) else Some (map Some given_back)) [lit "b"; lit "-f"; lit "j"; lit "-f"; lit "r"] = Ok out
  /\ In (lit "Account Cash has balance -10 EUR") out.
Proof. eexists. split; [vm_compute; reflexivity|]. right. left. reflexivity. Qed.
