(** Proofs for C106: files that only include others. *)
From Coq Require Import String List NArith ZArith Bool Lia.
From Verif Require Import Base Decimal Dates Amount Balance Scanner Pool Account Journal Xact Parser Report Options Lib.
From Verif Require Import SpecAmount SpecText SpecAccount SpecPool SpecJournal SpecReading SpecCommand SpecTogether SpecMain.
From Verif Require Import BaseFacts JournalFacts ReadingFacts CommandProofs AnyProofs.
Import ListNotations.
Open Scope list_scope.
Open Scope nat_scope.

Theorem main_source depth cwd fs src files : lists cwd fs src files -> forall j,
  read_into_journal (S depth) cwd fs src j = read_files depth cwd fs files j.
Proof.
  induction 1 as [|l src files I L IH|l arg f src files Hl Hd Nf Fp Ff L IH]; intros j.
  - reflexivity.
  - unfold read_into_journal in *. cbn [parse_lines]. rewrite (inert_step _ _ _ I). cbn [bind]. apply IH.
  - unfold read_into_journal in *. cbn [parse_lines]. rewrite (include_step _ _ _ _ Hl Hd). cbn [include_file].
    apply (included_file _ fs) in Nf; [|exact Fp]. rewrite Nf. unfold read_files. cbn [fold_outcome bind]. unfold parse_file at 1.
    destruct (fs f) as [s|]; [|congruence]. unfold read_into_journal.
    destruct (parse_lines (include_file depth cwd fs) Top j s) as [j'| |]; cbn [bind]; [apply IH|reflexivity|reflexivity].
Qed.
Lemma files_app depth cwd fs f1 f2 : forall j, read_files depth cwd fs (f1 ++ f2) j = let* j' := read_files depth cwd fs f1 j in read_files depth cwd fs f2 j'.
Proof.
  unfold read_files. induction f1 as [|f f1 IH]; intros j; [reflexivity|]. cbn [app fold_outcome bind].
  destruct (parse_file depth cwd fs f j) as [j'| |]; cbn [bind]; [apply IH|reflexivity|reflexivity].
Qed.
Theorem main_files depth cwd fs mains filess : Forall2 (main_of cwd fs) mains filess -> forall j,
  read_files (S depth) cwd fs mains j = read_files depth cwd fs (concat filess) j.
Proof.
  induction 1 as [|m files mains filess (src & Hm & L) _ IH]; intros j; [reflexivity|].
  cbn [concat]. rewrite files_app. unfold read_files at 1. cbn [fold_outcome bind]. unfold parse_file at 1. rewrite Hm.
  rewrite (main_source depth cwd fs src files L j). destruct (read_files depth cwd fs files j) as [j'| |]; cbn [bind]; [apply IH|reflexivity|reflexivity].
Qed.
Theorem main_run depth cwd fs args args' cmds mains filess : args_mean args cmds mains -> args_mean args' cmds (concat filess) ->
  Forall2 (main_of cwd fs) mains filess -> run (S depth) cwd fs args = run depth cwd fs args'.
Proof.
  intros A A' H. rewrite (execute_mean _ _ _ _ _ _ A), (execute_mean _ _ _ _ _ _ A'). unfold execute_command.
  change (read_journal_files (S depth) cwd fs mains) with (read_files (S depth) cwd fs mains journal_new).
  change (read_journal_files depth cwd fs (concat filess)) with (read_files depth cwd fs (concat filess) journal_new).
  rewrite (main_files depth cwd fs mains filess H). reflexivity.
Qed.
