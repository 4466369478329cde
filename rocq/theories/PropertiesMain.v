(** C106: files that only include others. *)
From Coq Require Import String List NArith ZArith Bool Lia.
From Verif Require Import Base Decimal Dates Amount Balance Scanner Pool Account Journal Xact Parser Report Options Lib.
From Verif Require Import SpecAmount SpecText SpecAccount SpecPool SpecJournal SpecReading SpecCommand SpecTogether SpecMain.
From Verif Require Import BaseFacts CommandProofs MainProofs DemoQuote.
Import ListNotations.
Open Scope list_scope.
Open Scope nat_scope.

(** Reading a source that only includes files is reading the files one after the other, in success and failure. *)
Theorem C106_source :
  forall depth cwd fs src files, lists cwd fs src files -> forall j,
  read_into_journal (S depth) cwd fs src j = read_files depth cwd fs files j.
Proof. exact main_source. Qed.
Print Assumptions C106_source.
(** A run on such files is the run on the files they include. *)
Theorem C106_run :
  forall depth cwd fs args args' cmds mains filess, args_mean args cmds mains -> args_mean args' cmds (concat filess) ->
  Forall2 (main_of cwd fs) mains filess -> run (S depth) cwd fs args = run depth cwd fs args'.
Proof. exact main_run. Qed.
Print Assumptions C106_run.

Definition main_text : source := text_source (lit "; all years

include q1
include /w/q2
").
Definition lost_text : source := text_source (lit "include q1
include q9
").
Definition main_files_demo : filesystem := fun p =>
  if str_eqb p (lit "/w/main") then Some main_text else if str_eqb p (lit "/w/lost") then Some lost_text else quote_files p.
Definition bal_of (files : list str) : list str := lit "bal" :: flat_map (fun f => [lit "-f"; f]) files.
Lemma bal_mean files : args_mean (bal_of files) [lit "bal"] files.
Proof.
  apply am_word; [intro H; revert H; vm_compute; discriminate|]. induction files as [|f files IH]; [apply am_nil|].
  apply (am_files 1 [f] _ [] files); [reflexivity|exact IH].
Qed.
Lemma q_path n : n <> [] -> n <> lit "." -> ~ In 47%N n -> file_path (lit "/w/" ++ n).
Proof. intros A B C. exists (lit "/w"), n. auto. Qed.
(** A file with a comment, an empty line and two include lines, one with a relative and one with a full name. *)
Example C106_case :
  main_of (lit "/w") main_files_demo (lit "/w/main") (q1 ++ q2)
  /\ run 2 (lit "/w") main_files_demo (bal_of [lit "/w/main"]) = run 1 (lit "/w") main_files_demo (bal_of (q1 ++ q2))
  /\ run 1 (lit "/w") main_files_demo (bal_of (q1 ++ q2)) =
     Ok [lit "Account  has balance 1 EUR-0.1 USD-1.5 AUD"; lit "Account A has balance 1 EUR1 USD"; lit "Account B has balance -1.1 USD-1.5 AUD"].
Proof.
  split.
  { exists main_text. split; [vm_compute; reflexivity|].
    change main_text with [Some (lit "; all years" ++ [10%N]); Some [10%N]; Some (lit "include q1" ++ [10%N]); Some (lit "include /w/q2" ++ [10%N])].
    apply ls_inert; [eexists; split; [reflexivity|]; right; right; eexists _, _; split; [reflexivity|vm_compute; auto]|].
    apply ls_inert; [eexists; split; [reflexivity|]; left; reflexivity|].
    apply (ls_include _ _ _ (lit "q1") (lit "/w/q1")).
    - exists [], [32%N], [10%N]. split; [vm_compute; reflexivity|]. split; [reflexivity|]. split; [discriminate|]. split; [reflexivity|]. split; [|right; eexists _, _; split; reflexivity].
      split; [discriminate|vm_compute; reflexivity].
    - reflexivity.
    - change (lit "/w/q1") with (lit "/w" ++ lit "/" ++ lit "q1"). apply nf_relative.
      + intros c r E. injection E as <- <-. vm_compute. intros [H|[H|[H|[]]]]; discriminate H.
      + discriminate.
      + intros d E. apply (f_equal (@rev _)) in E. rewrite rev_app_distr in E. vm_compute in E. discriminate E.
    - apply (q_path (lit "q1")); [discriminate|discriminate|]. vm_compute. intros [H|[H|[]]]; discriminate H.
    - vm_compute. discriminate.
    - apply (ls_include _ _ _ (lit "/w/q2") (lit "/w/q2")).
      + exists [], [32%N], [10%N]. split; [vm_compute; reflexivity|]. split; [reflexivity|]. split; [discriminate|]. split; [reflexivity|]. split; [|right; eexists _, _; split; reflexivity].
        split; [discriminate|vm_compute; reflexivity].
      + reflexivity.
      + eapply nf_absolute; [reflexivity|]. vm_compute. auto.
      + apply (q_path (lit "q2")); [discriminate|discriminate|]. vm_compute. intros [H|[H|[]]]; discriminate H.
      + vm_compute. discriminate.
      + apply ls_nil. }
  split; vm_compute; reflexivity.
Qed.
(** The files must exist: a missing one is ignored if it is included and ends the program if it is named. *)
Theorem C106_missing_refuted :
  exists fs, run 2 (lit "/w") fs (bal_of [lit "/w/lost"]) = run 2 (lit "/w") fs (bal_of q1)
  /\ (exists out, run 2 (lit "/w") fs (bal_of q1) = Ok out) /\ run 2 (lit "/w") fs (bal_of (q1 ++ [lit "/w/q9"])) = Panic PIo.
Proof. exists main_files_demo. split; [vm_compute; reflexivity|]. split; [eexists; vm_compute; reflexivity|vm_compute; reflexivity]. Qed.
Print Assumptions C106_missing_refuted.
