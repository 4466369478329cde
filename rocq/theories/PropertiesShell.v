(** C54: command strings. *)
From Coq Require Import String List NArith ZArith Bool Lia.
From Verif Require Import Base Parser Lib Shell.
From Verif Require Import SpecShell ShellProofs DemoEnd.
Import ListNotations.
Open Scope list_scope.
Open Scope nat_scope.

(** ** C54: a command string is run as the words it consists of *)
Theorem C54_run_command :
  forall depth cwd fs s,
  (forall args, command_words s args -> run_command depth cwd fs s = run depth cwd fs args)
  /\ ((forall args, ~ command_words s args) -> run_command depth cwd fs s = Panic PUnwrap).
Proof. exact run_command_meaning. Qed.
Print Assumptions C54_run_command.

(** The words are unique. *)
Theorem C54_words_unique :
  forall s ws ws', command_words s ws -> command_words s ws' -> ws = ws'.
Proof. exact words_unique. Qed.
Print Assumptions C54_words_unique.

(** Any arguments can be given in a command string, and simple ones as they are. *)
Theorem C54_quoted :
  forall depth cwd fs args, run_command depth cwd fs (quote_all args) = run depth cwd fs args.
Proof. exact run_quoted. Qed.
Print Assumptions C54_quoted.

Theorem C54_simple :
  forall depth cwd fs args, Forall simple_word args -> run_command depth cwd fs (spaced args) = run depth cwd fs args.
Proof. exact run_simple. Qed.
Print Assumptions C54_simple.

Example C54_case :
  Forall simple_word end_args /\ spaced end_args = lit "bal -f /w/a.ledger -f /w/b.ledger"
  /\ run_command 1 [] end_fs (lit "bal -f '/w/a.'""ledger"" -f /w/b.l\edger # both") = run_command 1 [] end_fs (spaced end_args).
Proof.
  split; [|split; vm_compute; reflexivity]. unfold end_args.
  repeat apply Forall_cons; [..|constructor]; (split; [discriminate|]); (split; [|discriminate]);
    repeat apply Forall_cons; try apply Forall_nil; (split; [discriminate|]); (split; [discriminate|]); (split; [discriminate|]); intros [X|[X|X]]; discriminate X.
Qed.
Example C54_words_case :
  shell_split (lit "  a\ b 'c d'""e\""f"" '' # x") = Ok [lit "a b"; lit "c de""f"; []]
  /\ (forall args, ~ command_words (lit "bal 'x") args)
  /\ quote_all [lit "it's"; lit "a b"] = lit "'it'""'""'s' 'a b' ".
Proof.
  split; [vm_compute; reflexivity|]. split; [|vm_compute; reflexivity]. intros args H. apply split_meaning in H. vm_compute in H. discriminate H.
Qed.
