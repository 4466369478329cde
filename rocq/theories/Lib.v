(** Model of lib.rs:67-156 and main.rs. *)
From Coq Require Import String List NArith ZArith Bool Lia.
From Verif Require Import Base Decimal Amount Balance Account Journal Parser Report Options.
Import ListNotations.

(** lib.rs:129-141 [session_read_journal_files] *)
Definition read_journal_files (depth : nat) (cwd : str) (fs : filesystem) (files : list str)
  : outcome journal :=
  fold_outcome (fun j f => parse_file depth cwd fs f j) files journal_new.

(** [Vec<String>::sort] *)
Definition sort_strings (l : list str) : list str := map fst (sort_key (map (fun s => (s, tt)) l)).

(** lib.rs:83-123 [execute_command] *)
Definition execute_command (depth : nat) (cwd : str) (fs : filesystem)
           (commands files : list str) : outcome (list str) :=
  let* verb := unwrap (nth_error commands 0) in
  let* j := read_journal_files depth cwd fs files in
  match verb with
  | [] => Panic PUnwrap
  | 97%N :: _ => Ok (sort_strings (report_accounts j))             (* 'a' *)
  | 98%N :: _ =>                                                   (* 'b' *)
      if str_eqb verb (lit "b") || str_eqb verb (lit "bal") || str_eqb verb (lit "balance")
      then balance_report j
      else Panic PTodo
  | _ => Panic PTodo
  end.

(** lib.rs:67-72 [run] *)
Definition run (depth : nat) (cwd : str) (fs : filesystem) (args : list str)
  : outcome (list str) :=
  let* (commands, files) := process_arguments args in
  execute_command depth cwd fs commands files.

(** main.rs:6-33: [env::args()] starts with the path of the program, which is passed on. *)
Definition main (depth : nat) (cwd : str) (fs : filesystem) (program : str) (args : list str)
  : outcome (list str) := run depth cwd fs (program :: args).
