(** Model of lib.rs:74-80 [run_command].

    [shell_words::split] 1.1.0 is an external crate that is not part of /repo.  Modelled from its
    documentation and sources: a state machine over characters that follows the quoting rules of the
    Unix shell without expansions. *)
From Coq Require Import String List NArith ZArith Bool.
From Verif Require Import Base Parser Lib.
Import ListNotations.

Inductive shell_state := Delimiter | Backslash | Unquoted | UnquotedBackslash | SingleQuoted | DoubleQuoted | DoubleQuotedBackslash | Comment.

Definition is_gap (c : char) : bool := ((c =? 32) || (c =? 9) || (c =? 10))%N.
Definition is_escapable (c : char) : bool := ((c =? 36) || (c =? 96) || (c =? 34) || (c =? 92))%N.
Definition cons_word (w : str) (r : outcome (list str)) : outcome (list str) := let* ws := r in Ok (w :: ws).

(** [word]: the word read so far; unbalanced quotes are an error, which [run_command] unwraps. *)
Fixpoint shell_words (st : shell_state) (word : str) (s : str) : outcome (list str) :=
  match s with
  | [] => match st with
          | Delimiter | Comment => Ok []
          | Unquoted => Ok [word]
          | Backslash | UnquotedBackslash => Ok [word ++ [92%N]]
          | SingleQuoted | DoubleQuoted | DoubleQuotedBackslash => Panic PUnwrap
          end
  | c :: s' =>
      match st with
      | Delimiter =>
          if (c =? 39)%N then shell_words SingleQuoted word s'
          else if (c =? 34)%N then shell_words DoubleQuoted word s'
          else if (c =? 92)%N then shell_words Backslash word s'
          else if is_gap c then shell_words Delimiter word s'
          else if (c =? 35)%N then shell_words Comment word s'
          else shell_words Unquoted (word ++ [c]) s'
      | Backslash =>
          if (c =? 10)%N then shell_words Delimiter word s' else shell_words Unquoted (word ++ [c]) s'
      | Unquoted =>
          if (c =? 39)%N then shell_words SingleQuoted word s'
          else if (c =? 34)%N then shell_words DoubleQuoted word s'
          else if (c =? 92)%N then shell_words UnquotedBackslash word s'
          else if is_gap c then cons_word word (shell_words Delimiter [] s')
          else shell_words Unquoted (word ++ [c]) s'
      | UnquotedBackslash =>
          if (c =? 10)%N then shell_words Unquoted word s' else shell_words Unquoted (word ++ [c]) s'
      | SingleQuoted =>
          if (c =? 39)%N then shell_words Unquoted word s' else shell_words SingleQuoted (word ++ [c]) s'
      | DoubleQuoted =>
          if (c =? 34)%N then shell_words Unquoted word s'
          else if (c =? 92)%N then shell_words DoubleQuotedBackslash word s'
          else shell_words DoubleQuoted (word ++ [c]) s'
      | DoubleQuotedBackslash =>
          if (c =? 10)%N then shell_words DoubleQuoted word s'
          else if is_escapable c then shell_words DoubleQuoted (word ++ [c]) s'
          else shell_words DoubleQuoted (word ++ [92%N; c]) s'
      | Comment => if (c =? 10)%N then shell_words Delimiter word s' else shell_words Comment word s'
      end
  end.
Definition shell_split (s : str) : outcome (list str) := shell_words Delimiter [] s.

(** lib.rs:77-80 [run_command] *)
Definition run_command (depth : nat) (cwd : str) (fs : filesystem) (command : str) : outcome (list str) :=
  let* args := shell_split command in run depth cwd fs args.
