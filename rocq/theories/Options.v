(** Model of option.rs:26-115 and 310-329. *)
From Coq Require Import String List NArith ZArith Bool Lia.
From Verif Require Import Base.
Import ListNotations.

(** option.rs:90-107: every option letter takes the next argument as its value. *)
Fixpoint take_values (letters : str) (args : list str) : outcome (list str * list str) :=
  match letters with
  | [] => Ok ([], args)
  | c :: letters' =>
      match args with
      | [] => Panic PExplicit
      | v :: args' => let* (opts, rest) := take_values letters' args' in
                      Ok ([45%N; c] :: v :: opts, rest)
      end
  end.

(** option.rs:32-109: the loop over the arguments; (commands, options).  Each round consumes an
    argument, so the length of the list is enough fuel. *)
Fixpoint split_args (fuel : nat) (args : list str) : outcome (list str * list str) :=
  match args with
  | [] => Ok ([], [])
  | arg :: args' =>
      match fuel with
      | O => Diverge
      | S f =>
          match arg with
          | 45%N :: 45%N :: _ => Panic PTodo
          | 45%N :: letters =>
              let* (opts, rest) := take_values letters args' in
              let* (cmds, opts') := split_args f rest in
              Ok (cmds, opts ++ opts')
          | _ => let* (cmds, opts) := split_args f args' in Ok (arg :: cmds, opts)
          end
      end
  end.

(** option.rs:310-329 [get_input_options]: the file names. *)
Fixpoint get_input_options (options : list str) : outcome (list str) :=
  match options with
  | [] => Ok []
  | opt :: rest =>
      if str_eqb opt (lit "-f") then
        match rest with
        | [] => Panic PExplicit
        | f :: rest' => let* fs := get_input_options rest' in Ok (f :: fs)
        end
      else Panic PExplicit
  end.

(** option.rs:26-115 [process_arguments] *)
Definition process_arguments (args : list str) : outcome (list str * list str) :=
  let* (cmds, opts) := split_args (length args) args in
  let* files := get_input_options opts in
  Ok (cmds, files).
