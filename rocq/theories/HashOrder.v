(** The program with hash maps of any iteration order.  A map is kept as the list of its entries in the order in which
    an iteration gives them (account.rs:15, pool.rs:27-31: [HashMap], whose order differs from run to run).  [order d n j] is the
    journal [j] with the maps rearranged; it is applied before each line (with [n] lines to go, in a file that may
    include others [d] deep) and before the report. *)
From Coq Require Import String List NArith ZArith Bool Lia.
From Verif Require Import Base Decimal Amount Balance Pool Account Journal Xact Parser Report Options Lib.
Import ListNotations.
Open Scope nat_scope.

Definition ordering := nat -> nat -> journal -> journal.

(** parser.rs:108-137, 268-331, see [parse_lines] *)
Fixpoint o_parse_lines (order : nat -> journal -> journal) (inc : str -> journal -> outcome journal) (m : mode) (j : journal)
         (lines : source) : outcome journal :=
  match lines with
  | [] => match m with
          | Top => Ok j
          | InXact xi => finalize (order 0 j) xi
          end
  | l :: lines' =>
      let* n := step inc m (order (length lines) j) l in
      match n with
      | Continue m' j' => o_parse_lines order inc m' j' lines'
      | Stop j' => Ok j'
      end
  end.
(** parser.rs:335-377, see [include_file] *)
Fixpoint o_include_file (order : ordering) (depth : nat) (cwd : str) (fs : filesystem) (arg : str) (j : journal)
  : outcome journal :=
  match depth with
  | O => Diverge
  | S d => let* file := included cwd fs arg in
           match file with
           | None => Ok j
           | Some src => o_parse_lines (order d) (o_include_file order d cwd fs) Top j src
           end
  end.
(** lib.rs:144-147, see [parse_file] *)
Definition o_parse_file (order : ordering) (depth : nat) (cwd : str) (fs : filesystem) (file : str) (j : journal)
  : outcome journal :=
  match fs file with
  | None => Panic PIo
  | Some src => o_parse_lines (order depth) (o_include_file order depth cwd fs) Top j src
  end.
(** lib.rs:129-141, see [read_journal_files] *)
Definition o_read_journal_files (order : ordering) (depth : nat) (cwd : str) (fs : filesystem) (files : list str)
  : outcome journal :=
  fold_outcome (fun j f => o_parse_file order depth cwd fs f j) files journal_new.
(** lib.rs:83-123, see [execute_command] *)
Definition o_execute_command (order : ordering) (depth : nat) (cwd : str) (fs : filesystem)
           (commands files : list str) : outcome (list str) :=
  let* verb := unwrap (nth_error commands 0) in
  let* j := o_read_journal_files order depth cwd fs files in
  let j := order depth 0 j in
  match verb with
  | [] => Panic PUnwrap
  | 97%N :: _ => Ok (sort_strings (report_accounts j))             (* 'a' *)
  | 98%N :: _ =>                                                   (* 'b' *)
      if str_eqb verb (lit "b") || str_eqb verb (lit "bal") || str_eqb verb (lit "balance")
      then balance_report j
      else Panic PTodo
  | _ => Panic PTodo
  end.
(** lib.rs:67-72, see [run] *)
Definition o_run (order : ordering) (depth : nat) (cwd : str) (fs : filesystem) (args : list str)
  : outcome (list str) :=
  let* (commands, files) := process_arguments args in
  o_execute_command order depth cwd fs commands files.
