(** Model of the text that main.rs prints.  [plain] says which characters from U+0080 on are printed as they are
    ([char::is_printable] and not a grapheme extension, tables of the standard library). *)
From Coq Require Import String List NArith ZArith Bool Lia.
From Verif Require Import Base Journal Parser Options Lib.
Import ListNotations.
Open Scope N_scope.

(** Lower case hexadecimal digits, as in [\u{7f}]. *)
Definition hex_digit (d : N) : N := if d <? 10 then 48 + d else 87 + d.
Fixpoint hex (fuel : nat) (n : N) : str :=
  match fuel with
  | O => []
  | S f => (if n <? 16 then [] else hex f (n / 16)) ++ [hex_digit (n mod 16)]
  end.
Definition hex_of (n : N) : str := hex (S (N.to_nat (N.log2 n))) n.

(** [char::escape_debug_ext] without escapes of single quotes, as used by [Debug for str]. *)
Definition debug_char (plain : N -> bool) (c : N) : str :=
  if c =? 0 then lit "\0"
  else if c =? 9 then lit "\t"
  else if c =? 13 then lit "\r"
  else if c =? 10 then lit "\n"
  else if c =? 92 then lit "\\"
  else if c =? 34 then [92; 34]
  else if (if c <? 128 then (32 <=? c) && (c <? 127) else plain c) then [c]
  else lit "\u{" ++ hex_of c ++ lit "}".
(** [Debug for str] and [Debug for Vec<String>]. *)
Definition debug_str (plain : N -> bool) (s : str) : str := [34] ++ flat_map (debug_char plain) s ++ [34].
Fixpoint debug_items (plain : N -> bool) (l : list str) : str :=
  match l with
  | [] => []
  | [s] => debug_str plain s
  | s :: l' => debug_str plain s ++ lit ", " ++ debug_items plain l'
  end.
Definition debug_list (plain : N -> bool) (l : list str) : str := lit "[" ++ debug_items plain l ++ lit "]".

Definition println (s : str) : str := s ++ [10].

(** The argument of an include line read between transactions (parser.rs:143-186, 205-236), if the line is one. *)
Definition include_argument (line : str) : option str :=
  match line with
  | [] => None
  | c :: _ =>
      if str_eqb line [13; 10] || str_eqb line [10] || (c =? 59) || (c =? 35) || (c =? 42) || (c =? 124) || (c =? 45) || is_digit c || (c =? 32) || (c =? 9)
      then None
      else let '(directive, rest) := take_word line in
           if str_eqb directive (lit "include")
           then match fst (take_word rest) with [] => None | argument => Some argument end
           else None
  end.
(** The number of messages printed by parser.rs:112 and 277 while the lines are read: one for each line that cannot
    be decoded, until the end of the source or a panic. *)
Fixpoint lines_errors (inc : str -> journal -> outcome journal) (inc_errors : str -> journal -> nat) (m : mode) (j : journal) (lines : source) : nat :=
  match lines with
  | [] => 0%nat
  | l :: lines' =>
      let here := match l, m with
                  | None, _ => 1%nat
                  | Some line, Top => match include_argument line with Some argument => inc_errors argument j | None => 0%nat end
                  | Some _, InXact _ => 0%nat
                  end in
      let later := match step inc m j l with
                   | Ok (Continue m' j') => lines_errors inc inc_errors m' j' lines'
                   | _ => 0%nat
                   end in
      (here + later)%nat
  end.
Fixpoint include_errors (depth : nat) (cwd : str) (fs : filesystem) (arg : str) (j : journal) : nat :=
  match depth with
  | O => 0%nat
  | S d => match included cwd fs arg with
           | Ok (Some src) => lines_errors (include_file d cwd fs) (include_errors d cwd fs) Top j src
           | _ => 0%nat
           end
  end.
Definition read_errors (depth : nat) (cwd : str) (fs : filesystem) (src : source) (j : journal) : nat :=
  lines_errors (include_file depth cwd fs) (include_errors depth cwd fs) Top j src.
Fixpoint files_errors (depth : nat) (cwd : str) (fs : filesystem) (files : list str) (j : journal) : nat :=
  match files with
  | [] => 0%nat
  | f :: files' =>
      match fs f with
      | None => 0%nat
      | Some src => (read_errors depth cwd fs src j
                     + match parse_file depth cwd fs f j with Ok j' => files_errors depth cwd fs files' j' | _ => 0%nat end)%nat
      end
  end.
(** lib.rs:67-72, 83-96: the files are read if there is a command. *)
Definition run_errors (depth : nat) (cwd : str) (fs : filesystem) (args : list str) : nat :=
  match process_arguments args with
  | Ok (_ :: _, files) => files_errors depth cwd fs files journal_new
  | _ => 0%nat
  end.

(** main.rs:6-33: what is printed, and how the program ends.  [args] is [env::args()].  [invalid] is the [{:?}] form
    of the error that [read_line] returns for a line that is not UTF-8. *)
Definition main_prints (plain : N -> bool) (invalid : str) (depth : nat) (cwd : str) (fs : filesystem) (args : list str) : str * outcome unit :=
  let hello := println (lit "Hello, Ledger-rs!") ++ println (lit "You requested " ++ debug_list plain args) in
  match args with
  | [] => (hello, Panic PExplicit)
  | _ => let messages := concat (repeat (println (lit "Error: " ++ invalid)) (run_errors depth cwd fs args)) in
         match run depth cwd fs args with
         | Ok output => (hello ++ messages ++ println (debug_list plain output), Ok tt)
         | Panic p => (hello ++ messages, Panic p)
         | Diverge => (hello ++ messages, Diverge)
         end
  end.
