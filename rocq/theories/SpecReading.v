(** Specification vocabulary for reading files. *)
From Coq Require Import String List NArith ZArith Bool Relations.
From Verif Require Import Base Journal Parser SpecText.
Import ListNotations.
Open Scope nat_scope.

(** Whether a source (given as its lines, [None] for one that cannot be decoded) ends inside a
    transaction.  A transaction starts with a line that begins with a digit and goes on as long as
    lines begin with a space and are not blank. *)
Definition blank (l : str) : bool := forallb is_ws l.
Definition next_inside (inside : bool) (line : option str) : bool :=
  match line with
  | None => false
  | Some l => match l with
              | [] => false
              | c :: _ => if inside then (c =? 32)%N && negb (blank l) else is_digit c
              end
  end.
Definition inside (src : source) : bool := fold_left next_inside src false.

(** Comment, option and empty lines. *)
Definition inert (line : option str) : Prop :=
  exists l, line = Some l /\
  (l = [10%N] \/ l = [13%N; 10%N] \/ exists c r, l = c :: r /\ In c (lit ";#*|-")).
(** A line without content. *)
Definition empty_line (line : option str) : Prop := line = Some [10%N] \/ line = Some [13%N; 10%N].

Definition decodable (src : source) : Prop := Forall (fun l => l <> None) src.
(** Every line of the text has its line feed. *)
Definition complete_lines (t : str) : Prop := t = [] \/ exists r, t = r ++ [10%N].

(** An include line. *)
Definition spaces (s : str) : Prop := forallb is_ws s = true.
Definition include_line (l arg : str) : Prop :=
  exists ws0 ws1 rest, l = ws0 ++ lit "include" ++ ws1 ++ arg ++ rest
    /\ spaces ws0 /\ ws1 <> [] /\ spaces ws1 /\ word arg
    /\ (rest = [] \/ exists c r, rest = c :: r /\ is_ws c = true).
(** The file named by the argument: as it is if it starts with one of [/\~], else in the working directory. *)
Inductive names_file (cwd arg : str) : str -> Prop :=
| nf_absolute c r : arg = c :: r -> In c (lit "/\~") -> names_file cwd arg arg
| nf_relative : (forall c r, arg = c :: r -> ~ In c (lit "/\~")) -> cwd <> [] -> (forall d, cwd <> d ++ lit "/") -> names_file cwd arg (cwd ++ lit "/" ++ arg)
| nf_root d : (forall c r, arg = c :: r -> ~ In c (lit "/\~")) -> cwd = d ++ lit "/" -> names_file cwd arg (cwd ++ arg)
| nf_nowhere : (forall c r, arg = c :: r -> ~ In c (lit "/\~")) -> cwd = [] -> names_file cwd arg arg.
(** A path that ends in the name of something in a directory. *)
Definition file_path (p : str) : Prop :=
  exists dir name, p = dir ++ lit "/" ++ name /\ name <> [] /\ name <> lit "." /\ ~ In 47%N name.
(** File [p] includes file [q]. *)
Definition includes (cwd : str) (fs : filesystem) (p q : str) : Prop :=
  exists src l arg, fs p = Some src /\ In (Some l) src /\ include_line l arg /\ names_file cwd arg q.
(** No file includes itself, directly or through other files. *)
Definition acyclic (cwd : str) (fs : filesystem) : Prop := forall p, ~ clos_trans _ (includes cwd fs) p p.
(** Only the listed files exist. *)
Definition only_files (fs : filesystem) (files : list str) : Prop := forall p, fs p <> None -> In p files.

(** A comment inside a transaction and the note it contains. *)
Definition trimmed (s : str) : Prop :=
  exists c r d q, s = c :: r /\ s = q ++ [d] /\ is_ws c = false /\ is_ws d = false.
Definition note_line (l note : str) : Prop :=
  exists ws0 ws1 ws2, l = 32%N :: ws0 ++ 59%N :: ws1 ++ note ++ ws2
    /\ spaces ws0 /\ spaces ws1 /\ spaces ws2 /\ trimmed note.

(** [j'] is [j] except that the transaction [xi], or its last posting if it has one, has the note. *)
Definition post_with_note (p : post) (note : str) : post := mkPost (po_account p) (po_amount p) (po_cost p) (Some note).
Definition noted (note : str) (x x' : xact) : Prop :=
  x_date x' = x_date x /\ x_aux_date x' = x_aux_date x /\ x_payee x' = x_payee x
  /\ ((x_posts x = [] /\ x_posts x' = [] /\ x_note x' = Some note)
      \/ (x_note x' = x_note x /\ exists ps p, x_posts x = ps ++ [p] /\ x_posts x' = ps ++ [post_with_note p note])).
Definition noted_at (xi : nat) (note : str) (j j' : journal) : Prop :=
  j_master j' = j_master j /\ j_pool j' = j_pool j
  /\ exists xs x x' ys, length xs = xi /\ j_xacts j = xs ++ x :: ys /\ j_xacts j' = xs ++ x' :: ys /\ noted note x x'.
