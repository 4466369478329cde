(** Specification vocabulary for the command line. *)
From Coq Require Import String List NArith ZArith Bool Relations.
From Verif Require Import Base Parser SpecReading.
Import ListNotations.
Open Scope nat_scope.

(** A word that is not an option. *)
Definition plain_arg (w : str) : Prop := hd_error w <> Some 45%N.
(** A group of [n] single-letter options [f]: "-f", "-ff", ...; with no letter a lone "-". *)
Definition f_group (n : nat) : str := 45%N :: repeat 102%N n.

(** What an argument list means: the commands and the input files.  Every letter [f] of a group takes
    one of the arguments that follow the group. *)
Inductive args_mean : list str -> list str -> list str -> Prop :=
| am_nil : args_mean [] [] []
| am_word w args cmds files : plain_arg w -> args_mean args cmds files -> args_mean (w :: args) (w :: cmds) files
| am_files n values args cmds files : length values = n -> args_mean args cmds files ->
    args_mean (f_group n :: values ++ args) cmds (values ++ files).

(** The usual case: words and "-f FILE" pairs in any order. *)
Inductive simple_args : list str -> list str -> list str -> Prop :=
| sa_nil : simple_args [] [] []
| sa_word w args cmds files : plain_arg w -> simple_args args cmds files -> simple_args (w :: args) (w :: cmds) files
| sa_file f args cmds files : simple_args args cmds files -> simple_args (lit "-f" :: f :: args) cmds (f :: files).

(** An option argument that cannot be processed when followed by [rest]. *)
Definition bad_option (opt : str) (rest : list str) : Prop :=
  exists letters, opt = 45%N :: letters
  /\ (Exists (fun c => c <> 102%N) letters \/ length rest < length letters).

(** The files exist and consist of the given lines. *)
Definition files_are (fs : filesystem) (files : list str) (sources : list source) : Prop :=
  Forall2 (fun f src => fs f = Some src /\ decodable src) files sources.
(** The files one after the other, each followed by an empty line. *)
Definition joined (sources : list source) : source := flat_map (fun src => src ++ [Some [10%N]]) sources.

Definition balance_verb (verb : str) : Prop := verb = lit "b" \/ verb = lit "bal" \/ verb = lit "balance".
Definition accounts_verb (verb : str) : Prop := hd_error verb = Some 97%N.

(** The files that can be read: the given ones and those they include, directly or not. *)
Definition may_read (cwd : str) (fs : filesystem) (files : list str) (p : str) : Prop :=
  exists f, In f files /\ clos_refl_trans _ (includes cwd fs) f p.
