(** Specification vocabulary: files that include each other in a circle. *)
From Coq Require Import String List NArith ZArith Bool.
From Verif Require Import Base Journal Parser SpecReading SpecJournal.
Import ListNotations.
Open Scope nat_scope.

(** File [p] consists of [before], which ends outside a transaction, an include line that names [q], and anything. *)
Definition goes_to (cwd : str) (fs : filesystem) (p : str) (before : source) (q : str) : Prop :=
  exists l arg after, fs p = Some (before ++ Some l :: after) /\ decodable before /\ inside before = false
    /\ include_line l arg /\ hd_error l = Some 105%N /\ names_file cwd arg q /\ file_path q.
(** Every file of the set includes a file of the set. *)
Definition circular (cwd : str) (fs : filesystem) (loop : str -> Prop) : Prop :=
  forall p, loop p -> exists before q, loop q /\ goes_to cwd fs p before q.
(** The same, and nothing before these include lines makes the reader panic. *)
Definition circular_quiet (cwd : str) (fs : filesystem) (loop : str -> Prop) : Prop :=
  forall p, loop p -> exists before q, loop q /\ goes_to cwd fs p before q
    /\ forall depth j pn, reachable_journal j -> read_into_journal depth cwd fs before j <> Panic pn.
