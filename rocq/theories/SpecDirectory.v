(** Specification vocabulary: the working directory. *)
From Coq Require Import String List NArith Bool.
From Verif Require Import Base Parser.
From Verif Require Import SpecReading.
Import ListNotations.

(** The sources that are read on behalf of [src]: itself and what is included from one of them. *)
Inductive read_from (cwd : str) (fs : filesystem) (src : source) : source -> Prop :=
| rf_self : read_from cwd fs src src
| rf_include s l arg p s' : read_from cwd fs src s -> In (Some l) s -> include_line l arg -> names_file cwd arg p -> fs p = Some s' ->
    read_from cwd fs src s'.
(** All include lines read on behalf of [src] are such that ... *)
Definition all_includes (cwd : str) (fs : filesystem) (src : source) (P : str -> Prop) : Prop :=
  forall s l arg, read_from cwd fs src s -> In (Some l) s -> include_line l arg -> P arg.
(** The name does not depend on the working directory. *)
Definition full_path (arg : str) : Prop := exists c r, arg = c :: r /\ In c (lit "/\~").
(** The name has the same file behind it, or none, in two working directories (and file systems). *)
Definition same_file (cwd : str) (fs : filesystem) (cwd' : str) (fs' : filesystem) (arg : str) : Prop :=
  forall p p', names_file cwd arg p -> names_file cwd' arg p' -> fs p = fs' p'.
