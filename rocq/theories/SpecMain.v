(** Specification vocabulary: files that only include others. *)
From Coq Require Import String List NArith ZArith Bool.
From Verif Require Import Base Parser SpecReading.
Import ListNotations.
Open Scope nat_scope.

(** The lines include the files, which exist, in this order, and have nothing but comments and empty lines besides. *)
Inductive lists (cwd : str) (fs : filesystem) : source -> list str -> Prop :=
| ls_nil : lists cwd fs [] []
| ls_inert l src files : inert l -> lists cwd fs src files -> lists cwd fs (l :: src) files
| ls_include l arg f src files : include_line l arg -> hd_error l = Some 105%N -> names_file cwd arg f -> file_path f -> fs f <> None ->
    lists cwd fs src files -> lists cwd fs (Some l :: src) (f :: files).
(** The file [main] is such a file. *)
Definition main_of (cwd : str) (fs : filesystem) (main : str) (files : list str) : Prop :=
  exists src, fs main = Some src /\ lists cwd fs src files.
