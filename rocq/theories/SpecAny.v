(** Specification vocabulary: what the commands show for any files whatever. *)
From Coq Require Import String List NArith ZArith Bool Sorting.
From Verif Require Import Base Decimal Amount Balance Account Journal Parser.
From Verif Require Import SpecAmount SpecReading SpecAccount SpecReport SpecEnd SpecContent.
Import ListNotations.
Open Scope nat_scope.

(** The transactions that the lines of the files tell of, file after file. *)
Definition files_tell (cwd : str) (fs : filesystem) (files : list str) (its : list SpecContent.entries) : Prop :=
  exists itss, Forall2 (fun f its => exists src, fs f = Some src /\ content cwd fs None src its) files itss /\ its = concat itss.
Definition is_posting (e : SpecContent.entry) : bool := match e with Posting_line _ => true | Note_line _ => false end.
Definition posting_lines (its : list SpecContent.entries) : nat := length (filter is_posting (flat_map snd its)).

Definition postings (xs : list xact) : list post := flat_map x_posts xs.
(** The accounts of the postings and those above them, parents first and siblings in alphabetical order. *)
Definition accounts_named (xs : list xact) (ps : list path) : Prop :=
  StronglySorted path_lt ps
  /\ forall p, In p ps <-> p = [] \/ exists x, In x (postings xs) /\ prefix_of p (po_account x) = true.
(** The amounts of the postings to an account and those below it. *)
Definition amounts_below (p : path) (xs : list xact) : list amount :=
  amounts_of (filter (fun x => prefix_of p (po_account x)) (postings xs)).
