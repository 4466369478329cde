(** Specification vocabulary: what the line of an account in the balance report depends on. *)
From Coq Require Import List NArith ZArith Bool.
From Verif Require Import Base Amount Account Journal Xact Parser Report.
From Verif Require Import SpecAccount SpecReport SpecScan SpecOutline SpecShown.
Import ListNotations.
Open Scope nat_scope.

(** The postings of the account [p] itself, in the order of reading. *)
Definition posts_in (j : journal) (p : path) : list post := filter (in_account po_account p) (all_posts j).
(** The two journals have the same accounts at and below [q], with the same amounts in the same order in each. *)
Definition same_below (q : path) (j j' : journal) : Prop :=
  forall p, prefix_of q p = true ->
    (exists_at (j_master j) p <-> exists_at (j_master j') p) /\ map po_amount (posts_in j p) = map po_amount (posts_in j' p).
(** [l] is the line of the account [q] in the report [out] on [j]. *)
Definition line_for (j : journal) (out : list str) (q : path) (l : str) : Prop :=
  exists ps, in_order (j_master j) ps /\ length ps = length out /\ In (q, l) (combine ps out).
(** No posting line names the account [q] or one below it. *)
Definition leaves_alone (q : path) (its : list item) : Prop :=
  forall l a, In l (posting_lines its) -> account_written l a -> prefix_of q (components a) = false.
