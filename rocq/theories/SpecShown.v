(** Specification vocabulary for the order in which the commodities of a balance are shown. *)
From Coq Require Import String List NArith ZArith Bool Sorted.
From Verif Require Import Base Decimal Amount Balance Account Parser SpecDecimal SpecAmount SpecAccount SpecReport SpecScan SpecWhole SpecEnd.
Import ListNotations.
Open Scope nat_scope.

(** The order in which accounts are added up: the accounts below an account come before it, and siblings (with
    everything below them) are in alphabetical order. *)
Fixpoint visited (p q : path) : Prop :=
  match p, q with
  | [], _ => False
  | _ :: _, [] => True
  | x :: p', y :: q' => str_lt x y \/ x = y /\ visited p' q'
  end.
(** [l'] is [l] in the order of the accounts, and in the given order within each account. *)
Definition in_account {A} (acct : A -> path) (q : path) (x : A) : bool :=
  if list_eq_dec (list_eq_dec N.eq_dec) (acct x) q then true else false.
Definition account_order {A} (acct : A -> path) (l l' : list A) : Prop :=
  StronglySorted (fun x y => visited (acct x) (acct y) \/ acct x = acct y) l'
  /\ forall q, filter (in_account acct q) l' = filter (in_account acct q) l.

(** The commodities of the entries, each once, in the order in which the accounts are added up. *)
Definition entry_account (e : entry) : path := fst (fst e).
Definition entry_comm (e : entry) : comm := snd (fst e).
Definition shown_order (es : list entry) (cs : list comm) : Prop :=
  exists es', account_order entry_account es es' /\ cs = firsts (map entry_comm es').
(** Each account has the same entries in the same order; nothing is said about the order of entries of
    different accounts. *)
Definition same_by_account (es es' : list entry) : Prop :=
  forall q, filter (in_account entry_account q) es = filter (in_account entry_account q) es'.
