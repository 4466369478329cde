(** Specification vocabulary for account totals and reports. *)
From Coq Require Import List NArith ZArith Bool Sorted.
From Verif Require Import Base Decimal Amount Balance Account Journal.
From Verif Require Import SpecDecimal SpecAmount SpecAccount SpecJournal.
Import ListNotations.
Open Scope nat_scope.

(** The amounts of some postings. *)
Definition amounts_of (ps : list post) : list amount :=
  flat_map (fun p => match po_amount p with Some a => [a] | None => [] end) ps.
(** The postings of the journal that name the account [q] or an account below it. *)
Definition posts_below (j : journal) (q : path) : list post :=
  filter (fun p => prefix_of q (po_account p)) (all_posts j).
(** The postings of the journal that name exactly the account [q]. *)
Definition posts_exactly (j : journal) (q : path) : list post :=
  filter (fun p => if list_eq_dec (list_eq_dec N.eq_dec) (po_account p) q then true else false) (all_posts j).

(** [b] has one entry per commodity of [l], and each entry is the exact sum. *)
Definition sums_up (b : balance) (l : list amount) : Prop :=
  NoDup (map a_c b) /\ (forall c, In c (map a_c b) <-> In c (map a_c l))
  /\ Forall wf_amt b /\ forall c, holds b c = total c l.

(** Alphabetical order of names, and the order of account paths in which an account comes before the
    accounts below it and siblings (with everything below them) are in alphabetical order. *)
Fixpoint str_lt (a b : str) : Prop :=
  match a, b with
  | _, [] => False
  | [], _ :: _ => True
  | x :: a', y :: b' => (x < y)%N \/ x = y /\ str_lt a' b'
  end.
Fixpoint path_lt (p q : path) : Prop :=
  match p, q with
  | _, [] => False
  | [], _ :: _ => True
  | x :: p', y :: q' => str_lt x y \/ x = y /\ path_lt p' q'
  end.

(** [ps] are the paths of all accounts of the tree, each once, in this order. *)
Definition in_order (m : account) (ps : list path) : Prop :=
  StronglySorted path_lt ps /\ forall p, In p ps <-> exists_at m p.

(** Two trees with the same accounts and postings, regardless of the order of siblings. *)
Definition same_tree (m m' : account) : Prop := forall q, posts_at m q = posts_at m' q.

(** Characters that occur in printed quantities. *)
Definition quantity_char (c : N) : Prop := (48 <= c <= 57)%N \/ c = 45%N \/ c = 46%N.
(** An amount in a commodity whose symbol has no such character. *)
Definition plain_symbol (a : amount) : Prop := exists s, a_c a = Some s /\ Forall (fun c => ~ quantity_char c) s.
