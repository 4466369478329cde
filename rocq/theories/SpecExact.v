(** Specification vocabulary: which stored pointers are still those of the elements when everything has been read. *)
From Coq Require Import List NArith Bool.
From Verif Require Import Base Account Journal Memory SpecMemory.
Import ListNotations.
Open Scope nat_scope.

(** The accounts of the postings, in the order in which they are read. *)
Definition accounts_read (j : journal) : list path := map po_account (all_posts j).
(** There are [k] accounts right below the account [q], if [ps] are the accounts that postings name. *)
Definition accounts_below (q : path) (ps : list path) (k : nat) : Prop :=
  exists ns, NoDup ns /\ length ns = k /\ forall n, In n ns <-> exists r, In (q ++ n :: r) ps.
(** [p] is the first to name an account below [q ++ [n]] that is, or is below, [q ++ [n; m]]; that is when a pointer to
    [q ++ [n]] is stored in it.  From then on, the accounts right below [q] are not moved. *)
Definition parents_stay (pol : policy) (j : journal) : Prop :=
  forall before p after q n m r k k',
  accounts_read j = before ++ p :: after -> p = q ++ n :: m :: r -> (forall r', ~ In (q ++ n :: m :: r') before) ->
  accounts_below q (before ++ [p]) k -> accounts_below q (accounts_read j) k' -> ~ moved (map_next pol) k k'.
