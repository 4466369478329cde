(** Specification vocabulary for price lookups with raw pointers. *)
From Coq Require Import List NArith Bool.
From Verif Require Import Base Decimal Dates Amount Pool Journal Memory Heap.
Import ListNotations.
Open Scope nat_scope.

(** The answer of a lookup by names, with a pointer for the name of the target. *)
Definition with_pointer (target : addr) (r : option (datetime * amount)) : option (datetime * hamount) :=
  match r with
  | Some (d, a) => Some (d, mkHA (a_q a) (Some target))
  | None => None
  end.
(** How many commodities there are. *)
Definition commodities (j : journal) : nat := length (p_comms (j_pool j)).
(** [s] is commodity number [i], in the order in which they were made. *)
Definition made_as (j : journal) (s : str) (i : nat) : Prop := exists c, nth_error (p_comms (j_pool j)) i = Some (s, c).
