(** Specification vocabulary for the full names that are kept. *)
From Coq Require Import List NArith Bool.
From Verif Require Import Base Account Memory SpecAccount SpecMemory SpecExact NameCache.
Import ListNotations.
Open Scope nat_scope.

(** The accounts registered in a history, in order. *)
Fixpoint registered (rs : list request) : list path :=
  match rs with
  | [] => []
  | Register name :: rs' => components name :: registered rs'
  | AskName _ :: rs' => registered rs'
  end.
(** [p] is one of [ps], or above one of them. *)
Definition present (ps : list path) (p : path) : Prop := exists r, In (p ++ r) ps.
(** When [w] was registered, an account [q ++ [n; m]] that is [p] or above [p] was made, and in it a pointer to
    [q ++ [n]].  Since then, the accounts right below [q] have not been moved. *)
Definition line_stays (pol : policy) (ps : list path) (p : path) : Prop :=
  forall before w after q n m r r' k k',
  ps = before ++ w :: after -> w = q ++ n :: m :: r' -> p = q ++ n :: m :: r -> (forall x, ~ In (q ++ n :: m :: x) before) ->
  accounts_below q (before ++ [w]) k -> accounts_below q ps k' -> ~ moved (map_next pol) k k'.
