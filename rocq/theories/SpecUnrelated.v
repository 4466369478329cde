(** Specification vocabulary: which commodities a chain of prices leads to. *)
From Coq Require Import List NArith ZArith Bool.
From Verif Require Import Base Decimal Dates Amount Pool SpecPool.
Import ListNotations.
Open Scope nat_scope.

(** There is a chain of prices from [a] to [b] (with none if they are the same). *)
Definition leads (p : pool) (a b : str) : Prop := exists path, price_chain p a path b.
