(** Specification vocabulary: pools with the same prices, whatever the order in which they were recorded. *)
From Coq Require Import List NArith ZArith Bool.
From Verif Require Import Base Decimal Dates Amount Pool SpecPool.
Import ListNotations.
Open Scope nat_scope.

(** The two know the same commodities and have the same prices for the same moments. *)
Record same_quotes (p p' : pool) : Prop := {
  sq_known : forall s, pool_find p s <> None <-> pool_find p' s <> None;
  sq_prices : forall s t w v, price_on p s t w v <-> price_on p' s t w v }.

(** A chain from [s] to [t] with the fewest prices. *)
Definition shortest_chain (p : pool) (s : str) (path : list str) (t : str) : Prop :=
  price_chain p s path t /\ forall other, price_chain p s other t -> length path <= length other.
(** There are no two different such chains. *)
Definition one_way (p : pool) (s t : str) : Prop :=
  forall x y, shortest_chain p s x t -> shortest_chain p s y t -> x = y.

(** The two pools do not have different prices of the same commodity in the same one for the same moment. *)
Definition prices_agree (p1 p2 : pool) : Prop :=
  forall s t w v1 v2, price_on p1 s t w v1 -> price_on p2 s t w v2 -> v1 = v2.
(** The records do not have different prices of the same commodity in the same one for the same moment. *)
Definition records_agree (rs : list record) : Prop :=
  forall s t w v1 v2, In (s, t, w, v1) rs -> In (s, t, w, v2) rs -> v1 = v2.
