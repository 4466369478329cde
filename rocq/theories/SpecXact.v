(** Specification vocabulary for transactions. *)
From Coq Require Import List NArith ZArith Bool.
From Verif Require Import Base Decimal Dates Amount Balance Pool Account Journal.
From Verif Require Import SpecDecimal SpecAmount SpecDates SpecPool.
Import ListNotations.

(** What a posting contributes to its transaction: its cost if it has one, else its amount. *)
Definition worth (p : post) : option amount :=
  match po_cost p, po_amount p with
  | Some c, _ => Some c
  | None, a => a
  end.
Definition worths (ps : list post) : list amount :=
  flat_map (fun p => match worth p with Some a => [a] | None => [] end) ps.

(** The transaction sums to zero in commodity [c]. *)
Definition balanced_in (c : comm) (ps : list post) : Prop := total c (worths ps) = 0%Z.
(** Double entry: every posting has an amount and the transaction sums to zero in every commodity. *)
Definition balanced (ps : list post) : Prop :=
  Forall (fun p => po_amount p <> None) ps /\ forall c, balanced_in c ps.

(** Every posting has an amount or a cost. *)
Definition complete (ps : list post) : Prop := Forall (fun p => worth p <> None) ps.
(** Exactly one posting, [p], has neither; it stands between [l1] and [l2]. *)
Definition one_elided (ps l1 : list post) (p : post) (l2 : list post) : Prop :=
  ps = l1 ++ p :: l2 /\ worth p = None /\ complete l1 /\ complete l2.
(** All commodities of the given amounts are [c]. *)
Definition only_in (c : comm) (l : list amount) : Prop := Forall (fun a => a_c a = c) l.

(** The amounts of the postings can be read and their costs too. *)
Definition wf_post (p : post) : Prop :=
  (forall a, po_amount p = Some a -> wf_amt a) /\ (forall a, po_cost p = Some a -> wf_amt a).

(** [p'] is [p] with, at most, a missing amount filled in and a cost put in. *)
Definition same_posting (p p' : post) : Prop :=
  po_account p' = po_account p /\ po_note p' = po_note p
  /\ (forall a, po_amount p = Some a -> po_amount p' = Some a).

(** The first amount written in a transaction. *)
Definition first_amount (ps : list post) (a : amount) : Prop :=
  exists l1 p l2, ps = l1 ++ p :: l2 /\ po_amount p = Some a /\ Forall (fun p => po_amount p = None) l1.

(** The worths of [ps] are in exactly the two commodities [x] and [y], both with a non-zero sum;
    [x] is the one that is priced: the commodity of the first amount, if that is one of the two. *)
Definition two_commodities (ps : list post) (x y : comm) : Prop :=
  x <> y
  /\ (forall c, In c (map a_c (worths ps)) <-> c = x \/ c = y)
  /\ total x (worths ps) <> 0%Z /\ total y (worths ps) <> 0%Z
  /\ exists top, first_amount ps top
      /\ (a_c top = x \/ a_c top <> y /\ exists r, firsts (map a_c (worths ps)) = y :: r).

(** [u] is the price, without sign, of one unit of the first posting in terms of its cost. *)
Definition unit_price (amt cost : amount) (u : Z) : Prop := unit_cost cost amt false u.

(** The price records that follow from the costed postings of a transaction, in order: one for each
    posting with a cost, of the unit price, unless that is zero. *)
Inductive price_records (w : datetime) : list post -> list record -> Prop :=
| pr_nil : price_records w [] []
| pr_plain p ps rs : po_cost p = None -> price_records w ps rs -> price_records w (p :: ps) rs
| pr_free p ps rs a c : po_cost p = Some c -> po_amount p = Some a -> unit_price a c 0%Z ->
    price_records w ps rs -> price_records w (p :: ps) rs
| pr_priced p ps rs a c s t v :
    po_cost p = Some c -> po_amount p = Some a -> a_c a = Some s -> a_c c = Some t ->
    unit_price a c (units v) -> units v <> 0%Z -> wf_dec v ->
    price_records w ps rs -> price_records w (p :: ps) ((s, t, w, v) :: rs).

(** What [rs], recorded one after the other on [p], make of the prices. *)
Definition recorded_on (p : pool) (rs : list record) (p' : pool) : Prop :=
  (forall s, pool_find p' s = pool_find p s)
  /\ forall s t w v, price_on p' s t w v <->
      (exists r1 r2, records_for s t rs = r1 ++ (w, v) :: r2 /\ Forall (fun r => fst r <> w) r2)
      \/ price_on p s t w v /\ Forall (fun r => fst r <> w) (records_for s t rs).

(** [rate] is exactly |Y/X|, and the cost at that rate of each posting in [x] is representable. *)
Definition exact_costs (posts : list post) (x y : comm) (rate : dec) : Prop :=
  wf_dec rate /\ (0 <= units rate)%Z
  /\ (units rate * Z.abs (total x (worths posts)) = Z.abs (total y (worths posts)) * unit1)%Z
  /\ Forall (fun p => forall a, po_amount p = Some a -> a_c a = x ->
                      exists d, wf_dec d /\ (units d * unit1 = units rate * aunits a)%Z) posts.
