(** Specification vocabulary for whole journals. *)
From Coq Require Import List NArith ZArith Bool Sorted.
From Verif Require Import Base Decimal Dates Amount Balance Pool Account Journal Xact Parser.
From Verif Require Import SpecDecimal SpecAmount SpecDates SpecPool SpecAccount SpecXact.
Import ListNotations.
Open Scope nat_scope.

(** Journals that can be built by reading any input, any number of times, and by the public
    operations that add an account or a commodity. *)
Inductive reachable_journal : journal -> Prop :=
| rj_new : reachable_journal journal_new
| rj_read depth cwd fs src j j' : reachable_journal j ->
    read_into_journal depth cwd fs src j = Ok j' -> reachable_journal j'
| rj_register name j m' p : reachable_journal j ->
    register_account (j_master j) name = Ok (m', p) -> reachable_journal (set_master j m')
| rj_commodity s a j : reachable_journal j -> wf_annotation a ->
    reachable_journal (set_pool j (fst (pool_find_or_create (j_pool j) s a))).

(** The account named by the posting with number [snd r] of transaction number [fst r]. *)
Definition account_of (xs : list xact) (r : postref) : option path := option_map po_account (get_post xs r).
(** Journal order. *)
Definition ref_lt (a b : postref) : Prop := fst a < fst b \/ fst a = fst b /\ snd a < snd b.

(** The posting list of each account is exactly the list of the postings that name it, in journal
    order, and every posting's account is in the tree. *)
Definition lists_own_postings (j : journal) : Prop :=
  (forall q l, posts_at (j_master j) q = Some l ->
     StronglySorted ref_lt l /\ forall r, In r l <-> account_of (j_xacts j) r = Some q)
  /\ (forall r q, account_of (j_xacts j) r = Some q -> exists_at (j_master j) q).

(** Amounts refer to commodities of the pool. *)
Definition known (p : pool) (c : comm) : Prop := forall s, c = Some s -> exists d, pool_find p s = Some d.
Definition post_known (p : pool) (q : post) : Prop :=
  (forall a, po_amount q = Some a -> known p (a_c a)) /\ (forall a, po_cost q = Some a -> known p (a_c a)).

(** The postings of [x] are the result of finalising some well-formed postings. *)
Definition finished (x : xact) : Prop :=
  exists d pool pool' ps, x_date x = Some d /\ valid_date d /\ reachable_pool pool /\ Forall wf_post ps
    /\ finalize_posts (Some d) pool ps = Ok (pool', x_posts x).

(** Everything in [p] is still in [p']: commodities with their indices, annotations, and a price for
    every priced pair and moment. *)
Definition pool_keeps (p p' : pool) : Prop :=
  pool_extends p p'
  /\ (forall s a, lookup s (p_ann p) = Some a -> lookup s (p_ann p') = Some a)
  /\ (forall s t w v, price_on p s t w v -> exists v', price_on p' s t w v').

(** Everything in [j] is still in [j'] and what is new comes after it. *)
Definition appends (j j' : journal) : Prop :=
  (exists new, j_xacts j' = j_xacts j ++ new)
  /\ pool_keeps (j_pool j) (j_pool j')
  /\ (forall q l, posts_at (j_master j) q = Some l ->
        exists new, posts_at (j_master j') q = Some (l ++ new)
                    /\ Forall (fun r => length (j_xacts j) <= fst r) new).
