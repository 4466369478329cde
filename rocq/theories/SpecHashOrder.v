(** Specification vocabulary: journals whose hash maps have the same entries in another order. *)
From Coq Require Import List NArith ZArith Bool.
From Verif Require Import Base Amount Pool Account Journal Xact Parser HashOrder.
From Verif Require Import SpecAccount.
Import ListNotations.
Open Scope nat_scope.

(** Two maps with the same entries. *)
Definition same_entries {A} (m m' : list (str * A)) : Prop := forall k, lookup k m = lookup k m'.
(** Two trees with the same accounts, which have the same postings. *)
Definition same_accounts (a a' : account) : Prop := ac_name a = ac_name a' /\ forall p, posts_at a p = posts_at a' p.
(** Two journals that differ in the order of the entries of their maps only. *)
Record same_maps (j j' : journal) : Prop := {
  sm_accounts : same_accounts (j_master j) (j_master j');
  sm_commodities : same_entries (p_comms (j_pool j)) (p_comms (j_pool j'));
  sm_annotations : same_entries (p_ann (j_pool j)) (p_ann (j_pool j'));
  sm_graph : p_hist (j_pool j) = p_hist (j_pool j');
  sm_xacts : j_xacts j = j_xacts j' }.
(** The maps of a journal have one entry for each name. *)
Definition one_entry_each (j : journal) : Prop :=
  wf_tree (j_master j) /\ NoDup (map fst (p_comms (j_pool j))) /\ NoDup (map fst (p_ann (j_pool j))).
(** An ordering that rearranges the maps of a journal and does nothing else. *)
Definition rearranges (order : ordering) : Prop :=
  forall d n j, one_entry_each j -> one_entry_each (order d n j) /\ same_maps j (order d n j).
