(** Specification vocabulary: what a heap stands for, with names in place of pointers. *)
From Coq Require Import List NArith ZArith Bool.
From Verif Require Import Base Decimal Dates Amount History Pool Account Journal Parser Memory Heap.
Import ListNotations.
Open Scope nat_scope.

(** What an address is the address of. *)
Definition symbol_of (a : addr) : str := match a with AComm _ s => s | _ => [] end.
Definition path_of (a : addr) : path := match a with AAcct p _ n => p ++ [n] | _ => [] end.
Definition ref_of (a : addr) : postref := match a with APost xi _ k => (xi, k) | _ => (0, 0) end.

Definition v_amount (a : hamount) : amount := mkAmt (ha_q a) (option_map symbol_of (ha_c a)).
Definition v_annotation (a : hannotation) : annotation := mkAnn (option_map v_amount (hn_price a)) (hn_date a).
Definition v_pool (p : hpool) : pool :=
  mkPool (hp_comms p) (map (fun e => (fst e, v_annotation (snd e))) (hp_ann p)) (mkGraph (map symbol_of (hp_nodes p)) (hp_edges p)).
Fixpoint v_account (a : hacct) : account :=
  let 'HAcct n _ _ cs ps := a in Acct n (map v_account cs) (map ref_of ps).
Definition v_post (p : hpost) : post :=
  mkPost (path_of (ho_account p)) (option_map v_amount (ho_amount p)) (option_map v_amount (ho_cost p)) (ho_note p).
Definition v_xact (x : hxact) : xact := mkXact (hx_date x) (hx_aux x) (hx_payee x) (hx_note x) (map v_post (hx_posts x)).
Definition view (h : heap) : journal := mkJournal (v_account (h_master h)) (v_pool (h_pool h)) (map v_xact (h_xacts h)).

(** Undefined behaviour. *)
Definition undefined {A} (o : outcome A) : Prop := o = Panic PNull.

(** Every amount of a posting has a commodity. *)
Definition all_priced (j : journal) : Prop := forall p a, In p (all_posts j) -> po_amount p = Some a -> a_c a <> None.

(** No more elements than the first allocation has room for. *)
Definition few_commodities (pol : policy) (j : journal) : Prop := length (p_comms (j_pool j)) <= map_next pol 0.
Definition few_postings (pol : policy) (j : journal) : Prop := forall x, In x (j_xacts j) -> length (x_posts x) <= vec_next pol 0.
Definition few_children (pol : policy) (j : journal) : Prop := forall p a, get_account (j_master j) p = Some a -> length (ac_children a) <= map_next pol 0.
