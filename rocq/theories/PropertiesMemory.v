(** C43, C44, C51: the raw pointers between postings, accounts, transactions and commodities.

    The theorems are about every growth policy of Vec and HashMap that makes room; [std_policy] is the one
    of the standard library.  A journal and its memory start empty and are changed by reading texts, by
    registering accounts and by creating commodities ([memory], [evolves]). *)
From Coq Require Import String List NArith ZArith Bool Lia.
From Verif Require Import Base Decimal Amount Pool Account Journal Xact Parser Memory.
From Verif Require Import SpecPool SpecAccount SpecXact SpecJournal SpecText SpecMemory.
From Verif Require Import MemoryProofs DemoMemory.
Import ListNotations.
Open Scope list_scope.
Open Scope nat_scope.

(** ** C43: posting references held by accounts stay valid *)

(** Exactly when: the [i]th pointer of an account is that of its [i]th posting, and it can be dereferenced
    as long as the postings of the transaction have not been moved since it was taken, that is if no
    capacity lies between its position and the number of postings. *)
Theorem C43_posting_pointer_exact :
  forall pol, grows pol -> forall j m p a i xi k, memory pol j m ->
  get_account (j_master j) p = Some a -> nth_error (ac_posts a) i = Some (xi, k) ->
  exists ma ptr x, m_accts m p = Some ma /\ nth_error (ma_posts ma) i = Some ptr /\ names ptr = TPost xi k
    /\ nth_error (j_xacts j) xi = Some x /\ k < length (x_posts x)
    /\ (valid m ptr <-> ~ moved (vec_next pol) (S k) (length (x_posts x))).
Proof. exact posting_pointer. Qed.
Print Assumptions C43_posting_pointer_exact.

(** The full claim holds only for journals whose transactions fit their first allocation. *)
Theorem C43_posting_pointer_valid_partial :
  forall pol, grows pol -> forall j m p ma ptr, memory pol j m -> Forall (fun x => length (x_posts x) <= vec_next pol 0) (j_xacts j) ->
  m_accts m p = Some ma -> In ptr (ma_posts ma) -> valid m ptr.
Proof. exact small_postings. Qed.
Print Assumptions C43_posting_pointer_valid_partial.

(** Whatever the policy, the claim is false. *)
Theorem C43_posting_pointer_refuted :
  forall pol, grows pol ->
  ~ (forall j m p ma ptr, memory pol j m -> m_accts m p = Some ma -> In ptr (ma_posts ma) -> valid m ptr).
Proof. intros pol G H. destruct (postings_dangle pol G) as (j & m & p & ma & ptr & H1 & H2 & H3 & H4). eauto. Qed.
Print Assumptions C43_posting_pointer_refuted.

(** With five postings, the pointers to the first four dangle. *)
Example C43_case :
  memory std_policy five_j five_m /\ map (deref_addr five_m) (match m_accts five_m [lit "Assets"; lit "Cash"] with Some a => ma_posts a | None => [] end)
    = [None; None; None; None; Some (TPost 0 4)]
  /\ memory std_policy four_j four_m /\ map (deref_addr four_m) (match m_accts four_m [lit "Assets"; lit "Cash"] with Some a => ma_posts a | None => [] end)
    = [Some (TPost 0 0); Some (TPost 0 1); Some (TPost 0 2); Some (TPost 0 3)].
Proof. split; [exact five_memory|]. split; [vm_compute; reflexivity|]. split; [exact four_memory|]. vm_compute. reflexivity. Qed.

(** ** C44: account, parent and commodity references stay valid *)

(** Pointers are made for the right thing. *)
Theorem C44_posting_names :
  forall pol j m xi x k p, memory pol j m -> nth_error (j_xacts j) xi = Some x -> nth_error (x_posts x) k = Some p ->
  exists q, posting_at m xi k q /\ names (mp_account q) = TAccount (po_account p) /\ names (mp_xact q) = TXact xi
    /\ amount_points (po_amount p) (mp_amount q).
Proof. exact posting_pointers. Qed.
Print Assumptions C44_posting_names.
Theorem C44_parent_names :
  forall pol j m p n a, memory pol j m -> get_account (j_master j) (p ++ [n]) = Some a ->
  exists ma ptr, m_accts m (p ++ [n]) = Some ma /\ ma_parent ma = Some ptr /\ names ptr = TAccount p.
Proof. exact account_pointers. Qed.
Print Assumptions C44_parent_names.
Theorem C44_node_names :
  forall pol j m, memory pol j m -> m_comms m = map fst (p_comms (j_pool j)) /\ map names (m_nodes m) = map TCommodity (m_comms m).
Proof. exact node_pointers. Qed.
Print Assumptions C44_node_names.

(** Exactly how long a pointer that can be dereferenced stays so: until the container it points into is
    moved.  It is never updated ([C44_not_updated]). *)
Theorem C44_lifetime_exact :
  forall pol, grows pol -> forall j m j' m' a, memory pol j m -> evolves pol j m j' m' -> valid m a ->
  (valid m' a <-> ~ moved (growth pol a) (elements j a) (elements j' a)).
Proof. exact pointer_lifetime. Qed.
Print Assumptions C44_lifetime_exact.
Theorem C44_not_updated :
  forall pol j m j' m' a, memory pol j m -> evolves pol j m j' m' -> stored m a -> stored m' a.
Proof. exact stored_stays. Qed.
Print Assumptions C44_not_updated.

(** The full claim holds only for pointers into containers that fit their first allocation. *)
Theorem C44_pointer_valid_partial :
  forall pol, grows pol -> forall j m a, memory pol j m -> stored m a -> elements j a <= growth pol a 0 -> valid m a.
Proof. exact stored_fits. Qed.
Print Assumptions C44_pointer_valid_partial.
Theorem C44_small_journal_partial :
  forall pol, grows pol -> forall j m a, memory pol j m -> small pol j -> stored m a -> valid m a.
Proof. exact stored_valid. Qed.
Print Assumptions C44_small_journal_partial.

(** Whatever the policy, the claim is false for each kind of pointer. *)
Theorem C44_account_refuted :
  forall pol, grows pol -> ~ (forall j m xi k q, memory pol j m -> posting_at m xi k q -> valid m (mp_account q)).
Proof. intros pol G H. destruct (account_dangles pol G) as (j & m & xi & k & q & H1 & H2 & H3). eauto. Qed.
Print Assumptions C44_account_refuted.
Theorem C44_xact_refuted :
  forall pol, grows pol -> ~ (forall j m xi k q, memory pol j m -> posting_at m xi k q -> valid m (mp_xact q)).
Proof. intros pol G H. destruct (xact_dangles pol G) as (j & m & xi & k & q & H1 & H2 & H3). eauto. Qed.
Print Assumptions C44_xact_refuted.
Theorem C44_parent_refuted :
  forall pol, grows pol -> ~ (forall j m p ma a, memory pol j m -> m_accts m p = Some ma -> ma_parent ma = Some a -> valid m a).
Proof. intros pol G H. destruct (parent_dangles pol G) as (j & m & p & ma & a & H1 & H2 & H3 & H4). eauto. Qed.
Print Assumptions C44_parent_refuted.
Theorem C44_amount_refuted :
  forall pol, grows pol -> ~ (forall j m xi k q a, memory pol j m -> posting_at m xi k q -> mp_amount q = Some (Some a) -> valid m a).
Proof. intros pol G H. destruct (amount_dangles pol G) as (j & m & xi & k & q & a & H1 & H2 & H3 & H4). apply H4. eapply H; eauto. Qed.
Print Assumptions C44_amount_refuted.
Theorem C44_node_refuted :
  forall pol, grows pol -> ~ (forall j m a, memory pol j m -> In a (m_nodes m) -> valid m a).
Proof. intros pol G H. destruct (node_dangles pol G) as (j & m & a & H1 & H2 & H3). eauto. Qed.
Print Assumptions C44_node_refuted.

(** A small journal with stored pointers of each kind; and four commodities, the first three of which have
    dangling nodes. *)
Example C44_case :
  grows std_policy /\ memory std_policy four_j four_m /\ small std_policy four_j /\ length (m_nodes four_m) = 1
  /\ (exists q, posting_at four_m 0 3 q /\ deref_addr four_m (mp_account q) = Some (TAccount [lit "Assets"; lit "Cash"]))
  /\ memory std_policy moves_j moves_m
  /\ map (deref_addr moves_m) (m_nodes moves_m) = [None; None; None; Some (TCommodity (lit "CHF"))].
Proof.
  split; [exact std_grows|]. split; [exact four_memory|]. split; [exact four_small|]. split; [vm_compute; reflexivity|].
  split; [eexists; split; [eexists; split; vm_compute; reflexivity|vm_compute; reflexivity]|]. split; [exact moves_memory|]. vm_compute. reflexivity.
Qed.

(** ** C51: one commodity, one pointer *)

(** [Amount::add], [+], [+=] and [-=] compare pointers (amount.rs:53, 120, 132, 182) and panic if they
    differ.  The full claim holds only for small journals. *)
Theorem C51_one_pointer_partial :
  forall pol j m a b, grows pol -> memory pol j m -> small pol j -> stored m a -> stored m b -> names a = names b -> a = b.
Proof. exact one_pointer. Qed.
Print Assumptions C51_one_pointer_partial.

(** Two amounts in one commodity and one account with different pointers: their sum, the account's total,
    panics. *)
Theorem C51_one_pointer_refuted :
  ~ (forall j m xi k q xi' k' q' a b, memory std_policy j m -> posting_at m xi k q -> posting_at m xi' k' q' ->
       names (mp_account q) = names (mp_account q') -> mp_amount q = Some (Some a) -> mp_amount q' = Some (Some b) ->
       names a = names b -> a = b).
Proof.
  intros H. destruct same_commodity_two_pointers as (xi & k & q & xi' & k' & q' & a & b & P & P' & E1 & E2 & E3 & E4 & N).
  exact (N (H _ _ _ _ _ _ _ _ _ _ moves_memory P P' E1 E2 E3 E4)).
Qed.
Print Assumptions C51_one_pointer_refuted.

Example C51_case :
  memory std_policy four_j four_m /\ small std_policy four_j
  /\ map (fun x => map mp_amount (mx_posts x)) (m_xacts four_m) = [repeat (Some (Some (AComm 1 (lit "EUR")))) 4].
Proof. split; [exact four_memory|]. split; [exact four_small|]. vm_compute. reflexivity. Qed.
