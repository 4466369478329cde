(** Specification vocabulary for pointers. *)
From Coq Require Import List NArith ZArith Bool.
From Verif Require Import Base Amount Pool Account Journal Parser Memory.
From Verif Require Import SpecPool SpecAccount SpecJournal.
Import ListNotations.
Open Scope nat_scope.

(** A growth policy makes room. *)
Definition grows (pol : policy) : Prop := (forall c, c < vec_next pol c) /\ (forall c, c < map_next pol c).

(** What a journal and its memory become by reading and by the public operations. *)
Inductive evolves (pol : policy) (j0 : journal) (m0 : mem) : journal -> mem -> Prop :=
| ev_same : evolves pol j0 m0 j0 m0
| ev_read depth cwd fs src j m j' : evolves pol j0 m0 j m -> read_into_journal depth cwd fs src j = Ok j' ->
    evolves pol j0 m0 j' (m_read pol depth cwd fs src m)
| ev_register name j m t p : evolves pol j0 m0 j m -> register_account (j_master j) name = Ok (t, p) ->
    evolves pol j0 m0 (set_master j t) (fst (m_register pol m name))
| ev_commodity s a j m : evolves pol j0 m0 j m -> wf_annotation a ->
    evolves pol j0 m0 (set_pool j (fst (pool_find_or_create (j_pool j) s a))) (fst (m_commodity pol m s)).
(** A journal and its memory. *)
Definition memory (pol : policy) : journal -> mem -> Prop := evolves pol journal_new mem_new.

(** The capacities a container goes through. *)
Definition capacity (next : nat -> nat) (c : nat) : Prop := exists i, c = Nat.iter (S i) next 0.
(** Between [k] elements and [n] elements, the container is moved to another allocation. *)
Definition moved (next : nat -> nat) (k n : nat) : Prop := exists c, capacity next c /\ k <= c < n.

(** What an address is the address of, whether it still is or not. *)
Definition names (a : addr) : thing :=
  match a with
  | AMaster => TAccount []
  | AXact _ i => TXact i
  | APost xi _ k => TPost xi k
  | AAcct p _ n => TAccount (p ++ [n])
  | AComm _ s => TCommodity s
  end.
(** An address that can be dereferenced, and gives what it is the address of. *)
Definition valid (m : mem) (a : addr) : Prop := deref_addr m a = Some (names a).

(** The pointers stored in memory, and what each is for: the account, transaction, amount and cost of
    posting [k] of transaction [xi], posting number [i] of an account, the parent of an account, and the
    nodes of the price graph. *)
Definition posting_at (m : mem) (xi k : nat) (p : mpost) : Prop :=
  exists x, nth_error (m_xacts m) xi = Some x /\ nth_error (mx_posts x) k = Some p.
Inductive stored (m : mem) : addr -> Prop :=
| st_account xi k p : posting_at m xi k p -> stored m (mp_account p)
| st_xact xi k p : posting_at m xi k p -> stored m (mp_xact p)
| st_amount xi k p a : posting_at m xi k p -> mp_amount p = Some (Some a) -> stored m a
| st_cost xi k p a : posting_at m xi k p -> mp_cost p = Some (Some a) -> stored m a
| st_posting p ma a : m_accts m p = Some ma -> In a (ma_posts ma) -> stored m a
| st_parent p ma a : m_accts m p = Some ma -> ma_parent ma = Some a -> stored m a
| st_node a : In a (m_nodes m) -> stored m a.

(** Small containers: no more elements than the first allocation has room for. *)
Definition small (pol : policy) (j : journal) : Prop :=
  length (j_xacts j) <= vec_next pol 0
  /\ Forall (fun x => length (x_posts x) <= vec_next pol 0) (j_xacts j)
  /\ (forall p a, get_account (j_master j) p = Some a -> length (ac_children a) <= map_next pol 0)
  /\ length (p_comms (j_pool j)) <= map_next pol 0.

(** The container of an address: how it grows, and how many elements it has. *)
Definition growth (pol : policy) (a : addr) : nat -> nat :=
  match a with AMaster | AXact _ _ | APost _ _ _ => vec_next pol | AAcct _ _ _ | AComm _ _ => map_next pol end.
Definition elements (j : journal) (a : addr) : nat :=
  match a with
  | AMaster => 1
  | AXact _ _ => length (j_xacts j)
  | APost xi _ _ => match nth_error (j_xacts j) xi with Some x => length (x_posts x) | None => 0 end
  | AAcct p _ _ => match get_account (j_master j) p with Some a => length (ac_children a) | None => 0 end
  | AComm _ _ => length (p_comms (j_pool j))
  end.

(** A pointer to the commodity of an amount. *)
Definition points_to (c : comm) (o : option addr) : Prop :=
  match c, o with
  | None, None => True
  | Some s, Some a => names a = TCommodity s
  | _, _ => False
  end.
Definition amount_points (x : option amount) (o : option (option addr)) : Prop :=
  match x, o with
  | None, None => True
  | Some a, Some c => points_to (a_c a) c
  | _, _ => False
  end.
