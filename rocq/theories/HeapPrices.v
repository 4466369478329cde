(** Price lookups with raw pointers: history.rs:102-147 as it is called by users of the library, with pointers to
    commodities that they have got from the pool.  The graph is searched by node numbers; the pointers in its nodes are
    not followed. *)
From Coq Require Import String List NArith ZArith Bool.
From Verif Require Import Base Decimal Dates Amount History Pool Account Memory Heap SpecHeap.
Import ListNotations.
Open Scope nat_scope.

(** pool.rs:100-102 [find], as a pointer *)
Definition hp_find (p : hpool) (symbol : str) : option addr :=
  match lookup symbol (hp_comms p) with
  | Some _ => Some (AComm (al_gen (hp_alloc p)) symbol)
  | None => None
  end.
(** [commodity::from_ptr] *)
Definition h_from_ptr (p : hpool) (o : option addr) : outcome commodity :=
  match o with None => Panic PNull | Some a => h_commodity p a end.
(** history.rs:102-147 [find_price].  [calculate_rate] copies the pointer to the target and does not follow it
    (history.rs:156). *)
Definition h_find_price (astar : path_finder) (p : hpool) (source target : option addr) (now moment oldest : datetime)
  : outcome (option (datetime * hamount)) :=
  if ptr_eqb source target then Panic PExplicit
  else
    let* s := h_from_ptr p source in
    let* t := h_from_ptr p target in
    let g := mkGraph (map symbol_of (hp_nodes p)) (hp_edges p) in
    match astar g (c_index s) (c_index t) with
    | None => Ok None
    | Some (distance, path) =>
        let* (d, q) :=
          (if (distance =? 1)%nat then
             match get_direct_price g (c_index s) (c_index t) with
             | Some x => Ok x
             | None => Panic PExplicit
             end
           else calculate_rate g (c_index s) path now) in
        Ok (Some (d, mkHA q target))
    end.
(** pool.rs:100-109 [find_index], 137-139 [get_by_index]: this does follow the pointer in the node. *)
Definition h_by_symbol (p : hpool) (symbol : str) : outcome commodity :=
  let* c := unwrap (lookup symbol (hp_comms p)) in hp_get_by_index p (c_index c).
