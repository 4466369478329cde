(** Model of history.rs: the graph of commodities with price maps on its edges.  Node indices are
    the positions of [g_nodes]; a node weight is the commodity (its symbol). *)
From Coq Require Import List NArith ZArith Bool Lia.
From Verif Require Import Base Decimal Dates Amount.
Import ListNotations.

(** history.rs:28 [PriceMap = BTreeMap<NaiveDateTime, Quantity>]: ascending in the key. *)
Definition pricemap := list (datetime * dec).

(** [BTreeMap::insert]: replaces the value of an equal key. *)
Fixpoint pm_insert (k : datetime) (v : dec) (m : pricemap) : pricemap :=
  match m with
  | [] => [(k, v)]
  | (k', v') :: m' =>
      match (dt_key k ?= dt_key k')%Z with
      | Lt => (k, v) :: m
      | Eq => (k', v) :: m'
      | Gt => (k', v') :: pm_insert k v m'
      end
  end.

(** history.rs:36 [Graph<*const Commodity, PriceMap>] *)
Record graph := mkGraph { g_nodes : list str; g_edges : list (nat * nat * pricemap) }.
(** history.rs:39-41 [new] *)
Definition graph_new : graph := mkGraph [] [].

(** history.rs:44-46 [add_commodity]: petgraph [add_node] returns the next index. *)
Definition add_commodity (g : graph) (symbol : str) : graph * nat :=
  (mkGraph (g_nodes g ++ [symbol]) (g_edges g), length (g_nodes g)).

(** petgraph [find_edge] together with [edge_weight] (directed). *)
Fixpoint find_edge (es : list (nat * nat * pricemap)) (a b : nat) : option pricemap :=
  match es with
  | [] => None
  | (x, y, m) :: es' => if (x =? a)%nat && (y =? b)%nat then Some m else find_edge es' a b
  end.

(** history.rs:70-84: find the edge or add one with an empty map, then insert the price. *)
Fixpoint put_price (es : list (nat * nat * pricemap)) (a b : nat) (k : datetime) (v : dec)
  : list (nat * nat * pricemap) :=
  match es with
  | [] => [(a, b, pm_insert k v [])]
  | (x, y, m) :: es' => if (x =? a)%nat && (y =? b)%nat then (x, y, pm_insert k v m) :: es'
                        else (x, y, m) :: put_price es' a b k v
  end.
Definition graph_add_price (g : graph) (a b : nat) (k : datetime) (v : dec) : graph :=
  mkGraph (g_nodes g) (put_price (g_edges g) a b k v).

(** history.rs:87-90 [get_commodity] *)
Definition get_commodity (g : graph) (i : nat) : outcome str := unwrap (nth_error (g_nodes g) i).

(** history.rs:246-255 [get_latest_price]: [last_key_value]. *)
Fixpoint get_latest_price (m : pricemap) : option (datetime * dec) :=
  match m with
  | [] => None
  | [x] => Some x
  | _ :: m' => get_latest_price m'
  end.

(** history.rs:204-220 [get_direct_price] *)
Definition get_direct_price (g : graph) (a b : nat) : option (datetime * dec) :=
  match find_edge (g_edges g) a b with
  | Some m => get_latest_price m
  | None => None
  end.

(** history.rs:155-198 [calculate_rate], the loop over the nodes of the path.  [least] starts as
    the current time. *)
Fixpoint rate_loop (g : graph) (source : nat) (path : list nat) (least : datetime) (rate : dec)
  : outcome (datetime * dec) :=
  match path with
  | [] => Ok (least, rate)
  | t :: path' =>
      if (t =? source)%nat then rate_loop g source path' least rate
      else
        let* (d, q) := unwrap (get_direct_price g source t) in
        let least' := if (dt_key d <? dt_key least)%Z then d else least in
        let* rate' := d_mul rate q in
        rate_loop g t path' least' rate'
  end.
Definition calculate_rate (g : graph) (source : nat) (path : list nat) (now : datetime)
  : outcome (datetime * dec) := rate_loop g source path now d_one.

(** petgraph [astar] with unit edge costs and a zero estimate: number of hops and nodes of a
    path.  External; its contract is [shortest_paths] in SpecPool.v. *)
Definition path_finder := graph -> nat -> nat -> option (nat * list nat).

(** history.rs:102-147 [find_price] on node indices.  [moment] and [oldest] are parameters of the
    Rust function but are not used by it. *)
Definition find_price (astar : path_finder) (g : graph) (source target : nat) (target_sym : str)
           (now moment oldest : datetime) : outcome (option (datetime * amount)) :=
  match astar g source target with
  | None => Ok None
  | Some (distance, path) =>
      let* (d, q) :=
        (if (distance =? 1)%nat then
           match get_direct_price g source target with
           | Some x => Ok x
           | None => Panic PExplicit
           end
         else calculate_rate g source path now) in
      Ok (Some (d, mkAmt q (Some target_sym)))
  end.

(** Breadth-first search: an executable path finder used in examples. *)
Definition successors (g : graph) (a : nat) : list nat :=
  map (fun e => snd (fst e)) (filter (fun e => (fst (fst e) =? a)%nat) (g_edges g)).
(** One level: all one-step extensions (reversed paths) to nodes not seen yet. *)
Fixpoint bfs_expand (g : graph) (frontier : list (list nat)) (seen : list nat)
  : list (list nat) * list nat :=
  match frontier with
  | [] => ([], seen)
  | p :: rest =>
      let new := nodup Nat.eq_dec
                   (filter (fun b => negb (existsb (Nat.eqb b) seen))
                           (match p with [] => [] | a :: _ => successors g a end)) in
      let '(ps, seen') := bfs_expand g rest (new ++ seen) in
      (map (fun b => b :: p) new ++ ps, seen')
  end.
Fixpoint bfs_loop (fuel : nat) (g : graph) (target : nat) (frontier : list (list nat))
         (seen : list nat) : option (nat * list nat) :=
  match find (fun p => match p with a :: _ => (a =? target)%nat | [] => false end) frontier with
  | Some p => Some (length p - 1, rev p)%nat
  | None => match fuel with
            | O => None
            | S f => let '(fr, seen') := bfs_expand g frontier seen in bfs_loop f g target fr seen'
            end
  end.
Definition bfs : path_finder :=
  fun g source target => bfs_loop (length (g_edges g)) g target [[source]] [source].
