(** Specification vocabulary for the commodity pool and its price history. *)
From Coq Require Import List NArith ZArith Bool.
From Verif Require Import Base Decimal Dates Amount History Pool SpecDecimal SpecAmount SpecDates.
Import ListNotations.

(** The graph index under which a symbol is known. *)
Definition index_of (p : pool) (s : str) : option nat := option_map c_index (pool_find p s).

(** The price points recorded between two node indices. *)
Definition points (g : graph) (a b : nat) : list (datetime * dec) :=
  match find_edge (g_edges g) a b with Some m => m | None => [] end.

(** The price of one [s] in [t] recorded for the moment [w]. *)
Definition price_on (p : pool) (s t : str) (w : datetime) (v : dec) : Prop :=
  exists a b, index_of p s = Some a /\ index_of p t = Some b /\ In (w, v) (points (p_hist p) a b).

(** Some price of [s] in [t] has been recorded. *)
Definition priced (p : pool) (s t : str) : Prop := exists w v, price_on p s t w v.

(** Ascending in time. *)
Fixpoint ascending (m : pricemap) : Prop :=
  match m with
  | [] => True
  | (k, _) :: m' => Forall (fun e => before k (fst e)) m' /\ ascending m'
  end.

(** The invariant of a pool built by its operations: one node per commodity and one commodity per
    node, at most one edge per ordered pair of different nodes, price maps not empty, ascending. *)
Record wf_pool (p : pool) : Prop := {
  wp_comm : forall s c, pool_find p s = Some c ->
              c_symbol c = s /\ nth_error (g_nodes (p_hist p)) (c_index c) = Some s;
  wp_node : forall i s, nth_error (g_nodes (p_hist p)) i = Some s ->
              exists c, pool_find p s = Some c /\ c_index c = i;
  wp_keys : NoDup (map fst (p_comms p));
  wp_edges : NoDup (map fst (g_edges (p_hist p)));
  wp_edge : forall a b m, In (a, b, m) (g_edges (p_hist p)) ->
              a <> b /\ (a < length (g_nodes (p_hist p)))%nat /\ (b < length (g_nodes (p_hist p)))%nat
              /\ m <> [] /\ ascending m
              /\ Forall (fun e => valid_dt (fst e) /\ wf_dec (snd e)) m;
  wp_ann : forall s a, lookup s (p_ann p) = Some a ->
              (exists c, pool_find p s = Some c)
              /\ forall pr, an_price a = Some pr -> wf_amt pr
}.

(** Pools that the public operations can build from an empty one ([create] only for symbols that
    do not exist yet, which is how the library calls it). *)
Definition wf_annotation (a : option annotation) : Prop :=
  forall x pr, a = Some x -> an_price x = Some pr -> wf_amt pr.
Inductive reachable_from (p0 : pool) : pool -> Prop :=
| rp_refl : reachable_from p0 p0
| rp_create p s a : reachable_from p0 p -> pool_find p s = None -> wf_annotation a ->
    reachable_from p0 (pool_create p s a)
| rp_find_or_create p s a : reachable_from p0 p -> wf_annotation a ->
    reachable_from p0 (fst (pool_find_or_create p s a))
| rp_add_price p c w x p' : reachable_from p0 p -> valid_dt w -> wf_amt x ->
    pool_add_price p c w x = Ok p' -> reachable_from p0 p'
| rp_directive p line p' : reachable_from p0 p -> parse_price_directive p line = Ok p' ->
    reachable_from p0 p'
| rp_annotation p d q s p' a : reachable_from p0 p -> annotation_parse p d q s = Ok (p', a) ->
    reachable_from p0 p'.
Definition reachable_pool : pool -> Prop := reachable_from pool_new.

(** Every commodity of [p] is in [p'], unchanged. *)
Definition pool_extends (p p' : pool) : Prop :=
  forall s c, pool_find p s = Some c -> pool_find p' s = Some c.

(** The price of one [s] in [t] that [get_direct_price] reports. *)
Definition direct_price (p : pool) (s t : str) : option (datetime * dec) :=
  match index_of p s, index_of p t with
  | Some a, Some b => get_direct_price (p_hist p) a b
  | _, _ => None
  end.

(** Recording a sequence of prices: (commodity, its price commodity, moment, price). *)
Definition record := (str * str * datetime * dec)%type.
Definition record_all (p : pool) (rs : list record) : outcome pool :=
  fold_outcome (fun p '(s, t, w, v) => pool_add_price p (Some s) w (mkAmt v (Some t))) rs p.
(** Records with existing moments and representable prices. *)
Definition valid_records (rs : list record) : Prop :=
  Forall (fun '(s, t, w, v) => valid_dt w /\ wf_dec v) rs.
(** The records for one pair, in order. *)
Definition records_for (s t : str) (rs : list record) : list (datetime * dec) :=
  flat_map (fun '(s', t', w, v) =>
              if comm_dec (Some s') (Some s) then if comm_dec (Some t') (Some t) then [(w, v)] else []
              else []) rs.

(** ** Price chains *)

(** A sequence of nodes each of which is priced in the next one. *)
Definition hop (g : graph) (a b : nat) : Prop := exists m, In (a, b, m) (g_edges g).
Fixpoint chain (g : graph) (a : nat) (path : list nat) (b : nat) : Prop :=
  match path with
  | [] => a = b
  | x :: path' => hop g a x /\ chain g x path' b
  end.

(** The contract of petgraph's [astar] with unit costs: a path with the fewest hops, given by the
    number of hops and the nodes from source to target, or nothing if there is no path. *)
Definition shortest_paths (f : path_finder) : Prop :=
  forall g s t,
    match f g s t with
    | Some (n, path) =>
        exists tail, path = s :: tail /\ length tail = n /\ chain g s tail t
                     /\ forall other, chain g s other t -> (n <= length other)%nat
    | None => forall other, ~ chain g s other t
    end.

(** The same chains in terms of symbols. *)
Fixpoint price_chain (p : pool) (s : str) (path : list str) (t : str) : Prop :=
  match path with
  | [] => s = t
  | x :: path' => priced p s x /\ price_chain p x path' t
  end.

(** The newest price of [s] in [t]. *)
Definition newest_price (p : pool) (s t : str) (w : datetime) (v : dec) : Prop :=
  price_on p s t w v /\ forall w' v', price_on p s t w' v' -> not_after w' w.

(** The newest prices along a chain of symbols. *)
Fixpoint newest_along (p : pool) (s : str) (path : list str) (prices : list (datetime * dec)) : Prop :=
  match path, prices with
  | [], [] => True
  | x :: path', (w, v) :: prices' => newest_price p s x w v /\ newest_along p x path' prices'
  | _, _ => False
  end.

(** [d] is the earliest of [now] and the given moments. *)
Definition earliest (now : datetime) (ws : list datetime) (d : datetime) : Prop :=
  In d (now :: ws) /\ Forall (not_after d) (now :: ws).

(** [r] is the product of [vs] where every partial product is exact. *)
Fixpoint exact_product (acc : Z) (vs : list dec) (r : Z) : Prop :=
  match vs with
  | [] => r = acc
  | v :: vs' => exists d, wf_dec d /\ (units d * unit1 = acc * units v)%Z
                          /\ exact_product (units d) vs' r
  end.

(** [r] is [acc] times all of [vs], rounded after each multiplication. *)
Fixpoint rounded_products (acc : dec) (vs : list dec) (r : dec) : Prop :=
  match vs with
  | [] => r = acc
  | v :: vs' => exists d, rounded_product acc v d /\ rounded_products d vs' r
  end.

(** ** Unit costs *)

(** The price of one unit that follows from a cost: the cost itself when it is given per unit (or
    nothing was bought), otherwise cost divided by amount (rounded), and always without sign. *)
Definition unit_cost (cost amt : amount) (per_unit : bool) (u : Z) : Prop :=
  (per_unit = true \/ aunits amt = 0%Z -> u = Z.abs (aunits cost))
  /\ (per_unit = false -> aunits amt <> 0%Z ->
      exists q, rounded_quotient (a_q cost) (a_q amt) q /\ u = Z.abs (units q)).

(** The lot annotation known for the commodity of an amount. *)
Definition lot_of (p : pool) (amt : amount) : option annotation :=
  match a_c amt with Some s => lookup s (p_ann p) | None => None end.
