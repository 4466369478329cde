(** Model of pool.rs (commodity pool), commodity.rs:11-38 and annotate.rs. *)
From Coq Require Import List NArith ZArith Bool Lia.
From Verif Require Import Base Decimal Dates Amount Scanner History.
Import ListNotations.

(** commodity.rs:11-28; [name] and [note] are never set.  [graph_index] is always set by
    [create]. *)
Record commodity := mkComm { c_symbol : str; c_index : nat; c_annotated : bool }.

(** annotate.rs:14-21 *)
Record annotation := mkAnn { an_price : option amount; an_date : option date }.

(** pool.rs:25-36; the null and default commodity are never used. *)
Record pool := mkPool {
  p_comms : list (str * commodity);
  p_ann : list (str * annotation);
  p_hist : graph }.

(** pool.rs:39-47 [new] *)
Definition pool_new : pool := mkPool [] [] graph_new.

(** pool.rs:63-98 [create] *)
Definition pool_create (p : pool) (symbol : str) (ann : option annotation) : pool :=
  let '(h, i) := add_commodity (p_hist p) symbol in
  let c := mkComm symbol i (match ann with Some _ => true | None => false end) in
  let anns := match ann with Some a => insert symbol a (p_ann p) | None => p_ann p end in
  mkPool (insert symbol c (p_comms p)) anns h.

(** pool.rs:100-102 [find] *)
Definition pool_find (p : pool) (symbol : str) : option commodity := lookup symbol (p_comms p).

(** pool.rs:104-107 [find_index]: unwraps before returning the optional index. *)
Definition pool_find_index (p : pool) (symbol : str) : outcome (option nat) :=
  let* c := unwrap (pool_find p symbol) in Ok (Some (c_index c)).

(** pool.rs:111-135 [find_or_create]: the new pool and the pointer. *)
Definition pool_find_or_create (p : pool) (symbol : str) (ann : option annotation) : pool * comm :=
  match symbol with
  | [] => (p, None)
  | _ =>
      match pool_find p symbol with
      | Some _ =>
          match ann, lookup symbol (p_ann p) with
          | Some a, None =>
              (mkPool (p_comms p) (insert symbol a (p_ann p)) (p_hist p), Some symbol)
          | _, _ => (p, Some symbol)
          end
      | None => (pool_create p symbol ann, Some symbol)
      end
  end.

(** Dereferencing a commodity pointer. *)
Definition deref (p : pool) (c : comm) : outcome commodity :=
  match c with
  | None => Panic PNull
  | Some s => match pool_find p s with Some c => Ok c | None => Panic PNull end
  end.

(** pool.rs:137-139 [get_by_index]: the node weight is a pointer to the commodity. *)
Definition pool_get_by_index (p : pool) (i : nat) : outcome commodity :=
  let* s := get_commodity (p_hist p) i in deref p (Some s).

(** pool.rs:57-59 [add_price] / history.rs:53-85 *)
Definition pool_add_price (p : pool) (source : comm) (when : datetime) (price : amount)
  : outcome pool :=
  let* src := deref p source in
  if comm_eqb (Some (c_symbol src)) (a_c price) then Panic PExplicit
  else match a_c price with
       | None => Panic PUnwrap
       | Some _ =>
           let* dst := deref p (a_c price) in
           Ok (mkPool (p_comms p) (p_ann p)
                 (graph_add_price (p_hist p) (c_index src) (c_index dst) when (a_q price)))
       end.

(** history.rs:262-270 [Price] *)
Record price := mkPrice { pr_commodity : comm; pr_when : datetime; pr_price : amount }.

(** pool.rs:49-52 [add_price_struct] *)
Definition pool_add_price_struct (p : pool) (pr : price) : outcome pool :=
  pool_add_price p (pr_commodity pr) (pr_when pr) (pr_price pr).

(** pool.rs:264-268 [CostBreakdown] *)
Record breakdown := mkBd { bd_amount : amount; bd_final_cost : amount; bd_basis_cost : amount }.

(** pool.rs:152-218 [exchange] *)
Definition exchange (p : pool) (amt cost : amount) (is_per_unit : bool) (moment : datetime)
  : outcome (breakdown * option price) :=
  let* sym := unwrap (a_c amt) in
  let* c := deref p (Some sym) in
  let* c' := pool_get_by_index p (c_index c) in
  let ann := lookup (c_symbol c') (p_ann p) in
  let* per_unit_cost :=
    (if is_per_unit || amt_is_zero amt then Ok (amt_abs cost)
     else let* q := amt_div cost amt in Ok (amt_abs q)) in
  let per_unit_cost :=
    match a_c cost with None => amt_remove_commodity per_unit_cost | Some _ => per_unit_cost end in
  let new_price :=
    if negb (amt_is_zero per_unit_cost) && negb (comm_eqb (a_c amt) (a_c per_unit_cost))
    then Some (mkPrice (a_c amt) moment per_unit_cost) else None in
  let* final_cost := (if is_per_unit then amt_mul cost (amt_abs amt) else Ok cost) in
  let* basis_cost :=
    match ann with
    | Some a => match an_price a with
                | Some ap => amt_mul ap amt
                | None => Ok amt_null
                end
    | None => Ok final_cost
    end in
  Ok (mkBd amt final_cost basis_cost, new_price).

(** pool.rs:224-252 [parse_price_directive] *)
Definition parse_price_directive (p : pool) (line : str) : outcome pool :=
  let* (t_date, t_time, t_comm, t_q, t_pc) := scan_price_directive line in
  let* date := unwrap (parse_date_opt t_date) in
  let* time := (if is_empty t_time then Ok midnight else unwrap (parse_time_opt t_time)) in
  let '(p1, c) := pool_find_or_create p t_comm None in
  let* q := unwrap (d_from_str t_q) in
  let '(p2, cc) := pool_find_or_create p1 t_pc None in
  pool_add_price p2 c (mkDT date time) (mkAmt q cc).

(** annotate.rs:33-56 [Annotation::parse] *)
Definition annotation_parse (p : pool) (t_date t_quantity t_symbol : str)
  : outcome (pool * annotation) :=
  let '(p1, c) := pool_find_or_create p t_symbol None in
  let price := option_map (fun q => mkAmt q c) (d_from_str t_quantity) in
  let* d := (if is_empty t_date then Ok None
             else let* d := unwrap (parse_date_opt t_date) in Ok (Some d)) in
  Ok (p1, mkAnn price d).

(** Price lookup between two commodities of the pool (history.rs:102-147 with the pointers
    resolved through the pool). *)
Definition pool_find_price (astar : path_finder) (p : pool) (source target : comm)
           (now moment oldest : datetime) : outcome (option (datetime * amount)) :=
  if comm_eqb source target then Panic PExplicit
  else
    let* s := deref p source in
    let* t := deref p target in
    find_price astar (p_hist p) (c_index s) (c_index t) (c_symbol t) now moment oldest.
