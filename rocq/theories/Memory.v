(** Model of where things live in memory while a journal is read: the raw pointers of post.rs:12-18
    ([account], [xact_ptr]), account.rs:10-17 ([parent], [posts]), amount.rs:14-18 ([commodity]) and
    history.rs:34 (the nodes of the price graph), and the reallocation of the containers that own the
    things pointed to.

    A container is [Journal::xacts] (a Vec), [Xact::posts] (a Vec), [Account::accounts] (a HashMap) or
    [CommodityPool::commodities] (a HashMap).  They own their elements by value.  Nothing is ever removed
    from one, and elements are added one at a time.  When the capacity is used up, the elements are moved to
    a new allocation and the old one is freed.  The allocations of a container are numbered, so an address
    is a container, the number of the allocation, and the position or key in it.  Moving a [Xact] or an
    [Account] does not move the elements of its own containers.

    The other parts of the journal are not repeated here; [Parser] is the model of these. *)
From Coq Require Import String List NArith ZArith Bool Lia.
From Verif Require Import Base Decimal Amount Scanner Account Journal Parser.
Import ListNotations.
Open Scope nat_scope.

(** Number and capacity of the current allocation; (0, 0) is a container without one. *)
Record alloc := mkAlloc { al_gen : nat; al_cap : nat }.
Definition no_alloc : alloc := mkAlloc 0 0.
(** One more element into a container with [n] elements. *)
Definition room (next : nat -> nat) (a : alloc) (n : nat) : alloc :=
  if n <? al_cap a then a else mkAlloc (S (al_gen a)) (next (al_cap a)).

(** How capacities grow. *)
Record policy := mkPolicy { vec_next : nat -> nat; map_next : nat -> nat }.
(** The standard library: a Vec of elements up to 1024 bytes has the capacities 4, 8, 16, ...; a HashMap
    has 4, 8, 16, ... buckets and room for 3, 7, 14, 28, ... elements. *)
Definition std_policy : policy :=
  mkPolicy (fun c => Nat.max 4 (2 * c)) (fun c => if c <? 3 then 3 else if c <? 7 then 7 else 2 * c).

Inductive addr :=
| AMaster                                         (* the boxed master account *)
| AXact (gen i : nat)
| APost (xi gen k : nat)
| AAcct (parent : path) (gen : nat) (name : str)
| AComm (gen : nat) (symbol : str).

(** The pointers of a posting; [None] is no amount or no cost, [Some None] one with a null pointer. *)
Record mpost := mkMP {
  mp_account : addr; mp_xact : addr; mp_amount : option (option addr); mp_cost : option (option addr) }.
Record mxact := mkMX { mx_alloc : alloc; mx_posts : list mpost }.
Record macct := mkMA { ma_parent : option addr; ma_posts : list addr; ma_alloc : alloc; ma_subs : list str }.
(** Accounts are found by path; [m_nodes] are the node weights of the price graph. *)
Record mem := mkMem {
  m_xalloc : alloc; m_xacts : list mxact;
  m_accts : path -> option macct;
  m_calloc : alloc; m_comms : list str; m_nodes : list addr }.

Fixpoint path_eqb (p q : path) : bool :=
  match p, q with
  | [], [] => true
  | x :: p', y :: q' => str_eqb x y && path_eqb p' q'
  | _, _ => false
  end.
Definition set_acct (f : path -> option macct) (p : path) (a : macct) : path -> option macct :=
  fun q => if path_eqb q p then Some a else f q.
Definition mem_str (s : str) (l : list str) : bool := existsb (str_eqb s) l.

(** journal.rs:28-36 *)
Definition mem_new : mem :=
  mkMem no_alloc [] (set_acct (fun _ => None) [] (mkMA None [] no_alloc [])) no_alloc [] [].

(** The current address of an account. *)
Definition acct_addr (m : mem) (p : path) : addr :=
  match rev p with
  | [] => AMaster
  | n :: up => match m_accts m (rev up) with
               | Some a => AAcct (rev up) (al_gen (ma_alloc a)) n
               | None => AAcct (rev up) 0 n
               end
  end.

Section Policy.
Variable pol : policy.

(** account.rs:36-49 [create_account]: the parent pointer is the address of the account at that time. *)
Definition m_create (m : mem) (p : path) (first : str) : mem :=
  match m_accts m p with
  | None => m
  | Some a =>
      let child := mkMA (Some (acct_addr m p)) [] no_alloc [] in
      let a' := mkMA (ma_parent a) (ma_posts a) (room (map_next pol) (ma_alloc a) (length (ma_subs a)))
                     (ma_subs a ++ [first]) in
      mkMem (m_xalloc m) (m_xacts m) (set_acct (set_acct (m_accts m) p a') (p ++ [first]) child)
            (m_calloc m) (m_comms m) (m_nodes m)
  end.

(** account.rs:100-139 [find_or_create] with [auto_create], from the account at [p]. *)
Fixpoint m_find_or_create (fuel : nat) (m : mem) (p : path) (name : str) : mem * path :=
  match fuel with
  | O => (m, p)
  | S f =>
      let subs := match m_accts m p with Some a => ma_subs a | None => [] end in
      if mem_str name subs then (m, p ++ [name])
      else
        let '(first, rest) := split_first name in
        let m' := if mem_str first subs then m else m_create m p first in
        match rest with
        | [] => (m', p ++ [first])
        | _ => m_find_or_create f m' (p ++ [first]) rest
        end
  end.

(** journal.rs:68-88 [register_account] *)
Definition m_register (m : mem) (name : str) : mem * path := m_find_or_create (S (length name)) m [] name.

(** pool.rs:63-135 [find_or_create], [create] *)
Definition m_commodity (m : mem) (s : str) : mem * option addr :=
  match s with
  | [] => (m, None)
  | _ =>
      if mem_str s (m_comms m) then (m, Some (AComm (al_gen (m_calloc m)) s))
      else
        let al := room (map_next pol) (m_calloc m) (length (m_comms m)) in
        let ptr := AComm (al_gen al) s in
        (mkMem (m_xalloc m) (m_xacts m) (m_accts m) al (m_comms m ++ [s]) (m_nodes m ++ [ptr]), Some ptr)
  end.

(** journal.rs:38-42 [add_xact] *)
Definition m_add_xact (m : mem) : mem :=
  mkMem (room (vec_next pol) (m_xalloc m) (length (m_xacts m))) (m_xacts m ++ [mkMX no_alloc []])
        (m_accts m) (m_calloc m) (m_comms m) (m_nodes m).

(** xact.rs:79-83 [add_post] and parser.rs:465-471: the posting is pushed, its new address is given to the
    account. *)
Definition m_add_post (m : mem) (xi : nat) (p : path) (amount cost : option (option addr)) : mem :=
  match nth_error (m_xacts m) xi, m_accts m p with
  | Some x, Some a =>
      let al := room (vec_next pol) (mx_alloc x) (length (mx_posts x)) in
      let new := mkMP (acct_addr m p) (AXact (al_gen (m_xalloc m)) xi) amount cost in
      let a' := mkMA (ma_parent a) (ma_posts a ++ [APost xi (al_gen al) (length (mx_posts x))])
                     (ma_alloc a) (ma_subs a) in
      mkMem (m_xalloc m) (update_nth xi (fun x => mkMX al (mx_posts x ++ [new])) (m_xacts m))
            (set_acct (m_accts m) p a') (m_calloc m) (m_comms m) (m_nodes m)
  | _, _ => m
  end.

(** parser.rs:415-502 [parse_post], [parse_cost]; the product of a cost and an amount has the pointer of
    the cost, if that is not null (amount.rs:190-199). *)
Definition m_parse_post (m : mem) (xi : nat) (input : str) : mem :=
  match scan_post input with
  | Ok t =>
      let '(m1, p) := m_register m (t_account t) in
      let '(m2, c) := m_commodity m1 (t_symbol t) in
      let has_amount := match d_from_str (t_quantity t) with Some _ => true | None => false end in
      let '(m3, _) := m_commodity m2 (t_price_commodity t) in
      let '(m4, _) := m_commodity m3 (t_symbol t) in
      let has_cost := has_amount && negb (is_empty (t_cost_quantity t)) in
      let '(m5, d) := if has_cost then m_commodity m4 (t_cost_symbol t) else (m4, None) in
      let cost := match d_from_str (t_cost_quantity t) with
                  | Some _ => if has_cost
                              then Some (if t_is_per_unit t then match d with Some _ => d | None => c end else d)
                              else None
                  | None => None
                  end in
      m_add_post m5 xi p (if has_amount then Some c else None) cost
  | _ => m
  end.

(** pool.rs:224-252 [parse_price_directive] *)
Definition m_price (m : mem) (line : str) : mem :=
  match scan_price_directive line with
  | Ok (_, _, c, _, pc) => fst (m_commodity (fst (m_commodity m c)) pc)
  | _ => m
  end.

(** xact.rs:105-278 [finalize]: a posting without value gets an amount in the commodity of the only entry
    of the balance, which is a copy of the first value.  The costs that are implied by two commodities
    (xact.rs:149-196) are not repeated here; they have copies of pointers of the same transaction. *)
Definition m_value (p : mpost) : option (option addr) :=
  match mp_cost p with Some c => Some c | None => mp_amount p end.
Fixpoint m_first_value (ps : list mpost) : option (option addr) :=
  match ps with
  | [] => None
  | p :: ps' => match m_value p with Some v => Some v | None => m_first_value ps' end
  end.
Definition m_fill (ps : list mpost) : list mpost :=
  match m_first_value ps with
  | None => ps
  | Some v => map (fun p => match m_value p with
                            | None => mkMP (mp_account p) (mp_xact p) (Some v) (mp_cost p)
                            | Some _ => p
                            end) ps
  end.
Definition m_finalize (m : mem) (xi : nat) : mem :=
  mkMem (m_xalloc m) (update_nth xi (fun x => mkMX (mx_alloc x) (m_fill (mx_posts x))) (m_xacts m))
        (m_accts m) (m_calloc m) (m_comms m) (m_nodes m).

(** The reading loops of [Parser]. *)
Definition m_xact_line (m : mem) (xi : nat) (line : str) : mode * mem :=
  match line with
  | c :: _ =>
      if (c =? 32)%N then
        match trim_start line with
        | [] => (Top, m_finalize m xi)
        | d :: r => (InXact xi, if (d =? 59)%N then m else m_parse_post m xi (d :: r))
        end
      else (Top, m_finalize m xi)
  | [] => (Top, m)
  end.
Definition m_top_line (inc : str -> mem -> mem) (m : mem) (line : str) : mode * mem :=
  if str_eqb line [13%N; 10%N] || str_eqb line [10%N] then (Top, m)
  else match line with
       | [] => (Top, m)
       | c :: _ =>
           if (c =? 59)%N || (c =? 35)%N || (c =? 42)%N || (c =? 124)%N then (Top, m)
           else if (c =? 45)%N then (Top, m)
           else if is_digit c then (InXact (length (m_xacts m)), m_add_xact m)
           else
             let '(directive, rest) := take_word line in
             (Top, if str_eqb directive (lit "include") then inc (fst (take_word rest)) m else m_price m line)
       end.
Fixpoint m_parse_lines (inc : str -> mem -> mem) (md : mode) (m : mem) (lines : source) : mem :=
  match lines with
  | [] => match md with Top => m | InXact xi => m_finalize m xi end
  | l :: lines' =>
      match md, l with
      | Top, None => m
      | InXact xi, None => m_parse_lines inc Top (m_finalize m xi) lines'
      | Top, Some l => let '(md', m') := m_top_line inc m l in m_parse_lines inc md' m' lines'
      | InXact xi, Some l => let '(md', m') := m_xact_line m xi l in m_parse_lines inc md' m' lines'
      end
  end.
Fixpoint m_include_file (depth : nat) (cwd : str) (fs : filesystem) (arg : str) (m : mem) : mem :=
  match depth with
  | O => m
  | S d => match included cwd fs arg with
           | Ok (Some src) => m_parse_lines (m_include_file d cwd fs) Top m src
           | _ => m
           end
  end.
Definition m_read (depth : nat) (cwd : str) (fs : filesystem) (src : source) (m : mem) : mem :=
  m_parse_lines (m_include_file depth cwd fs) Top m src.
End Policy.

(** Dereferencing: the thing that lives at an address, if the address is in a current allocation. *)
Inductive thing := TAccount (p : path) | TXact (i : nat) | TPost (xi k : nat) | TCommodity (s : str).
Definition deref_addr (m : mem) (a : addr) : option thing :=
  match a with
  | AMaster => Some (TAccount [])
  | AXact g i => if (g =? al_gen (m_xalloc m)) && (i <? length (m_xacts m)) then Some (TXact i) else None
  | APost xi g k =>
      match nth_error (m_xacts m) xi with
      | Some x => if (g =? al_gen (mx_alloc x)) && (k <? length (mx_posts x)) then Some (TPost xi k) else None
      | None => None
      end
  | AAcct p g n =>
      match m_accts m p with
      | Some a => if (g =? al_gen (ma_alloc a)) && mem_str n (ma_subs a) then Some (TAccount (p ++ [n])) else None
      | None => None
      end
  | AComm g s => if (g =? al_gen (m_calloc m)) && mem_str s (m_comms m) then Some (TCommodity s) else None
  end.
