(** The reader and the reports with raw pointers.

    [Parser], [Xact], [Pool], [Report], [Lib] have names where the code has pointers: the symbol of a
    commodity, the path of an account, the position of a posting.  Here the same functions have addresses
    (see [Memory] for addresses and allocations) and every dereference is checked: one of an address that
    is not in the current allocation of its container, or of the null pointer, is [Panic PNull], which is
    undefined behaviour in Rust.  [C55] is about what the two have to do with each other.

    References ([&T]) that are used while the borrow lasts are not checked; they are the positions at which
    the functions are. *)
From Coq Require Import String List NArith ZArith Bool Lia.
From Verif Require Import Base Decimal Dates Amount Balance Scanner History Pool Account Journal Xact Parser Report Options Lib Memory.
Import ListNotations.
Open Scope nat_scope.

Definition addr_eqb (a b : addr) : bool :=
  match a, b with
  | AMaster, AMaster => true
  | AXact g i, AXact g' i' => (g =? g') && (i =? i')
  | APost x g k, APost x' g' k' => (x =? x') && (g =? g') && (k =? k')
  | AAcct p g n, AAcct p' g' n' => path_eqb p p' && (g =? g') && str_eqb n n'
  | AComm g s, AComm g' s' => (g =? g') && str_eqb s s'
  | _, _ => false
  end.
(** [==] of raw pointers; [None] is the null pointer. *)
Definition ptr_eqb (a b : option addr) : bool :=
  match a, b with
  | None, None => true
  | Some a, Some b => addr_eqb a b
  | _, _ => false
  end.

(** amount.rs:14-18 *)
Record hamount := mkHA { ha_q : dec; ha_c : option addr }.
(** annotate.rs:14-21 *)
Record hannotation := mkHAnn { hn_price : option hamount; hn_date : option date }.
(** pool.rs:25-36, with the price graph of history.rs:36 *)
Record hpool := mkHPool {
  hp_alloc : alloc; hp_comms : list (str * commodity); hp_ann : list (str * hannotation);
  hp_nodes : list addr; hp_edges : list (nat * nat * pricemap) }.
(** account.rs:10-20; the cached [fullname] is not kept *)
Inductive hacct := HAcct (name : str) (parent : option addr) (al : alloc) (children : list hacct) (posts : list addr).
(** post.rs:12-27 *)
Record hpost := mkHPost {
  ho_account : addr; ho_xact : addr; ho_amount : option hamount; ho_cost : option hamount; ho_note : option str }.
(** xact.rs:13-21 *)
Record hxact := mkHXact {
  hx_date : option date; hx_aux : option date; hx_payee : str; hx_note : option str; hx_alloc : alloc; hx_posts : list hpost }.
(** journal.rs:20-25 *)
Record heap := mkHeap { h_master : hacct; h_pool : hpool; h_xalloc : alloc; h_xacts : list hxact }.

Definition hpool_new : hpool := mkHPool no_alloc [] [] [] [].
(** journal.rs:28-36 *)
Definition heap_new : heap := mkHeap (HAcct [] None no_alloc [] []) hpool_new no_alloc [].

Section Program.
(** How containers grow, and whether [&*p] of a null pointer counts as undefined although the reference
    becomes a pointer again at once (amount.rs:85, 126, 170). *)
Variable pol : policy.
Variable strict : bool.

(** ** Commodities *)

(** [&*ptr], ptr.rs *)
Definition h_commodity (p : hpool) (a : addr) : outcome commodity :=
  match a with
  | AComm g s => if g =? al_gen (hp_alloc p)
                 then match lookup s (hp_comms p) with Some c => Ok c | None => Panic PNull end
                 else Panic PNull
  | _ => Panic PNull
  end.
(** amount.rs:65-73 [get_commodity] *)
Definition h_get_commodity (p : hpool) (o : option addr) : outcome (option commodity) :=
  match o with
  | None => Ok None
  | Some a => let* c := h_commodity p a in Ok (Some c)
  end.
(** commodity.rs:11 [derive(PartialEq)] *)
Definition commodity_eqb (c d : commodity) : bool :=
  str_eqb (c_symbol c) (c_symbol d) && (c_index c =? c_index d) && Bool.eqb (c_annotated c) (c_annotated d).
Definition ocomm_eqb (c d : option commodity) : bool :=
  match c, d with
  | None, None => true
  | Some c, Some d => commodity_eqb c d
  | _, _ => false
  end.
(** [Some(&*self.commodity)] of amount.rs:85, 170 *)
Definition h_ref (p : hpool) (o : option addr) : outcome unit :=
  match o with
  | None => if strict then Panic PNull else Ok tt
  | Some a => let* _ := h_commodity p a in Ok tt
  end.

(** ** Amounts: amount.rs:32-199 *)
Definition ha_is_zero (a : hamount) : bool := d_is_zero (ha_q a).
Definition ha_abs (a : hamount) : hamount := mkHA (d_set_pos (ha_q a)) (ha_c a).
Definition ha_add (a b : hamount) : outcome hamount :=
  if ptr_eqb (ha_c a) (ha_c b) then
    if d_is_zero (ha_q b) then Ok a
    else let* q := d_add (ha_q a) (ha_q b) in Ok (mkHA q (ha_c a))
  else Panic PExplicit.
Definition ha_minus (a b : hamount) : outcome hamount :=
  if ptr_eqb (ha_c a) (ha_c b) then
    let* q := d_sub (ha_q a) (ha_q b) in Ok (mkHA q (ha_c a))
  else Panic PExplicit.
Definition ha_inverse (p : hpool) (a : hamount) : outcome hamount :=
  let q := if d_is_sign_positive (ha_q a) then d_set_neg (ha_q a) else ha_q a in
  let* _ := h_ref p (ha_c a) in Ok (mkHA q (ha_c a)).
Definition ptr_or (a b : option addr) : option addr := match a with None => b | Some _ => a end.
Definition ha_div (a b : hamount) : outcome hamount :=
  let* q := d_div (ha_q a) (ha_q b) in Ok (mkHA q (ptr_or (ha_c a) (ha_c b))).
Definition ha_mul (p : hpool) (a b : hamount) : outcome hamount :=
  let* q := d_mul (ha_q a) (ha_q b) in
  let c := ptr_or (ha_c a) (ha_c b) in
  let* _ := h_ref p c in Ok (mkHA q c).
(** [MulAssign] does not dereference. *)
Definition ha_mul_assign (a b : hamount) : outcome hamount :=
  let* q := d_mul (ha_q a) (ha_q b) in Ok (mkHA q (ptr_or (ha_c a) (ha_c b))).

(** ** Balances: balance.rs:40-91 *)
Fixpoint hb_add (p : hpool) (b : list hamount) (a : hamount) : outcome (list hamount) :=
  match b with
  | [] => Ok [a]
  | x :: b' =>
      let* c := h_get_commodity p (ha_c x) in
      let* d := h_get_commodity p (ha_c a) in
      if ocomm_eqb c d then let* x' := ha_add x a in Ok (x' :: b')
      else let* b'' := hb_add p b' a in Ok (x :: b'')
  end.
Fixpoint hb_sub (p : hpool) (b : list hamount) (a : hamount) : outcome (list hamount) :=
  match b with
  | [] => let* i := ha_inverse p a in Ok [i]
  | x :: b' =>
      let* c := h_get_commodity p (ha_c x) in
      let* d := h_get_commodity p (ha_c a) in
      if ocomm_eqb c d then let* x' := ha_minus x a in Ok (x' :: b')
      else let* b'' := hb_sub p b' a in Ok (x :: b'')
  end.
Definition hb_add_bal (p : hpool) (b o : list hamount) : outcome (list hamount) := fold_outcome (hb_add p) o b.

(** ** The pool *)

(** pool.rs:63-98 [create], for a symbol that is not in the pool *)
Definition hp_create (p : hpool) (symbol : str) (ann : option hannotation) : hpool * addr :=
  let al := room (map_next pol) (hp_alloc p) (length (hp_comms p)) in
  let ptr := AComm (al_gen al) symbol in
  let c := mkComm symbol (length (hp_nodes p)) (match ann with Some _ => true | None => false end) in
  let anns := match ann with Some a => insert symbol a (hp_ann p) | None => hp_ann p end in
  (mkHPool al (insert symbol c (hp_comms p)) anns (hp_nodes p ++ [ptr]) (hp_edges p), ptr).
(** pool.rs:111-135 [find_or_create] *)
Definition hp_find_or_create (p : hpool) (symbol : str) (ann : option hannotation) : hpool * option addr :=
  match symbol with
  | [] => (p, None)
  | _ =>
      match lookup symbol (hp_comms p) with
      | Some _ =>
          let ptr := AComm (al_gen (hp_alloc p)) symbol in
          match ann, lookup symbol (hp_ann p) with
          | Some a, None =>
              (mkHPool (hp_alloc p) (hp_comms p) (insert symbol a (hp_ann p)) (hp_nodes p) (hp_edges p), Some ptr)
          | _, _ => (p, Some ptr)
          end
      | None => let '(p', ptr) := hp_create p symbol ann in (p', Some ptr)
      end
  end.
(** pool.rs:137-139 [get_by_index], history.rs:87-90 *)
Definition hp_get_by_index (p : hpool) (i : nat) : outcome commodity :=
  let* a := unwrap (nth_error (hp_nodes p) i) in h_commodity p a.
(** history.rs:53-85 [add_price] *)
Definition hp_add_price (p : hpool) (source : option addr) (when : datetime) (price : hamount) : outcome hpool :=
  let* src := match source with None => Panic PNull | Some a => h_commodity p a end in
  let* dst := h_get_commodity p (ha_c price) in
  if ocomm_eqb (Some src) dst then Panic PExplicit
  else
    let* dst := unwrap dst in
    Ok (mkHPool (hp_alloc p) (hp_comms p) (hp_ann p) (hp_nodes p)
          (put_price (hp_edges p) (c_index src) (c_index dst) when (ha_q price))).
(** history.rs:262-270 *)
Record hprice := mkHPrice { hr_commodity : option addr; hr_when : datetime; hr_price : hamount }.
(** pool.rs:264-268 *)
Record hbreakdown := mkHBd { hd_amount : hamount; hd_final_cost : hamount; hd_basis_cost : hamount }.
(** pool.rs:152-218 [exchange] *)
Definition h_exchange (p : hpool) (amt cost : hamount) (is_per_unit : bool) (moment : datetime)
  : outcome (hbreakdown * option hprice) :=
  let* o := h_get_commodity p (ha_c amt) in
  let* c := unwrap o in
  let* c' := hp_get_by_index p (c_index c) in
  let ann := lookup (c_symbol c') (hp_ann p) in
  let* per_unit_cost :=
    (if is_per_unit || ha_is_zero amt then Ok (ha_abs cost)
     else let* q := ha_div cost amt in Ok (ha_abs q)) in
  let* cc := h_get_commodity p (ha_c cost) in
  let per_unit_cost := match cc with None => mkHA (ha_q per_unit_cost) None | Some _ => per_unit_cost end in
  let* new_price :=
    (if ha_is_zero per_unit_cost then Ok None
     else
       let* x := h_get_commodity p (ha_c amt) in
       let* y := h_get_commodity p (ha_c per_unit_cost) in
       Ok (if ocomm_eqb x y then None else Some (mkHPrice (ha_c amt) moment per_unit_cost))) in
  let* final_cost := (if is_per_unit then ha_mul p cost (ha_abs amt) else Ok cost) in
  let* basis_cost :=
    match ann with
    | Some a => match hn_price a with
                | Some ap => ha_mul p ap amt
                | None => Ok (mkHA d_zero None)
                end
    | None => Ok final_cost
    end in
  Ok (mkHBd amt final_cost basis_cost, new_price).
(** pool.rs:224-252 [parse_price_directive] *)
Definition h_price_directive (p : hpool) (line : str) : outcome hpool :=
  let* (t_date, t_time, t_comm, t_q, t_pc) := scan_price_directive line in
  let* date := unwrap (parse_date_opt t_date) in
  let* time := (if is_empty t_time then Ok midnight else unwrap (parse_time_opt t_time)) in
  let '(p1, c) := hp_find_or_create p t_comm None in
  let* q := unwrap (d_from_str t_q) in
  let '(p2, cc) := hp_find_or_create p1 t_pc None in
  hp_add_price p2 c (mkDT date time) (mkHA q cc).
(** annotate.rs:33-56 [Annotation::parse] *)
Definition h_annotation_parse (p : hpool) (t_date t_quantity t_symbol : str) : outcome (hpool * hannotation) :=
  let '(p1, c) := hp_find_or_create p t_symbol None in
  let price := option_map (fun q => mkHA q c) (d_from_str t_quantity) in
  let* d := (if is_empty t_date then Ok None
             else let* d := unwrap (parse_date_opt t_date) in Ok (Some d)) in
  Ok (p1, mkHAnn price d).

(** ** Accounts *)
Definition hc_name (a : hacct) : str := let 'HAcct n _ _ _ _ := a in n.
Definition hc_parent (a : hacct) : option addr := let 'HAcct _ p _ _ _ := a in p.
Definition hc_alloc (a : hacct) : alloc := let 'HAcct _ _ al _ _ := a in al.
Definition hc_children (a : hacct) : list hacct := let 'HAcct _ _ _ c _ := a in c.
Definition hc_posts (a : hacct) : list addr := let 'HAcct _ _ _ _ p := a in p.
Definition find_hchild (name : str) (cs : list hacct) : option hacct := find (fun c => str_eqb (hc_name c) name) cs.
Fixpoint set_hchild (name : str) (c' : hacct) (cs : list hacct) : list hacct :=
  match cs with
  | [] => []
  | c :: r => if str_eqb (hc_name c) name then c' :: r else c :: set_hchild name c' r
  end.
Fixpoint get_hacct (a : hacct) (p : path) : option hacct :=
  match p with
  | [] => Some a
  | n :: p' => match find_hchild n (hc_children a) with
               | Some c => get_hacct c p'
               | None => None
               end
  end.
(** [&*acct_ptr]: where the account is. *)
Definition h_account (t : hacct) (a : addr) : outcome path :=
  match a with
  | AMaster => Ok []
  | AAcct p g n =>
      match get_hacct t p with
      | Some s => if g =? al_gen (hc_alloc s)
                  then match find_hchild n (hc_children s) with Some _ => Ok (p ++ [n]) | None => Panic PNull end
                  else Panic PNull
      | None => Panic PNull
      end
  | _ => Panic PNull
  end.
(** account.rs:100-139 [find_or_create] with [auto_create], 36-49 [create_account].  [here] and [base] are
    the address and the path of [self].  The pointer to the child is dereferenced for the recursive call,
    right after it has been made. *)
Fixpoint h_find_or_create (fuel : nat) (self : hacct) (here : addr) (base : path) (name : str) : outcome (hacct * addr) :=
  match fuel with
  | O => Diverge
  | S f =>
      let 'HAcct n par al cs ps := self in
      match find_hchild name cs with
      | Some _ => Ok (self, AAcct base (al_gen al) name)
      | None =>
          let '(first, rest) := split_first name in
          match find_hchild first cs with
          | None =>
              let al' := room (map_next pol) al (length cs) in
              let ptr := AAcct base (al_gen al') first in
              let child := HAcct first (Some here) no_alloc [] [] in
              match rest with
              | [] => Ok (HAcct n par al' (cs ++ [child]) ps, ptr)
              | _ => let* (child', r) := h_find_or_create f child ptr (base ++ [first]) rest in
                     Ok (HAcct n par al' (cs ++ [child']) ps, r)
              end
          | Some child =>
              let ptr := AAcct base (al_gen al) first in
              match rest with
              | [] => Ok (self, ptr)
              | _ => let* (child', r) := h_find_or_create f child ptr (base ++ [first]) rest in
                     Ok (HAcct n par al (set_hchild first child' cs) ps, r)
              end
          end
      end
  end.
(** journal.rs:68-88 [register_account] *)
Definition h_register (t : hacct) (name : str) : outcome (hacct * addr) :=
  match name with
  | [] => Panic PExplicit
  | _ => let* (t', a) := h_find_or_create (S (length name)) t AMaster [] name in
         let* _ := h_account t' a in Ok (t', a)
  end.
(** [account.posts.push(post)] *)
Fixpoint h_push (a : hacct) (p : path) (r : addr) : outcome hacct :=
  let 'HAcct n par al cs ps := a in
  match p with
  | [] => Ok (HAcct n par al cs (ps ++ [r]))
  | k :: p' => match find_hchild k cs with
               | None => Panic PNull
               | Some c => let* c' := h_push c p' r in Ok (HAcct n par al (set_hchild k c' cs) ps)
               end
  end.

(** ** Postings and transactions *)

(** parser.rs:71-84 *)
Definition h_amount_parts (p : hpool) (quantity commodity : str) : hpool * option hamount :=
  let '(p1, c) := hp_find_or_create p commodity None in
  (p1, option_map (fun q => mkHA q c) (d_from_str quantity)).
(** parser.rs:477-502 *)
Definition h_parse_cost (p : hpool) (t : post_tokens) (amt : option hamount) : outcome (hpool * option hamount) :=
  match amt with
  | None => Ok (p, None)
  | Some a =>
      if is_empty (t_cost_quantity t) then Ok (p, None)
      else
        let '(p1, cost) := h_amount_parts p (t_cost_quantity t) (t_cost_symbol t) in
        match cost with
        | None => Ok (p1, None)
        | Some c => if t_is_per_unit t then let* c' := ha_mul_assign c a in Ok (p1, Some c')
                    else Ok (p1, Some c)
        end
  end.
(** [&mut *xact_ptr]: which transaction it is. *)
Definition h_xact (h : heap) (a : addr) : outcome (nat * hxact) :=
  match a with
  | AXact g i => if g =? al_gen (h_xalloc h)
                 then match nth_error (h_xacts h) i with Some x => Ok (i, x) | None => Panic PNull end
                 else Panic PNull
  | _ => Panic PNull
  end.
Definition set_hposts (x : hxact) (ps : list hpost) : hxact :=
  mkHXact (hx_date x) (hx_aux x) (hx_payee x) (hx_note x) (hx_alloc x) ps.
(** parser.rs:415-475 [parse_post], xact.rs:79-83 [add_post] *)
Definition h_parse_post (h : heap) (xact_ptr : addr) (input : str) : outcome heap :=
  let* t := scan_post input in
  let* (master1, acct) := h_register (h_master h) (t_account t) in
  let '(p1, amt) := h_amount_parts (h_pool h) (t_quantity t) (t_symbol t) in
  let* (p2, ann) := h_annotation_parse p1 (t_price_date t) (t_price_quantity t) (t_price_commodity t) in
  let '(p3, _) := hp_find_or_create p2 (t_symbol t) (Some ann) in
  let* (p4, cost) := h_parse_cost p3 t amt in
  let* (xi, x) := h_xact h xact_ptr in
  let al := room (vec_next pol) (hx_alloc x) (length (hx_posts x)) in
  let post_ptr := APost xi (al_gen al) (length (hx_posts x)) in
  let xs := update_nth xi (fun x => mkHXact (hx_date x) (hx_aux x) (hx_payee x) (hx_note x) al
                                      (hx_posts x ++ [mkHPost acct xact_ptr amt cost None])) (h_xacts h) in
  let* where_ := h_account master1 acct in
  let* master2 := h_push master1 where_ post_ptr in
  Ok (mkHeap master2 p4 (h_xalloc h) xs).

(** parser.rs:383-410 [parse_trailing_note] *)
Definition h_note (h : heap) (xact_ptr : addr) (line : str) : outcome heap :=
  let note := trim (skipn 1 line) in
  if is_empty note then Ok h
  else
    let* (xi, x) := h_xact h xact_ptr in
    Ok (mkHeap (h_master h) (h_pool h) (h_xalloc h)
          (update_nth xi
             (fun x => match hx_posts x with
                       | [] => mkHXact (hx_date x) (hx_aux x) (hx_payee x) (Some note) (hx_alloc x) []
                       | _ => set_hposts x (update_nth (length (hx_posts x) - 1)
                                (fun p => mkHPost (ho_account p) (ho_xact p) (ho_amount p) (ho_cost p) (Some note)) (hx_posts x))
                       end) (h_xacts h))).

(** parser.rs:258-266 [create_xact], journal.rs:38-42 [add_xact]: the new transaction and its address *)
Definition h_create_xact (h : heap) (line : str) : outcome (heap * addr) :=
  let* (d, aux, payee, note) := tokenize_xact_header line in
  let* x := xact_create d aux payee note in
  let al := room (vec_next pol) (h_xalloc h) (length (h_xacts h)) in
  Ok (mkHeap (h_master h) (h_pool h) al
        (h_xacts h ++ [mkHXact (x_date x) (x_aux_date x) (x_payee x) (x_note x) no_alloc []]),
      AXact (al_gen al) (length (h_xacts h))).

(** ** finalize: xact.rs:105-278.  The pointer to the posting without amount is its number; the postings
    are not moved in between. *)
Definition hset_amount (p : hpost) (a : hamount) : hpost :=
  mkHPost (ho_account p) (ho_xact p) (Some a) (ho_cost p) (ho_note p).
Definition hset_cost (p : hpost) (c : hamount) : hpost :=
  mkHPost (ho_account p) (ho_xact p) (ho_amount p) (Some c) (ho_note p).
Definition hpost_value (p : hpost) : option hamount :=
  match ho_cost p with Some c => Some c | None => ho_amount p end.
Fixpoint h_sum_posts (pool : hpool) (posts : list hpost) (i : nat) (bal : list hamount) (null_post : option nat)
  : outcome (list hamount * option nat) :=
  match posts with
  | [] => Ok (bal, null_post)
  | p :: posts' =>
      match hpost_value p with
      | Some a => let* bal' := hb_add pool bal a in h_sum_posts pool posts' (S i) bal' null_post
      | None => match null_post with
                | Some _ => Panic PTodo
                | None => h_sum_posts pool posts' (S i) bal (Some i)
                end
      end
  end.
Fixpoint h_top_amount (posts : list hpost) : option hamount :=
  match posts with
  | [] => None
  | p :: posts' => match ho_amount p with Some a => Some a | None => h_top_amount posts' end
  end.
Fixpoint h_cost_loop (pool : hpool) (c : option commodity) (per_unit_cost : hamount) (posts : list hpost) (bal : list hamount)
  : outcome (list hpost * list hamount) :=
  match posts with
  | [] => Ok ([], bal)
  | p :: posts' =>
      let* amt := unwrap (ho_amount p) in
      let* d := h_get_commodity pool (ha_c amt) in
      let* (p', bal') :=
        (if ocomm_eqb d c then
           let* b1 := hb_sub pool bal amt in
           let* cost := ha_mul pool per_unit_cost amt in
           let* b2 := hb_add pool b1 cost in
           Ok (hset_cost p cost, b2)
         else Ok (p, bal)) in
      let* (posts'', bal'') := h_cost_loop pool c per_unit_cost posts' bal' in
      Ok (p' :: posts'', bal'')
  end.
Definition h_infer_costs (pool : hpool) (posts : list hpost) (bal : list hamount) : outcome (list hpost * list hamount) :=
  match bal with
  | [x0; y0] =>
      match h_top_amount posts with
      | None => Ok (posts, bal)
      | Some top =>
          if negb (ha_is_zero x0) && negb (ha_is_zero y0) then
            let* cx := h_get_commodity pool (ha_c x0) in
            let* ct := h_get_commodity pool (ha_c top) in
            let '(x, y) := if negb (ocomm_eqb cx ct) then (y0, x0) else (x0, y0) in
            let* comm := h_get_commodity pool (ha_c x) in
            let* r := ha_div y x in
            h_cost_loop pool comm (ha_abs r) posts bal
          else Ok (posts, bal)
      end
  | _ => Ok (posts, bal)
  end.
Fixpoint h_price_loop (date : option date) (pool : hpool) (posts : list hpost) : outcome (hpool * list hpost) :=
  match posts with
  | [] => Ok (pool, [])
  | p :: posts' =>
      let* (pool', p') :=
        match ho_cost p with
        | None => Ok (pool, p)
        | Some cost =>
            match ho_amount p with
            | None => Panic PExplicit
            | Some amt =>
                let* c := h_get_commodity pool (ha_c amt) in
                let* d := h_get_commodity pool (ha_c cost) in
                if ocomm_eqb c d then Panic PExplicit
                else
                  let* day := unwrap date in
                  let* (bd, np) := h_exchange pool amt cost false (mkDT day midnight) in
                  let* pool' := match np with
                                | Some pr => hp_add_price pool (hr_commodity pr) (hr_when pr) (hr_price pr)
                                | None => Ok pool
                                end in
                  Ok (pool', hset_amount p (hd_amount bd))
            end
        end in
      let* (pool'', posts'') := h_price_loop date pool' posts' in
      Ok (pool'', p' :: posts'')
  end.
Definition h_finalize_posts (date : option date) (pool : hpool) (posts : list hpost) : outcome (hpool * list hpost) :=
  let* (bal, null_post) := h_sum_posts pool posts 0 [] None in
  if (length posts =? 1)%nat then Panic PTodo
  else
    let* (posts1, bal1) := match null_post with
                           | None => h_infer_costs pool posts bal
                           | Some _ => Ok (posts, bal)
                           end in
    let* (pool', posts2) := h_price_loop date pool posts1 in
    match null_post with
    | None => Ok (pool', posts2)
    | Some i =>
        match bal1 with
        | [b] => let* a := ha_inverse pool' b in Ok (pool', update_nth i (fun p => hset_amount p a) posts2)
        | _ => Panic PTodo
        end
    end.
Definition h_finalize (h : heap) (xact_ptr : addr) : outcome heap :=
  let* (xi, x) := h_xact h xact_ptr in
  let* (pool, posts) := h_finalize_posts (hx_date x) (h_pool h) (hx_posts x) in
  Ok (mkHeap (h_master h) pool (h_xalloc h) (update_nth xi (fun x => set_hposts x posts) (h_xacts h))).

(** ** The reading loops, as in [Parser] *)
Inductive hmode := HTop | HIn (xact_ptr : addr).
Inductive hnext := HContinue (m : hmode) (h : heap) | HStop (h : heap).
Definition h_xact_line (h : heap) (xact_ptr : addr) (line : str) : outcome hnext :=
  match line with
  | 32%N :: _ =>
      match trim_start line with
      | [] => let* h' := h_finalize h xact_ptr in Ok (HContinue HTop h')
      | 59%N :: r => let* h' := h_note h xact_ptr (59%N :: r) in Ok (HContinue (HIn xact_ptr) h')
      | input => let* h' := h_parse_post h xact_ptr input in Ok (HContinue (HIn xact_ptr) h')
      end
  | 13%N :: _ | 10%N :: _ => let* h' := h_finalize h xact_ptr in Ok (HContinue HTop h')
  | [] => Panic PTodo
  | _ => Panic PExplicit
  end.
Definition h_general_directive (inc : str -> heap -> outcome heap) (h : heap) (line : str) : outcome heap :=
  let '(directive, rest) := take_word line in
  match directive with
  | [] => Panic PExplicit
  | 97%N :: _ => Panic PTodo
  | 105%N :: _ =>
      if str_eqb directive (lit "include") then
        match fst (take_word rest) with
        | [] => Panic PUnwrap
        | argument => inc argument h
        end
      else if str_eqb directive (lit "import") then Panic PTodo
      else let* p := h_price_directive (h_pool h) line in Ok (mkHeap (h_master h) p (h_xalloc h) (h_xacts h))
  | _ => Panic PTodo
  end.
Definition h_top_line (inc : str -> heap -> outcome heap) (h : heap) (line : str) : outcome hnext :=
  if str_eqb line [13%N; 10%N] || str_eqb line [10%N] then Ok (HContinue HTop h)
  else match line with
       | [] => Panic PUnwrap
       | c :: _ =>
           if (c =? 59)%N || (c =? 35)%N || (c =? 42)%N || (c =? 124)%N then Ok (HContinue HTop h)
           else if (c =? 45)%N then Ok (HContinue HTop h)
           else if is_digit c then let* (h', ptr) := h_create_xact h line in Ok (HContinue (HIn ptr) h')
           else if (c =? 32)%N || (c =? 9)%N then Panic PTodo
           else let* h' := h_general_directive inc h line in Ok (HContinue HTop h')
       end.
Definition h_step (inc : str -> heap -> outcome heap) (m : hmode) (h : heap) (line : option str) : outcome hnext :=
  match m, line with
  | HTop, None => Ok (HStop h)
  | HIn a, None => let* h' := h_finalize h a in Ok (HContinue HTop h')
  | HTop, Some l => h_top_line inc h l
  | HIn a, Some l => h_xact_line h a l
  end.
Fixpoint h_parse_lines (inc : str -> heap -> outcome heap) (m : hmode) (h : heap) (lines : source) : outcome heap :=
  match lines with
  | [] => match m with
          | HTop => Ok h
          | HIn a => h_finalize h a
          end
  | l :: lines' =>
      let* n := h_step inc m h l in
      match n with
      | HContinue m' h' => h_parse_lines inc m' h' lines'
      | HStop h' => Ok h'
      end
  end.
Fixpoint h_include_file (depth : nat) (cwd : str) (fs : filesystem) (arg : str) (h : heap) : outcome heap :=
  match depth with
  | O => Diverge
  | S d => let* file := included cwd fs arg in
           match file with
           | None => Ok h
           | Some src => h_parse_lines (h_include_file d cwd fs) HTop h src
           end
  end.
Definition h_read (depth : nat) (cwd : str) (fs : filesystem) (src : source) (h : heap) : outcome heap :=
  h_parse_lines (h_include_file depth cwd fs) HTop h src.
Definition h_parse_file (depth : nat) (cwd : str) (fs : filesystem) (file : str) (h : heap) : outcome heap :=
  match fs file with
  | None => Panic PIo
  | Some src => h_read depth cwd fs src h
  end.

(** ** Reports *)

(** account.rs:173-183 [flatten], report.rs:12-18 *)
Fixpoint h_flatten (a : hacct) : list hacct :=
  a :: concat (map snd (sort_key (map (fun c => (hc_name c, h_flatten c)) (hc_children a)))).
Definition h_report_accounts (h : heap) : list str := map hc_name (h_flatten (h_master h)).

(** [&**post_ptr] *)
Definition h_post (xs : list hxact) (a : addr) : outcome hpost :=
  match a with
  | APost xi g k =>
      match nth_error xs xi with
      | Some x => if g =? al_gen (hx_alloc x)
                  then match nth_error (hx_posts x) k with Some p => Ok p | None => Panic PNull end
                  else Panic PNull
      | None => Panic PNull
      end
  | _ => Panic PNull
  end.
(** account.rs:157-171 [amount] *)
Definition h_account_amount (pool : hpool) (xs : list hxact) (posts : list addr) : outcome (list hamount) :=
  fold_outcome
    (fun bal r => let* p := h_post xs r in
                  match ho_amount p with Some a => hb_add pool bal a | None => Ok bal end) posts [].
(** account.rs:196-216 [total] *)
Fixpoint h_total (pool : hpool) (xs : list hxact) (a : hacct) : outcome (list hamount) :=
  let subs := sort_key (map (fun c => (hc_name c, h_total pool xs c)) (hc_children a)) in
  let* t := fold_outcome (fun t (s : str * outcome (list hamount)) => let* b := snd s in hb_add_bal pool t b) subs [] in
  let* own := h_account_amount pool xs (hc_posts a) in
  hb_add_bal pool t own.
(** account.rs:51-76 [fullname]: the loop over the parent pointers *)
Fixpoint h_up (fuel : nat) (t : hacct) (parent : option addr) (full : str) : outcome str :=
  match parent with
  | None => Ok full
  | Some a =>
      match fuel with
      | O => Diverge
      | S f =>
          let* p := h_account t a in
          match get_hacct t p with
          | None => Panic PNull
          | Some acct => h_up f t (hc_parent acct) (match hc_name acct with [] => full | n => n ++ 58%N :: full end)
          end
      end
  end.
(** There are not more steps than there are accounts above; [fuel] is at least that. *)
Definition h_fullname (fuel : nat) (t : hacct) (a : hacct) : outcome str :=
  match hc_parent a with
  | None => Ok []
  | Some _ => h_up fuel t (hc_parent a) (hc_name a)
  end.
(** report.rs:46-56 *)
Definition h_amount_text (pool : hpool) (a : hamount) : outcome str :=
  let* c := h_get_commodity pool (ha_c a) in
  Ok (d_to_string (ha_q a) ++ match c with Some c => 32%N :: c_symbol c | None => [] end).
Definition h_balance_text (pool : hpool) (b : list hamount) : outcome str :=
  fold_outcome (fun s a => let* t := h_amount_text pool a in Ok (s ++ t)) b [].
(** report.rs:43-70 [get_children_lines]; [depth] is the depth of the account in the tree *)
Fixpoint h_children_lines (h : heap) (depth : nat) (a : hacct) : outcome (list str) :=
  let* total := h_total (h_pool h) (h_xacts h) a in
  let* text := h_balance_text (h_pool h) total in
  let* name := h_fullname depth (h_master h) a in
  let subs := sort_key (map (fun c => (hc_name c, h_children_lines h (S depth) c)) (hc_children a)) in
  fold_outcome (fun ls (s : str * outcome (list str)) => let* l := snd s in Ok (ls ++ l))
               subs [lit "Account " ++ name ++ lit " has balance " ++ text].
Definition h_balance_report (h : heap) : outcome (list str) := h_children_lines h 0 (h_master h).

(** ** The command: lib.rs:67-156 *)
Definition h_read_files (depth : nat) (cwd : str) (fs : filesystem) (files : list str) : outcome heap :=
  fold_outcome (fun h f => h_parse_file depth cwd fs f h) files heap_new.
Definition h_execute_command (depth : nat) (cwd : str) (fs : filesystem) (commands files : list str) : outcome (list str) :=
  let* verb := unwrap (nth_error commands 0) in
  let* h := h_read_files depth cwd fs files in
  match verb with
  | [] => Panic PUnwrap
  | 97%N :: _ => Ok (sort_strings (h_report_accounts h))
  | 98%N :: _ =>
      if str_eqb verb (lit "b") || str_eqb verb (lit "bal") || str_eqb verb (lit "balance")
      then h_balance_report h
      else Panic PTodo
  | _ => Panic PTodo
  end.
Definition h_run (depth : nat) (cwd : str) (fs : filesystem) (args : list str) : outcome (list str) :=
  let* (commands, files) := process_arguments args in
  h_execute_command depth cwd fs commands files.
End Program.
