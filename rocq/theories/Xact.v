(** Model of xact.rs:39-72 ([Xact::create]) and 105-278 ([finalize]). *)
From Coq Require Import String List NArith ZArith Bool Lia.
From Verif Require Import Base Decimal Dates Amount Balance Pool Account Journal.
Import ListNotations.

(** xact.rs:39-72 [Xact::create] *)
Definition xact_create (t_date t_aux t_payee t_note : str) : outcome xact :=
  let* d := (if is_empty t_date then Ok None
             else let* d := parse_date t_date in Ok (Some d)) in
  let* aux := (if is_empty t_aux then Ok None
               else let* d := parse_date t_aux in Ok (Some d)) in
  Ok (mkXact d aux
        (if is_empty t_payee then lit "Unknown Payee" else t_payee)
        (if is_empty t_note then None else Some t_note) []).

Definition set_amount (p : post) (a : amount) : post :=
  mkPost (po_account p) (Some a) (po_cost p) (po_note p).
Definition set_cost (p : post) (c : amount) : post :=
  mkPost (po_account p) (po_amount p) (Some c) (po_note p).

(** xact.rs:124-128: cost if there is one, else the amount. *)
Definition post_value (p : post) : option amount :=
  match po_cost p with Some c => Some c | None => po_amount p end.

(** xact.rs:117-141: balance of the transaction and the posting without a value. *)
Fixpoint sum_posts (posts : list post) (i : nat) (bal : balance) (null_post : option nat)
  : outcome (balance * option nat) :=
  match posts with
  | [] => Ok (bal, null_post)
  | p :: posts' =>
      match post_value p with
      | Some a => let* bal' := bal_add bal a in sum_posts posts' (S i) bal' null_post
      | None => match null_post with
                | Some _ => Panic PTodo
                | None => sum_posts posts' (S i) bal (Some i)
                end
      end
  end.

(** xact.rs:155-160: the first posting with an amount. *)
Fixpoint top_amount (posts : list post) : option amount :=
  match posts with
  | [] => None
  | p :: posts' => match po_amount p with Some a => Some a | None => top_amount posts' end
  end.

(** xact.rs:184-193: the loop that gives every posting in commodity [c] its cost. *)
Fixpoint cost_loop (c : comm) (per_unit_cost : amount) (posts : list post) (bal : balance)
  : outcome (list post * balance) :=
  match posts with
  | [] => Ok ([], bal)
  | p :: posts' =>
      let* amt := unwrap (po_amount p) in
      let* (p', bal') :=
        (if comm_eqb (a_c amt) c then
           let* b1 := bal_sub bal amt in
           let* cost := amt_mul per_unit_cost amt in
           let* b2 := bal_add b1 cost in
           Ok (set_cost p cost, b2)
         else Ok (p, bal)) in
      let* (posts'', bal'') := cost_loop c per_unit_cost posts' bal' in
      Ok (p' :: posts'', bal'')
  end.

(** xact.rs:149-196: implied cost when the balance has exactly two commodities. *)
Definition infer_costs (posts : list post) (bal : balance) : outcome (list post * balance) :=
  match bal with
  | [x0; y0] =>
      match top_amount posts with
      | None => Ok (posts, bal)
      | Some top =>
          if negb (amt_is_zero x0) && negb (amt_is_zero y0) then
            let '(x, y) := if negb (comm_eqb (a_c x0) (a_c top)) then (y0, x0) else (x0, y0) in
            let* r := amt_div y x in
            cost_loop (a_c x) (amt_abs r) posts bal
          else Ok (posts, bal)
      end
  | _ => Ok (posts, bal)
  end.

(** xact.rs:199-238: for every posting with a cost, compute the exchange and record its price. *)
Fixpoint price_loop (date : option date) (pool : pool) (posts : list post)
  : outcome (Pool.pool * list post) :=
  match posts with
  | [] => Ok (pool, [])
  | p :: posts' =>
      let* (pool', p') :=
        match po_cost p with
        | None => Ok (pool, p)
        | Some cost =>
            match po_amount p with
            | None => Panic PExplicit
            | Some amt =>
                if comm_eqb (a_c amt) (a_c cost) then Panic PExplicit
                else
                  let* d := unwrap date in
                  let* (bd, np) := exchange pool amt cost false (mkDT d midnight) in
                  let* pool' := match np with
                                | Some pr => pool_add_price_struct pool pr
                                | None => Ok pool
                                end in
                  Ok (pool', set_amount p (bd_amount bd))
            end
        end in
      let* (pool'', posts'') := price_loop date pool' posts' in
      Ok (pool'', p' :: posts'')
  end.

(** xact.rs:105-278 [finalize] on the postings of one transaction. *)
Definition finalize_posts (date : option date) (pool : pool) (posts : list post)
  : outcome (Pool.pool * list post) :=
  let* (bal, null_post) := sum_posts posts 0 bal_new None in
  if (length posts =? 1)%nat then Panic PTodo
  else
    let* (posts1, bal1) := match null_post with
                           | None => infer_costs posts bal
                           | Some _ => Ok (posts, bal)
                           end in
    let* (pool', posts2) := price_loop date pool posts1 in
    match null_post with
    | None => Ok (pool', posts2)
    | Some i =>
        match bal1 with
        | [b] => Ok (pool', update_nth i (fun p => set_amount p (amt_inverse b)) posts2)
        | _ => Panic PTodo
        end
    end.

Definition set_posts (x : xact) (ps : list post) : xact :=
  mkXact (x_date x) (x_aux_date x) (x_payee x) (x_note x) ps.

(** [finalize(xact_ptr, journal)] for transaction number [xi] of the journal. *)
Definition finalize (j : journal) (xi : nat) : outcome journal :=
  match nth_error (j_xacts j) xi with
  | None => Panic PNull
  | Some x =>
      let* (pool, posts) := finalize_posts (x_date x) (j_pool j) (x_posts x) in
      Ok (mkJournal (j_master j) pool
            (update_nth xi (fun x => set_posts x posts) (j_xacts j)))
  end.
