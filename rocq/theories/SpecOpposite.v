(** Specification vocabulary for files in which every posting has the opposite amount. *)
From Coq Require Import String List NArith ZArith Bool.
From Verif Require Import Base Dates Decimal Amount Balance Scanner History Pool Account Journal Parser.
From Verif Require Import SpecText SpecReading SpecDates SpecScan SpecOutline SpecLine SpecEnd SpecValue SpecRefused SpecSpelling.
Import ListNotations.
Open Scope nat_scope.

(** ** Values *)
(** The same digits and decimals, the other sign (a zero may have any). *)
Definition opposite (a b : dec) : Prop := d_m a = d_m b /\ d_s a = d_s b /\ (d_m a = 0%Z \/ d_neg b = negb (d_neg a)).
Definition opposite_amount (a b : amount) : Prop := a_c a = a_c b /\ opposite (a_q a) (a_q b).
Definition opposite_balance (b b' : balance) : Prop := Forall2 opposite_amount b b'.

(** ** Lines *)
(** Two numbers of the same digits and the other sign. *)
Definition opposite_number (q q' : str) : Prop :=
  exists neg whole frac, quantity_text q neg whole frac /\ quantity_text q' (negb neg) whole frac.
(** The same posting with the opposite amount; the price of one unit stays, the price of all of them is the
    opposite one. *)
Definition opposite_parts (t t' : post_tokens) : Prop :=
  t_account t = t_account t' /\ opposite_number (t_quantity t) (t_quantity t') /\ t_symbol t = t_symbol t'
  /\ t_price_quantity t = t_price_quantity t' /\ t_price_commodity t = t_price_commodity t' /\ t_price_date t = t_price_date t'
  /\ (if t_is_per_unit t then t_cost_quantity t = t_cost_quantity t'
      else t_cost_quantity t = [] /\ t_cost_quantity t' = [] \/ opposite_number (t_cost_quantity t) (t_cost_quantity t'))
  /\ t_cost_symbol t = t_cost_symbol t' /\ t_is_per_unit t = t_is_per_unit t'.
(** A line that is no posting: it does not start with a space, is blank or a note. *)
Definition no_posting (l : str) : Prop := hd 0%N l <> 32%N \/ spaces l \/ exists r, l = 32%N :: r /\ first_mark r 59%N.
Inductive opposite_line : option str -> option str -> Prop :=
| ol_failed : opposite_line None None
| ol_same l : no_posting l -> opposite_line (Some l) (Some l)
| ol_posting r r' t t' : post_read r t -> post_read r' t' -> opposite_parts t t' -> opposite_line (Some (32%N :: r)) (Some (32%N :: r')).
Definition opposite_source (src src' : source) : Prop := Forall2 opposite_line src src'.
Definition opposite_files (fs fs' : filesystem) : Prop := forall p, opt_rel opposite_source (fs p) (fs' p).

(** ** Journals: the same transactions, accounts and prices; every posting has an amount, in the other journal the
    opposite one. *)
Definition opposite_post (p p' : post) : Prop :=
  po_account p = po_account p' /\ (exists a a', po_amount p = Some a /\ po_amount p' = Some a' /\ opposite_amount a a')
  /\ opt_rel opposite_amount (po_cost p) (po_cost p') /\ po_note p = po_note p'.
Definition opposite_xact (x x' : xact) : Prop :=
  x_date x = x_date x' /\ x_aux_date x = x_aux_date x' /\ x_payee x = x_payee x' /\ x_note x = x_note x' /\ Forall2 opposite_post (x_posts x) (x_posts x').
Definition opposite_journal (j j' : journal) : Prop :=
  j_master j = j_master j' /\ j_pool j = j_pool j' /\ Forall2 opposite_xact (j_xacts j) (j_xacts j').

(** Lines of a report for the same account with the opposite total. *)
Definition opposite_shown (l l' : str) : Prop :=
  exists name b b', opposite_balance b b' /\ l = lit "Account " ++ name ++ lit " has balance " ++ shown_amounts b
    /\ l' = lit "Account " ++ name ++ lit " has balance " ++ shown_amounts b'.

(** The same, but a posting may be without an amount in both files. *)
Inductive turned_line : option str -> option str -> Prop :=
| tl_opposite l l' : opposite_line l l' -> turned_line l l'
| tl_left_out r t : post_read r t -> t_quantity t = [] -> turned_line (Some (32%N :: r)) (Some (32%N :: r)).
