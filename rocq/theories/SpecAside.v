(** Specification vocabulary for files that differ in what is said beside the amounts: dates, payees, notes, comments
    and prices. *)
From Coq Require Import String List NArith ZArith Bool.
From Verif Require Import Base Dates Decimal Amount Balance Scanner History Pool Account Journal Parser.
From Verif Require Import SpecText SpecReading SpecDates SpecScan SpecOutline SpecLine SpecValue SpecRefused SpecSpelling.
Import ListNotations.
Open Scope nat_scope.

Definition no_date_or_good (d : str) : Prop := d = [] \/ exists e, denotes_date d e.
Definition no_time_or_good (c : str) : Prop := c = [] \/ exists v, denotes_time c v.
(** The same posting but for the date of the lot. *)
Definition parts_beside (t t' : post_tokens) : Prop :=
  t_account t = t_account t' /\ t_quantity t = t_quantity t' /\ t_symbol t = t_symbol t'
  /\ t_price_quantity t = t_price_quantity t' /\ t_price_commodity t = t_price_commodity t'
  /\ t_cost_quantity t = t_cost_quantity t' /\ t_cost_symbol t = t_cost_symbol t' /\ t_is_per_unit t = t_is_per_unit t'.
(** A price line that is read, and its two commodities. *)
Definition good_price (l s t : str) : Prop :=
  hd 0%N l = 105%N /\ read_as_price l
  /\ exists d time q neg whole frac, price_read l d time s q t /\ (exists e, denotes_date d e) /\ no_time_or_good time /\ quantity_text q neg whole frac.

(** Two lines that differ only in what is said beside the amounts. *)
Inductive beside : option str -> option str -> Prop :=
| bs_same l : beside l l
| bs_header c r c' r' : is_digit c = true -> is_digit c' = true -> ~ header_refused (c :: r) -> ~ header_refused (c' :: r') ->
    beside (Some (c :: r)) (Some (c' :: r'))
| bs_note r r' : first_mark r 59%N -> first_mark r' 59%N -> beside (Some (32%N :: r)) (Some (32%N :: r'))
| bs_posting r r' t t' : post_read r t -> post_read r' t' -> parts_beside t t' -> no_date_or_good (t_price_date t) -> no_date_or_good (t_price_date t') ->
    beside (Some (32%N :: r)) (Some (32%N :: r'))
| bs_price l l' s t : good_price l s t -> good_price l' s t -> beside (Some l) (Some l')
| bs_comment l l' : comment l -> comment l' -> beside (Some l) (Some l').
Definition source_beside (src src' : source) : Prop := Forall2 beside src src'.
Definition files_beside (fs fs' : filesystem) : Prop := forall p, opt_rel source_beside (fs p) (fs' p).

(** Journals with the same accounts and amounts; nothing is said about dates, payees, notes and prices, but for which
    transactions have a date. *)
Definition post_beside (p p' : post) : Prop := po_account p = po_account p' /\ po_amount p = po_amount p' /\ po_cost p = po_cost p'.
Definition xact_beside (x x' : xact) : Prop := (x_date x = None <-> x_date x' = None) /\ Forall2 post_beside (x_posts x) (x_posts x').
Definition pool_beside (p p' : pool) : Prop :=
  p_comms p = p_comms p' /\ Forall2 (same_keyed (fun a a' => an_price a = an_price a')) (p_ann p) (p_ann p') /\ g_nodes (p_hist p) = g_nodes (p_hist p').
Definition journal_beside (j j' : journal) : Prop :=
  j_master j = j_master j' /\ pool_beside (j_pool j) (j_pool j') /\ Forall2 xact_beside (j_xacts j) (j_xacts j').
