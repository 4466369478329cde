(** Specification vocabulary for files that say the same in different words: numbers written with more or fewer
    decimals, symbols before or after them, other spaces. *)
From Coq Require Import String List NArith ZArith Bool.
From Verif Require Import Base Decimal Dates Amount Balance Scanner History Pool Account Journal Parser.
From Verif Require Import SpecDecimal SpecAmount SpecDates SpecText SpecReading SpecScan SpecPriceLog SpecEnd SpecValue.
Import ListNotations.
Open Scope nat_scope.

(** ** Lines *)
(** The same text, or two numbers of the same value. *)
Definition same_number (q q' : str) : Prop := q = q' \/ exists u k k', denotes q u k /\ denotes q' u k'.
(** The same text, or two dates, or two times, of the same value. *)
Definition same_day (d d' : str) : Prop := d = d' \/ exists v, denotes_date d v /\ denotes_date d' v.
Definition same_clock (c c' : str) : Prop := c = c' \/ exists v, denotes_time c v /\ denotes_time c' v.
Definition same_parts (t t' : post_tokens) : Prop :=
  t_account t = t_account t' /\ same_number (t_quantity t) (t_quantity t') /\ t_symbol t = t_symbol t'
  /\ same_number (t_price_quantity t) (t_price_quantity t') /\ t_price_commodity t = t_price_commodity t' /\ same_day (t_price_date t) (t_price_date t')
  /\ same_number (t_cost_quantity t) (t_cost_quantity t') /\ t_cost_symbol t = t_cost_symbol t' /\ t_is_per_unit t = t_is_per_unit t'.

(** A price line that starts with the letter i, and its parts. *)
Inductive price_parts : str -> str -> str -> str -> str -> str -> Prop :=
| pp w1 date w2 clock time s w4 q w5 t rest :
    space w1 -> gap w2 -> gap w4 -> gap w5 -> element date -> element s -> element q -> element t ->
    (rest = [] \/ exists c r, rest = c :: r /\ (c = 32%N \/ c = 9%N)) ->
    (clock = [] /\ time = [] /\ starts_digit s = false \/ exists w3, clock = time ++ w3 /\ element time /\ starts_digit time = true /\ gap w3) ->
    price_parts (lit "i" ++ w1 ++ date ++ w2 ++ clock ++ s ++ w4 ++ q ++ w5 ++ t ++ rest) date time s q t.

(** A comment: the first character says so. *)
Definition comment (l : str) : Prop := exists c r, l = c :: r /\ one_of ";#*|-" c = true.

(** Two lines that say the same: equal ones; headers, postings and prices with the same parts; comments; empty
    lines. *)
Inductive same_line : option str -> option str -> Prop :=
| sl_same l : same_line l l
| sl_header l l' d d' aux aux' payee note : starts_digit l = true -> starts_digit l' = true ->
    header_line l d aux payee note -> header_line l' d' aux' payee note -> same_day d d' -> same_day aux aux' ->
    same_line (Some l) (Some l')
| sl_posting r r' t t' : posting_line (32%N :: r) t -> posting_line (32%N :: r') t' -> same_parts t t' ->
    same_line (Some (32%N :: r)) (Some (32%N :: r'))
| sl_price l l' d d' time time' s q q' t : price_parts l d time s q t -> price_parts l' d' time' s q' t ->
    same_day d d' -> same_clock time time' -> same_number q q' -> same_line (Some l) (Some l')
| sl_comment l l' : comment l -> comment l' -> same_line (Some l) (Some l')
| sl_empty l l' : In l [nl; 13%N :: nl] -> In l' [nl; 13%N :: nl] -> same_line (Some l) (Some l').
Definition same_source (src src' : source) : Prop := Forall2 same_line src src'.

Definition opt_rel {A B} (R : A -> B -> Prop) (o : option A) (o' : option B) : Prop :=
  match o, o' with Some a, Some b => R a b | None, None => True | _, _ => False end.
(** The same files exist, and say the same. *)
Definition same_files (fs fs' : filesystem) : Prop := forall p, opt_rel same_source (fs p) (fs' p).

(** ** Journals: equal but for the decimals of the quantities *)
Definition same_post (p p' : post) : Prop :=
  po_account p = po_account p' /\ opt_rel same_amount (po_amount p) (po_amount p') /\ opt_rel same_amount (po_cost p) (po_cost p') /\ po_note p = po_note p'.
Definition same_xact (x x' : xact) : Prop :=
  x_date x = x_date x' /\ x_aux_date x = x_aux_date x' /\ x_payee x = x_payee x' /\ x_note x = x_note x' /\ Forall2 same_post (x_posts x) (x_posts x').
Definition same_annotation (a a' : annotation) : Prop := opt_rel same_amount (an_price a) (an_price a') /\ an_date a = an_date a'.
Definition same_keyed {K A B} (R : A -> B -> Prop) (x : K * A) (y : K * B) : Prop := fst x = fst y /\ R (snd x) (snd y).
Definition same_prices (m m' : pricemap) : Prop := Forall2 (same_keyed same_value) m m'.
Definition same_graph (g g' : graph) : Prop := g_nodes g = g_nodes g' /\ Forall2 (same_keyed same_prices) (g_edges g) (g_edges g').
Definition same_pool (p p' : pool) : Prop :=
  p_comms p = p_comms p' /\ Forall2 (same_keyed same_annotation) (p_ann p) (p_ann p') /\ same_graph (p_hist p) (p_hist p').
Definition same_journal (j j' : journal) : Prop :=
  j_master j = j_master j' /\ same_pool (j_pool j) (j_pool j') /\ Forall2 same_xact (j_xacts j) (j_xacts j').

(** A search for paths that does not look at the prices. *)
Definition knows_ends (astar : path_finder) : Prop :=
  forall g g', g_nodes g = g_nodes g' -> map fst (g_edges g) = map fst (g_edges g') -> forall a b, astar g a b = astar g' a b.
(** Lines of a report for the same account with amounts of the same values. *)
Definition same_shown (l l' : str) : Prop :=
  exists name b b', same_balance b b' /\ l = lit "Account " ++ name ++ lit " has balance " ++ shown_amounts b
    /\ l' = lit "Account " ++ name ++ lit " has balance " ++ shown_amounts b'.
