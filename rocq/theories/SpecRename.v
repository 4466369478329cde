(** Specification vocabulary for files that differ in the names of the commodities. *)
From Coq Require Import String List NArith ZArith Bool.
From Verif Require Import Base Decimal Dates Amount Balance Scanner History Pool Account Journal Parser.
From Verif Require Import SpecText SpecReading SpecScan SpecOutline SpecLine SpecEnd SpecValue SpecSpelling.
Import ListNotations.
Open Scope nat_scope.

(** Another name for every commodity: different ones for different commodities, and none for none. *)
Definition renaming (f : str -> str) : Prop := (forall s t, f s = f t -> s = t) /\ f [] = [].

(** ** Lines *)
Definition parts_renamed (f : str -> str) (t : post_tokens) : post_tokens :=
  mkPT (t_account t) (t_quantity t) (f (t_symbol t)) (t_price_quantity t) (f (t_price_commodity t)) (t_price_date t)
       (t_cost_quantity t) (f (t_cost_symbol t)) (t_is_per_unit t).
Inductive line_renamed (f : str -> str) : option str -> option str -> Prop :=
| ln_undecodable : line_renamed f None None
| ln_other l : hd 0%N l <> 32%N -> ~ read_as_price l -> line_renamed f (Some l) (Some l)
| ln_blank l : spaces l -> line_renamed f (Some l) (Some l)
| ln_note r : first_mark r 59%N -> line_renamed f (Some (32%N :: r)) (Some (32%N :: r))
| ln_posting r r' t : post_read r t -> post_read r' (parts_renamed f t) -> line_renamed f (Some (32%N :: r)) (Some (32%N :: r'))
| ln_price l l' d time s q t : hd 0%N l = 105%N -> hd 0%N l' = 105%N -> read_as_price l -> read_as_price l' ->
    price_read l d time s q t -> price_read l' d time (f s) q (f t) -> line_renamed f (Some l) (Some l').
Definition source_renamed (f : str -> str) (src src' : source) : Prop := Forall2 (line_renamed f) src src'.
Definition files_renamed (f : str -> str) (fs fs' : filesystem) : Prop := forall p, opt_rel (source_renamed f) (fs p) (fs' p).

(** ** Journals *)
Definition amount_renamed (f : str -> str) (a : amount) : amount := mkAmt (a_q a) (option_map f (a_c a)).
Definition post_renamed (f : str -> str) (p : post) : post :=
  mkPost (po_account p) (option_map (amount_renamed f) (po_amount p)) (option_map (amount_renamed f) (po_cost p)) (po_note p).
Definition xact_renamed (f : str -> str) (x : xact) : xact :=
  mkXact (x_date x) (x_aux_date x) (x_payee x) (x_note x) (map (post_renamed f) (x_posts x)).
Definition commodity_renamed (f : str -> str) (c : commodity) : commodity := mkComm (f (c_symbol c)) (c_index c) (c_annotated c).
Definition annotation_renamed (f : str -> str) (a : annotation) : annotation := mkAnn (option_map (amount_renamed f) (an_price a)) (an_date a).
Definition entry_renamed {A} (f : str -> str) (g : A -> A) (e : str * A) : str * A := (f (fst e), g (snd e)).
Definition pool_renamed (f : str -> str) (p : pool) : pool :=
  mkPool (map (entry_renamed f (commodity_renamed f)) (p_comms p)) (map (entry_renamed f (annotation_renamed f)) (p_ann p))
         (mkGraph (map f (g_nodes (p_hist p))) (g_edges (p_hist p))).
Definition journal_renamed (f : str -> str) (j : journal) : journal :=
  mkJournal (j_master j) (pool_renamed f (j_pool j)) (map (xact_renamed f) (j_xacts j)).

(** A line of a report, and the line with other names of the commodities. *)
Definition shown_renamed (f : str -> str) (l l' : str) : Prop :=
  exists name b, l = lit "Account " ++ name ++ lit " has balance " ++ shown_amounts b
    /\ l' = lit "Account " ++ name ++ lit " has balance " ++ shown_amounts (map (amount_renamed f) b).
(** A search for paths that looks only at the edges. *)
Definition blind_to_names (astar : path_finder) : Prop :=
  forall g g', length (g_nodes g) = length (g_nodes g') -> g_edges g = g_edges g' -> forall a b, astar g a b = astar g' a b.
