(** Specification vocabulary for files that differ in the names of the accounts. *)
From Coq Require Import String List NArith ZArith Bool.
From Verif Require Import Base Decimal Dates Amount Balance Scanner History Pool Account Journal Parser.
From Verif Require Import SpecText SpecAccount SpecReading SpecScan SpecOutline SpecLine SpecEnd SpecValue SpecSpelling.
Import ListNotations.
Open Scope nat_scope.

(** Another name for every account: different ones for different accounts, and the names of the parts stay parts. *)
Definition account_renaming (g : str -> str) : Prop :=
  (forall s t, g s = g t -> s = t) /\ g [] = [] /\ (forall s t, g (s ++ colon :: t) = g s ++ colon :: g t)
  /\ (forall s, ~ In colon s -> ~ In colon (g s)).
(** The names of siblings keep their order. *)
Definition keeps_order (g : str -> str) : Prop :=
  forall s t, ~ In colon s -> ~ In colon t -> str_leb (g s) (g t) = str_leb s t.

Definition parts_moved (g : str -> str) (t : post_tokens) : post_tokens :=
  mkPT (g (t_account t)) (t_quantity t) (t_symbol t) (t_price_quantity t) (t_price_commodity t) (t_price_date t)
       (t_cost_quantity t) (t_cost_symbol t) (t_is_per_unit t).
Inductive line_moved (g : str -> str) : option str -> option str -> Prop :=
| mv_undecodable : line_moved g None None
| mv_other l : hd 0%N l <> 32%N -> line_moved g (Some l) (Some l)
| mv_blank l : spaces l -> line_moved g (Some l) (Some l)
| mv_note r : first_mark r 59%N -> line_moved g (Some (32%N :: r)) (Some (32%N :: r))
| mv_posting r r' t : post_read r t -> post_read r' (parts_moved g t) -> line_moved g (Some (32%N :: r)) (Some (32%N :: r')).
Definition source_moved (g : str -> str) (src src' : source) : Prop := Forall2 (line_moved g) src src'.
Definition files_moved (g : str -> str) (fs fs' : filesystem) : Prop := forall p, opt_rel (source_moved g) (fs p) (fs' p).

Fixpoint account_moved (g : str -> str) (a : account) : account :=
  let 'Acct n cs ps := a in Acct (g n) (map (account_moved g) cs) ps.
Definition post_moved (g : str -> str) (p : post) : post := mkPost (map g (po_account p)) (po_amount p) (po_cost p) (po_note p).
Definition xact_moved (g : str -> str) (x : xact) : xact :=
  mkXact (x_date x) (x_aux_date x) (x_payee x) (x_note x) (map (post_moved g) (x_posts x)).
Definition journal_moved (g : str -> str) (j : journal) : journal :=
  mkJournal (account_moved g (j_master j)) (j_pool j) (map (xact_moved g) (j_xacts j)).

(** A line of a report, and the line with the other name of the account. *)
Definition shown_moved (g : str -> str) (l l' : str) : Prop :=
  exists name b, l = lit "Account " ++ name ++ lit " has balance " ++ shown_amounts b
    /\ l' = lit "Account " ++ g name ++ lit " has balance " ++ shown_amounts b.
