(** Specification vocabulary: the transactions of a source as its lines show them. *)
From Coq Require Import String List NArith ZArith Bool.
From Verif Require Import Base Dates Scanner Journal Parser SpecText SpecReading SpecDates SpecAccount SpecScan.
Import ListNotations.
Open Scope nat_scope.

(** A line between transactions that is taken for a price: its first word starts with [i] but is not a
    directive. *)
Definition read_as_price (l : str) : Prop :=
  exists w x r, l = w ++ x ++ r /\ spaces w /\ word x /\ (r = [] \/ exists c r', r = c :: r' /\ is_ws c = true)
    /\ hd 0%N x = 105%N /\ x <> lit "include" /\ x <> lit "import".
(** The first character after the indentation. *)
Definition first_mark (l : str) (c : N) : Prop := exists w r, l = w ++ c :: r /\ spaces w /\ is_ws c = false.

(** The transactions of a source, for each its header line and its posting lines, and the lines taken for
    prices, in order.  The first argument is the transaction being read. *)
Definition lines_read : Type := str * list str.
Inductive item := Lines (o : lines_read) | Price_line (l : str).
Inductive outline (cwd : str) (fs : filesystem) : option lines_read -> source -> list item -> Prop :=
| ol_end : outline cwd fs None [] []
| ol_end_xact x : outline cwd fs (Some x) [] [Lines x]
| ol_undecodable src : outline cwd fs None (None :: src) []
| ol_undecodable_xact x src its : outline cwd fs None src its -> outline cwd fs (Some x) (None :: src) (Lines x :: its)
| ol_inert l src its : inert l -> outline cwd fs None src its -> outline cwd fs None (l :: src) its
| ol_price l src its : read_as_price l -> outline cwd fs None src its -> outline cwd fs None (Some l :: src) (Price_line l :: its)
| ol_missing l arg p src its : include_line l arg -> names_file cwd arg p -> fs p = None \/ ~ file_path p ->
    outline cwd fs None src its -> outline cwd fs None (Some l :: src) its
| ol_include l arg p f src its its' : include_line l arg -> names_file cwd arg p -> fs p = Some f ->
    outline cwd fs None f its -> outline cwd fs None src its' -> outline cwd fs None (Some l :: src) (its ++ its')
| ol_header c r src its : is_digit c = true -> outline cwd fs (Some (c :: r, [])) src its -> outline cwd fs None (Some (c :: r) :: src) its
| ol_note h ps r src its : first_mark r 59%N -> outline cwd fs (Some (h, ps)) src its ->
    outline cwd fs (Some (h, ps)) (Some (32%N :: r) :: src) its
| ol_posting h ps r c src its : first_mark r c -> c <> 59%N -> outline cwd fs (Some (h, ps ++ [r])) src its ->
    outline cwd fs (Some (h, ps)) (Some (32%N :: r) :: src) its
| ol_blank x l src its : spaces l -> hd 0%N l = 32%N -> outline cwd fs None src its ->
    outline cwd fs (Some x) (Some l :: src) (Lines x :: its)
| ol_return x l src its : hd 0%N l = 13%N \/ hd 0%N l = 10%N -> outline cwd fs None src its ->
    outline cwd fs (Some x) (Some l :: src) (Lines x :: its).
Definition xact_lines (its : list item) : list lines_read := flat_map (fun i => match i with Lines o => [o] | Price_line _ => [] end) its.
Definition price_lines (its : list item) : list str := flat_map (fun i => match i with Lines _ => [] | Price_line l => [l] end) its.

(** The account written in a posting line: up to two spaces, or the whole line without the white space
    around it. *)
Definition account_written (r a : str) : Prop :=
  exists w t, r = w ++ t /\ spaces w /\ (exists c t', t = c :: t' /\ is_ws c = false)
    /\ ((exists b, t = a ++ lit "  " ++ b /\ ~ contains (lit "  ") (a ++ sp))
        \/ (~ contains (lit "  ") t /\ exists v, t = a ++ v /\ spaces v /\ exists q d, a = q ++ [d] /\ is_ws d = false)).
(** The date written in a header line: up to a space or equals sign. *)
Definition date_of_header (h : str) (d : date) : Prop :=
  exists dt r, h = dt ++ r /\ date_text dt /\ denotes_date dt d /\ (r = [] \/ exists c r', r = c :: r' /\ In c (lit " =")).
(** The transaction has the date of its header line and one posting per posting line, in the account named there. *)
Definition read_from (o : lines_read) (x : xact) : Prop :=
  (exists d, date_of_header (fst o) d /\ x_date x = Some d)
  /\ Forall2 (fun l p => exists a, account_written l a /\ po_account p = components a) (snd o) (x_posts x).

(** The lines of postings. *)
Definition posting_lines (its : list item) : list str := flat_map snd (xact_lines its).
(** The parts of a posting line as the syntax has them; an amount with a cost is a number. *)
Definition clear_posting (l : str) (tok : post_tokens) : Prop :=
  posting_line l tok /\ (t_cost_symbol tok = [] \/ exists u k, denotes (t_quantity tok) u k).
(** The symbols of the amount, the lot price and the cost. *)
Definition written_symbol (tok : post_tokens) (s : str) : Prop :=
  s <> [] /\ (s = t_symbol tok \/ s = t_price_commodity tok \/ s = t_cost_symbol tok).
