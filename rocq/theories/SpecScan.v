(** Specification vocabulary for the syntax of postings and transaction headers: how a line is
    written down from its parts. *)
From Coq Require Import String List NArith ZArith Bool.
From Verif Require Import Base Decimal Dates Amount Pool Account Journal Scanner.
From Verif Require Import SpecDecimal SpecAmount SpecDates SpecText SpecReading.
Import ListNotations.
Open Scope nat_scope.

Definition one_of (chars : string) (c : char) : bool := existsb (N.eqb c) (lit chars).
(** Digits, '-', '.' and ','. *)
Definition quantity_text (q : str) : Prop := q <> [] /\ forallb (fun c => is_digit c || one_of "-.," c) q = true.
(** A commodity symbol: no white space, digits, '@' or '-'. *)
Definition symbol_text (s : str) : Prop :=
  s <> [] /\ forallb (fun c => negb (is_ws c || is_digit c || one_of "@-" c)) s = true.
Definition starts_with_one_of (chars : string) (s : str) : Prop := exists c r, s = c :: r /\ one_of chars c = true.

(** [written_amount t q s]: the text [t] is the quantity [q] with the symbol [s] (empty if there is none)
    after or before it, with or without space between them.  A symbol directly after a quantity must not
    start with '.' or ',', nor one before a quantity; a quantity directly after a symbol must not start
    with '.' or ','. *)
Inductive written_amount : str -> str -> str -> Prop :=
| wa_bare q : quantity_text q -> written_amount q q []
| wa_after q ws s : quantity_text q -> spaces ws -> symbol_text s ->
    (ws = [] -> ~ starts_with_one_of ".," s) -> written_amount (q ++ ws ++ s) q s
| wa_before q ws s : quantity_text q -> spaces ws -> symbol_text s ->
    ~ starts_with_one_of ".," s -> (ws = [] -> ~ starts_with_one_of ".," q) -> written_amount (s ++ ws ++ q) q s.

(** A lot price, a lot date and a cost, each optional and preceded by space. *)
Definition space (ws : str) : Prop := ws <> [] /\ spaces ws.
Inductive lot_price : str -> str -> str -> Prop :=
| lp_none : lot_price [] [] []
| lp_some ws w1 t w2 q s : space ws -> spaces w1 -> spaces w2 -> written_amount t q s -> ~ In 125%N t ->
    lot_price (ws ++ lit "{" ++ w1 ++ t ++ w2 ++ lit "}") q s.
Inductive lot_date : str -> str -> Prop :=
| ld_none : lot_date [] []
| ld_some ws d : space ws -> d <> [] -> forallb (fun c => negb (one_of " =]" c)) d = true ->
    lot_date (ws ++ lit "[" ++ d ++ lit "]") d.
Inductive cost : str -> str -> str -> bool -> Prop :=
| c_none : cost [] [] [] false
| c_unit ws w1 t q s : space ws -> spaces w1 -> written_amount t q s -> cost (ws ++ lit "@ " ++ w1 ++ t) q s true
| c_total ws w1 t q s : space ws -> spaces w1 -> written_amount t q s -> cost (ws ++ lit "@@ " ++ w1 ++ t) q s false.

(** The text contains [pat]. *)
Definition contains (pat s : str) : Prop := exists u v, s = u ++ pat ++ v.
(** An account name: it does not start with white space or ';', and has no two spaces in a row, even
    when a space is put after it. *)
Definition account_text (a : str) : Prop :=
  (exists c r, a = c :: r /\ is_ws c = false /\ c <> 59%N) /\ ~ contains (lit "  ") (a ++ sp).

(** A posting line without its line feed or with it, and its parts. *)
Inductive posting_line : str -> post_tokens -> Prop :=
| pl_account w0 a w1 : spaces w0 -> spaces w1 -> account_text a -> (forall r c, a = r ++ [c] -> is_ws c = false) ->
    ~ contains (lit "  ") (a ++ w1) ->
    posting_line (w0 ++ a ++ w1) (mkPT a [] [] [] [] [] [] [] false)
| pl_amount w0 a w1 t q s lot lq ls date d c cq cs unit w2 :
    spaces w0 -> spaces w1 -> spaces w2 -> account_text a ->
    written_amount t q s -> lot_price lot lq ls -> lot_date date d -> cost c cq cs unit ->
    (s = [] -> lot = [] /\ date = []) ->
    posting_line (w0 ++ a ++ lit "  " ++ w1 ++ t ++ lot ++ date ++ c ++ w2) (mkPT a q s lq ls d cq cs unit).

(** ** Transaction headers *)
Definition date_text (d : str) : Prop := d <> [] /\ forallb (fun c => negb (one_of " =" c)) d = true.
Inductive aux_text : str -> str -> Prop :=
| ax_none : aux_text [] []
| ax_some d : date_text d -> aux_text (lit "=" ++ d) d.
(** The end of a header: the note, or white space. *)
Inductive header_end : str -> str -> Prop :=
| he_none w : spaces w -> header_end w []
| he_note w1 n w2 : spaces w1 -> spaces w2 -> trimmed n -> header_end (lit "  ;" ++ w1 ++ n ++ w2) n.
(** [header_line l date aux payee note]; there are no "  ;" but in front of the note. *)
Inductive header_line : str -> str -> str -> str -> str -> Prop :=
| hl_payee date aux_t aux ws payee tail note :
    date_text date -> aux_text aux_t aux -> spaces ws -> trimmed payee -> header_end tail note ->
    ~ contains (lit "  ;") (sp ++ ws ++ payee) -> (note = [] -> ~ contains (lit "  ;") (sp ++ ws ++ payee ++ tail)) ->
    header_line (date ++ aux_t ++ sp ++ ws ++ payee ++ tail) date aux payee note.

(** ** Meaning *)

(** The text [t] is a number with [k] decimals and the value [u] (in multiples of 10^-28). *)
Definition denotes (t : str) (u : Z) (k : nat) : Prop :=
  exists sign neg whole pt frac,
    t = sign ++ whole ++ pt ++ frac
    /\ (sign = [] /\ neg = false \/ sign = [minus_c] /\ neg = true)
    /\ forallb is_digit whole = true /\ forallb is_digit frac = true
    /\ (pt = [] /\ frac = [] \/ pt = [point_c]) /\ whole ++ frac <> []
    /\ (number (whole ++ frac) < 2 ^ 96)%Z /\ length frac = k /\ k <= 28
    /\ u = ((if neg then - number (whole ++ frac) else number (whole ++ frac)) * 10 ^ Z.of_nat (28 - k))%Z.

(** The text [t] is the date [d], YYYY-MM-DD. *)
Definition date_written (t : str) (d : date) : Prop :=
  exists y m n, t = y ++ lit "-" ++ m ++ lit "-" ++ n
    /\ forallb is_digit (y ++ m ++ n) = true /\ length y = 4 /\ length m = 2 /\ length n = 2
    /\ d = mkDate (number y) (number m) (number n) /\ valid_date d.
(** An auxiliary date is optional. *)
Definition aux_written (t : str) (d : option date) : Prop :=
  t = [] /\ d = None \/ exists e, date_written t e /\ d = Some e.

(** The commodity a symbol stands for. *)
Definition commodity_of (s : str) : comm := match s with [] => None | _ => Some s end.
(** [a] is the quantity [u] with [k] decimals of the commodity with symbol [s]. *)
Definition amount_is (a : amount) (u : Z) (k : nat) (s : str) : Prop :=
  wf_amt a /\ aunits a = u /\ d_s (a_q a) = k /\ a_c a = commodity_of s.

(** The postings of transaction [xi] got the new last one [p]; no transaction changed otherwise. *)
Definition adds_posting (j : journal) (xi : nat) (p : post) (j' : journal) : Prop :=
  (exists x, nth_error (j_xacts j) xi = Some x
     /\ nth_error (j_xacts j') xi = Some (mkXact (x_date x) (x_aux_date x) (x_payee x) (x_note x) (x_posts x ++ [p])))
  /\ (forall k, k <> xi -> nth_error (j_xacts j') k = nth_error (j_xacts j) k).

(** The journal with a new transaction without postings and without a payee of its own. *)
Definition unknown (j : journal) (d : date) (note : option str) : journal :=
  mkJournal (j_master j) (j_pool j) (j_xacts j ++ [mkXact (Some d) None (lit "Unknown Payee") note []]).
