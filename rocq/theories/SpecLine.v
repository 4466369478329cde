(** Specification vocabulary: what is read from any line whatsoever, well-formed or not, and which lines are refused. *)
From Coq Require Import String List NArith ZArith Bool.
From Verif Require Import Base Scanner SpecText SpecReading SpecScan.
Import ListNotations.
Open Scope nat_scope.

(** [x] are the characters in front of [s] that satisfy [p], all of them; [r] is the rest. *)
Definition run_of (p : N -> bool) (s x r : str) : Prop :=
  s = x ++ r /\ forallb p x = true /\ match r with c :: _ => p c = false | [] => True end.
(** [r] is [s] without the white space in front. *)
Definition skip (s r : str) : Prop := exists w, run_of is_ws s w r.
(** [t] is [s] without the white space around it. *)
Definition strip (s t : str) : Prop :=
  exists w w', s = w ++ t ++ w' /\ spaces w /\ spaces w' /\ (t = [] \/ trimmed t).
(** [s] is split at the first place where [pat] occurs.  The last argument is [pat] without its last character. *)
Definition first_at (pat front s a b : str) : Prop := s = a ++ pat ++ b /\ ~ contains pat (a ++ front).

Definition in_quantity (c : N) : bool := is_digit c || one_of "-.," c.
Definition in_symbol (c : N) : bool := negb (is_ws c || is_digit c || one_of "@-" c).

(** A quantity and a symbol in the order of the text; either may be empty. *)
Definition quantity_read (s q r : str) : Prop := exists r0, run_of in_quantity s q r0 /\ skip r0 r.
Definition symbol_read (s y r : str) : Prop := exists s1 r0, skip s s1 /\ run_of in_symbol s1 y r0 /\ skip r0 r.
Definition amount_read (s q y r : str) : Prop :=
  exists c x, skip s (c :: x) /\
    (in_quantity c = true /\ (exists r1, quantity_read (c :: x) q r1 /\ symbol_read r1 y r)
     \/ in_quantity c = false /\ exists r1, symbol_read (c :: x) y r1 /\ quantity_read r1 q r).

(** Lot prices and dates in any order.  A second one is allowed only if the first gave an empty text. *)
Inductive lots_read : str -> str -> str -> str -> str -> str -> str -> str -> Prop :=
| lr_end q y d s : match s with c :: _ => one_of "{[(" c = false | [] => True end -> lots_read q y d s q y d s
| lr_price y d s t s1 s2 q1 y1 r1 q2 y2 d2 r : s = lit "{" ++ t ++ lit "}" ++ s1 -> ~ In 125%N t -> amount_read t q1 y1 r1 -> skip s1 s2 ->
    lots_read q1 y1 d s2 q2 y2 d2 r -> lots_read [] y d s q2 y2 d2 r
| lr_date q y s t s1 s2 d1 r1 q2 y2 d2 r : s = lit "[" ++ t ++ lit "]" ++ s1 -> ~ In 93%N t -> run_of (fun c => negb (one_of " =" c)) t d1 r1 -> skip s1 s2 ->
    lots_read q y d1 s2 q2 y2 d2 r -> lots_read q y [] s q2 y2 d2 r.
(** A cost.  The character after [@] or [@@] is not looked at but for its length. *)
Inductive cost_read : str -> str -> str -> bool -> Prop :=
| cr_none s : hd_error s <> Some 64%N -> cost_read s [] [] false
| cr_unit c s q y r : c <> 64%N -> (c < 128)%N -> amount_read s q y r -> cost_read (lit "@" ++ c :: s) q y true
| cr_total c s q y r : (c < 128)%N -> amount_read s q y r -> cost_read (lit "@@" ++ c :: s) q y false.
(** A posting line. *)
Inductive post_read : str -> post_tokens -> Prop :=
| pr_account l c x a w : skip l (c :: x) -> c <> 59%N -> ~ contains (lit "  ") (c :: x) ->
    c :: x = a ++ w -> spaces w -> (exists a' d, a = a' ++ [d] /\ is_ws d = false) -> post_read l (mkPT a [] [] [] [] [] [] [] false)
| pr_amount l c x a b q y r lq ly d r' cq cy u : skip l (c :: x) -> c <> 59%N -> first_at (lit "  ") sp (c :: x) a b ->
    amount_read b q y r -> lots_read [] [] [] r lq ly d r' -> cost_read r' cq cy u -> post_read l (mkPT a q y lq ly d cq cy u).

(** Lots that are refused: a parenthesis, a second price or date, a bracket that is not closed, and a price without text. *)
Inductive lots_refused : str -> str -> str -> Prop :=
| lf_paren q d s : lots_refused q d (40%N :: s)
| lf_price_again q d s : q <> [] -> lots_refused q d (123%N :: s)
| lf_date_again q d s : d <> [] -> lots_refused q d (91%N :: s)
| lf_price_open q d s : ~ In 125%N s -> lots_refused q d (123%N :: s)
| lf_date_open q d s : ~ In 93%N s -> lots_refused q d (91%N :: s)
| lf_price_empty q d t s : spaces t -> lots_refused q d (lit "{" ++ t ++ lit "}" ++ s)
| lf_price d t s1 s2 q1 y1 r1 : ~ In 125%N t -> amount_read t q1 y1 r1 -> skip s1 s2 -> lots_refused q1 d s2 -> lots_refused [] d (lit "{" ++ t ++ lit "}" ++ s1)
| lf_date q t s1 s2 d1 r1 : ~ In 93%N t -> run_of (fun c => negb (one_of " =" c)) t d1 r1 -> skip s1 s2 -> lots_refused q d1 s2 -> lots_refused q [] (lit "[" ++ t ++ lit "]" ++ s1).
(** Costs that are refused: nothing but white space after the character that follows [@] or [@@], no such character,
    or one of more than one byte. *)
Inductive cost_refused : str -> Prop :=
| cf_end : cost_refused (lit "@")
| cf_end_total : cost_refused (lit "@@")
| cf_wide c s : (128 <= c)%N -> cost_refused (lit "@" ++ c :: s)
| cf_wide_total c s : (128 <= c)%N -> cost_refused (lit "@@" ++ c :: s)
| cf_unit c s : c <> 64%N -> spaces s -> cost_refused (lit "@" ++ c :: s)
| cf_total c s : spaces s -> cost_refused (lit "@@" ++ c :: s).
Inductive post_refused : str -> Prop :=
| pf_blank l : spaces l -> post_refused l
| pf_note l r : skip l (59%N :: r) -> post_refused l
| pf_amount l s a b : skip l s -> first_at (lit "  ") sp s a b -> spaces b -> post_refused l
| pf_lots l s a b q y r : skip l s -> first_at (lit "  ") sp s a b -> amount_read b q y r -> lots_refused [] [] r -> post_refused l
| pf_cost l s a b q y r lq ly d r' : skip l s -> first_at (lit "  ") sp s a b -> amount_read b q y r ->
    lots_read [] [] [] r lq ly d r' -> cost_refused r' -> post_refused l.

(** A header line. *)
Definition date_read (l d r : str) : Prop := run_of (fun c => negb (one_of " =" c)) l d r.
Definition aux_read (s aux r : str) : Prop :=
  hd_error s <> Some 61%N /\ aux = [] /\ r = s
  \/ hd_error s = Some 61%N /\ exists x s1, run_of (fun c => (c =? 61)%N) s x s1 /\ run_of (fun c => negb (c =? 32)%N) s1 aux r.
Definition payee_read (s payee note : str) : Prop :=
  ~ contains (lit "  ;") s /\ strip s payee /\ note = []
  \/ exists a b, first_at (lit "  ;") (lit "  ") s a b /\ strip a payee /\ strip b note.
Definition header_read (l d aux payee note : str) : Prop :=
  l <> [] /\ exists r1 r2, date_read l d r1 /\ aux_read r1 aux r2 /\ payee_read r2 payee note.

(** A price line: five texts ended by a space or tab, the second of them left out if it does not start with a digit. *)
Definition item_read (s x r : str) : Prop := exists s1, skip s s1 /\ run_of (fun c => negb ((c =? 32) || (c =? 9)))%N s1 x r.
Definition price_read (l date time s q t : str) : Prop :=
  exists c r0 r1 k r2 r3 r4 r5, l = c :: r0 /\ (c < 128)%N /\ item_read r0 date r1 /\ skip r1 k /\ k <> []
    /\ (starts_digit k = true /\ item_read k time r2 \/ starts_digit k = false /\ time = [] /\ r2 = k)
    /\ item_read r2 s r3 /\ item_read r3 q r4 /\ item_read r4 t r5.
(** Price lines that are refused: nothing after the date, or a first character of more than one byte. *)
Definition price_refused (l : str) : Prop :=
  l = [] \/ exists c r0, l = c :: r0 /\ ((128 <= c)%N \/ exists date r1, item_read r0 date r1 /\ spaces r1).
