(** Specification vocabulary: what two descriptions of a transaction have in common if the same is kept of both. *)
From Coq Require Import String List NArith ZArith Bool.
From Verif Require Import Base Decimal Dates Amount Journal Parser.
From Verif Require Import SpecDecimal SpecText SpecReading SpecAccount SpecJournal SpecXact SpecWhole SpecFull.
Import ListNotations.
Open Scope list_scope.
Open Scope nat_scope.

(** The commodity and the units of the cost of [v] in [w]: the implied one if there is one, else the written one, for all of the amount. *)
Definition cost_in (w : fxact) (v : wvalue) (c : option (str * Z)) : Prop :=
  (exists y r, priced_at w (wa_symbol (wv_amount v)) y r /\ c = Some (y, rate_cost r v))
  \/ (forall y r, ~ priced_at w (wa_symbol (wv_amount v)) y r) /\ c = match wv_cost v with None => None | Some _ => Some (worth_symbol v, worth_units v) end.
(** What is left out in [w] is the amount [a]. *)
Definition left_out (w : fxact) (a : wamount) : Prop :=
  wa_units a = (- Z.abs (sumZ (map worth_units (values_of (fx_posts w)))))%Z
  /\ Forall (fun v => worth_symbol v = wa_symbol a) (values_of (fx_posts w)).
(** The same is known of both postings; of the account up to a colon at its end, of the notes the last one. *)
Definition alike_posting (w w' : fxact) (p p' : fposting) : Prop :=
  components (fp_account p) = components (fp_account p') /\ last_of (fp_notes p) None = last_of (fp_notes p') None
  /\ match fp_value p, fp_value p' with
     | Some v, Some v' => wv_amount v = wv_amount v' /\ forall c c', cost_in w v c -> cost_in w' v' c' -> c = c'
     | Some v, None => left_out w' (wv_amount v) /\ forall c, cost_in w v c -> c = None
     | None, Some v' => left_out w (wv_amount v') /\ forall c, cost_in w' v' c -> c = None
     | None, None => Z.abs (sumZ (map worth_units (values_of (fx_posts w)))) = Z.abs (sumZ (map worth_units (values_of (fx_posts w'))))
         /\ forall v v', In v (values_of (fx_posts w)) -> In v' (values_of (fx_posts w')) -> worth_symbol v = worth_symbol v'
     end.
Definition header_note (w : fxact) : option str := match fx_note w with [] => None | n => Some n end.
Definition alike (w w' : fxact) : Prop :=
  fx_date w = fx_date w' /\ fx_aux w = fx_aux w' /\ fx_payee w = fx_payee w'
  /\ last_of (fx_notes w) (header_note w) = last_of (fx_notes w') (header_note w')
  /\ Forall2 (alike_posting w w') (fx_posts w) (fx_posts w').
(** The text [t] is read into [j] and says [ws]. *)
Definition read_as (depth : nat) (cwd : str) (fs : filesystem) (t : str) (ws : list fxact) (j j' : journal) : Prop :=
  (exists lines, lines_of t lines /\ says cwd fs depth lines ws) /\ Forall xact_ok ws /\ lots_ok (j_pool j) ws
  /\ reachable_journal j /\ parse_text depth cwd fs t j = Ok j'.
(** Two texts that say [ws] and [ws'] give the same journal. *)
Definition same_journal (ws ws' : list fxact) : Prop :=
  exists cwd fs t t' j, read_as 0 cwd fs t ws journal_new j /\ read_as 0 cwd fs t' ws' journal_new j.
