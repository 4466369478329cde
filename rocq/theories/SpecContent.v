(** Specification vocabulary: what the lines of a source say, whatever they are. *)
From Coq Require Import String List NArith ZArith Bool.
From Verif Require Import Base Dates Decimal Amount Balance Scanner Account Journal Parser.
From Verif Require Import SpecText SpecDecimal SpecAmount SpecReading SpecDates SpecAccount SpecXact SpecScan SpecOutline SpecLine SpecValue.
Import ListNotations.
Open Scope nat_scope.

(** The transactions of a source: for each its header line and its posting and note lines, in order.  The first argument
    is the transaction being read. *)
Inductive entry := Posting_line (l : str) | Note_line (l : str).
Definition entries : Type := str * list entry.
Inductive content (cwd : str) (fs : filesystem) : option entries -> source -> list entries -> Prop :=
| ct_end : content cwd fs None [] []
| ct_end_xact x : content cwd fs (Some x) [] [x]
| ct_undecodable src : content cwd fs None (None :: src) []
| ct_undecodable_xact x src its : content cwd fs None src its -> content cwd fs (Some x) (None :: src) (x :: its)
| ct_inert l src its : inert l -> content cwd fs None src its -> content cwd fs None (l :: src) its
| ct_price l src its : read_as_price l -> content cwd fs None src its -> content cwd fs None (Some l :: src) its
| ct_missing l arg p src its : include_line l arg -> names_file cwd arg p -> fs p = None \/ ~ file_path p ->
    content cwd fs None src its -> content cwd fs None (Some l :: src) its
| ct_include l arg p f src its its' : include_line l arg -> names_file cwd arg p -> fs p = Some f ->
    content cwd fs None f its -> content cwd fs None src its' -> content cwd fs None (Some l :: src) (its ++ its')
| ct_header c r src its : is_digit c = true -> content cwd fs (Some (c :: r, [])) src its -> content cwd fs None (Some (c :: r) :: src) its
| ct_note h es r src its : first_mark r 59%N -> content cwd fs (Some (h, es ++ [Note_line r])) src its ->
    content cwd fs (Some (h, es)) (Some (32%N :: r) :: src) its
| ct_posting h es r c src its : first_mark r c -> c <> 59%N -> content cwd fs (Some (h, es ++ [Posting_line r])) src its ->
    content cwd fs (Some (h, es)) (Some (32%N :: r) :: src) its
| ct_blank x l src its : spaces l -> hd 0%N l = 32%N -> content cwd fs None src its ->
    content cwd fs (Some x) (Some l :: src) (x :: its)
| ct_return x l src its : hd 0%N l = 13%N \/ hd 0%N l = 10%N -> content cwd fs None src its ->
    content cwd fs (Some x) (Some l :: src) (x :: its).

(** The text of a note line.  Of several notes the last one that is not empty is kept. *)
Definition note_text (r t : str) : Prop := exists b, skip r (59%N :: b) /\ strip b t.
Definition last_note (rs : list str) (before after : option str) : Prop :=
  exists ts, Forall2 note_text rs ts /\ after = last (map Some (filter (fun t => negb (is_empty t)) ts)) before.

(** The amount that a quantity and a symbol stand for; none if the quantity is not a number. *)
Definition number_text (q : str) : Prop := exists u k, denotes q u k.
Definition amount_told (q s : str) (a : option amount) : Prop :=
  (exists u k x, denotes q u k /\ a = Some x /\ amount_is x u k s) \/ ~ number_text q /\ a = None.
(** The cost: as written after [@@]; after [@] the amount times what is written, rounded once. *)
Definition cost_told (tok : post_tokens) (a c : option amount) : Prop :=
  (a = None \/ ~ number_text (t_cost_quantity tok)) /\ c = None
  \/ exists x v k y, a = Some x /\ denotes (t_cost_quantity tok) v k /\ c = Some y
     /\ if t_is_per_unit tok
        then a_c y = commodity_of (match t_cost_symbol tok with [] => t_symbol tok | s => s end) /\ nearest (aunits x * v) unit1 (a_q y)
        else amount_is y v k (t_cost_symbol tok).
Definition post_told (tok : post_tokens) (p : post) : Prop :=
  po_account p = components (t_account tok) /\ amount_told (t_quantity tok) (t_symbol tok) (po_amount p) /\ cost_told tok (po_amount p) (po_cost p).

(** How a transaction is completed at its end: it is left as written, or gets costs at the rate of its two commodities,
    or its only posting without amount gets one. *)
Inductive completed (ps : list post) : list post -> Prop :=
| cp_written : complete ps -> (forall x y, ~ two_commodities ps x y) -> completed ps ps
| cp_implied ps' x y q : complete ps -> two_commodities ps x y -> rounded (total y (worths ps) * unit1) (total x (worths ps)) q ->
    Forall2 (fun p p' => exists a, po_amount p = Some a
         /\ (a_c a <> x -> p' = p)
         /\ (a_c a = x -> exists k, p' = mkPost (po_account p) (Some a) (Some k) (po_note p)
              /\ a_c k = y /\ rounded (Z.abs (units q) * aunits a) unit1 (a_q k))) ps ps' -> completed ps ps'
| cp_elided l1 p l2 a c : one_elided ps l1 p l2 -> only_in c (worths ps) -> a_c a = c -> wf_amt a -> aunits a = (- Z.abs (total c (worths ps)))%Z ->
    completed ps (l1 ++ mkPost (po_account p) (Some a) (po_cost p) (po_note p) :: l2).

(** A header line. *)
Definition header_told (h : str) (note : option str) (x : xact) : Prop :=
  exists d aux payee n, header_read h d aux payee n
    /\ (exists e, denotes_date d e /\ x_date x = Some e)
    /\ (aux = [] /\ x_aux_date x = None \/ exists e, denotes_date aux e /\ x_aux_date x = Some e)
    /\ x_payee x = (match payee with [] => lit "Unknown Payee" | _ => payee end)
    /\ note = (match n with [] => None | _ => Some n end).
(** A transaction before it is completed. *)
Definition draft_told (o : entries) (x : xact) : Prop :=
  exists note ns es, header_told (fst o) note x
    /\ snd o = map Note_line ns ++ flat_map (fun e => Posting_line (fst e) :: map Note_line (snd e)) es
    /\ last_note ns note (x_note x)
    /\ Forall2 (fun e p => exists tok, post_read (fst e) tok /\ post_told tok p /\ last_note (snd e) None (po_note p)) es (x_posts x).
(** A transaction of the journal.  It is completed as above if the sums of its amounts need no rounding; in any case its
    postings keep their accounts, notes and amounts. *)
Definition xact_told (o : entries) (x : xact) : Prop :=
  exists ps, draft_told o (mkXact (x_date x) (x_aux_date x) (x_payee x) (x_note x) ps)
    /\ length ps <> 1 /\ Forall2 same_posting ps (x_posts x)
    /\ (fits_amts (worths ps) -> completed ps (x_posts x)).
