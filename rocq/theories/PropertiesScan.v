(** C10, C23-C26, C48, C49: the syntax of postings and transaction headers. *)
From Coq Require Import String List NArith ZArith Bool Lia.
From Verif Require Import Base Decimal Dates Amount Balance Scanner History Pool Account Journal Xact Parser.
From Verif Require Import SpecDecimal SpecAmount SpecDates SpecPool SpecJournal SpecText SpecReading SpecScan.
From Verif Require Import ScanProofs PostProofs HeaderProofs DemoJournal DemoScan.
Import ListNotations.
Open Scope list_scope.
Open Scope nat_scope.

(** ** C10: cost of a posting *)
Theorem C10_unit_cost :
  forall j xi l a q s lq ls d cq cs j' u k v k',
  posting_line l (mkPT a q s lq ls d cq cs true) -> denotes q u k -> denotes cq v k' -> parse_post j xi l = Ok j' ->
  exists p am c, adds_posting j xi p j' /\ po_amount p = Some am /\ amount_is am u k s
    /\ po_cost p = Some c /\ a_c c = commodity_of (match cs with [] => s | _ => cs end)
    /\ rounded (u * v) unit1 (a_q c)
    /\ (forall e, wf_dec e -> (units e * unit1 = u * v)%Z -> aunits c = units e).
Proof. exact unit_cost_read. Qed.
Print Assumptions C10_unit_cost.

Theorem C10_total_cost :
  forall j xi l a q s lq ls d cq cs j' u k v k',
  posting_line l (mkPT a q s lq ls d cq cs false) -> denotes q u k -> denotes cq v k' -> parse_post j xi l = Ok j' ->
  exists p am c, adds_posting j xi p j' /\ po_amount p = Some am /\ amount_is am u k s
    /\ po_cost p = Some c /\ amount_is c v k' cs.
Proof. exact total_cost_read. Qed.
Print Assumptions C10_total_cost.

Theorem C10_no_cost :
  forall j xi l tok j', posting_line l tok -> parse_post j xi l = Ok j' ->
  exists p, adds_posting j xi p j' /\ (t_cost_quantity tok = [] \/ po_amount p = None -> po_cost p = None).
Proof. exact no_cost_read. Qed.
Print Assumptions C10_no_cost.

Example C10_case :
  posting_line full_line full_tokens /\ denotes (lit "-10") (-10 * unit1) 0 /\ denotes (lit "25") (25 * unit1) 0
  /\ parse_post j1 1 full_line = Ok j3
  /\ exists x p, nth_error (j_xacts j3) 1 = Some x /\ nth_error (x_posts x) 2 = Some p
     /\ po_cost p = Some (mkAmt (mkDec true 250 0) (Some (lit "$"))).
Proof.
  split; [exact full_posting|]. split; [exact denotes_m10|]. split; [exact denotes_25|]. split; [exact j3_ok|].
  eexists. eexists. repeat split; vm_compute; reflexivity.
Qed.

(** ** C23: posting lines *)
Theorem C23_posting_scanned : forall l tokens, posting_line l tokens -> scan_post l = Ok tokens.
Proof. exact posting_scanned. Qed.
Print Assumptions C23_posting_scanned.

(** [posting_line] has no lot on an amount without symbol: there, it is false. *)
Theorem C23_bare_lot_refuted :
  ~ (forall a t q s lot lq ls date d,
       account_text a -> written_amount t q s -> lot_price lot lq ls -> lot_date date d ->
       scan_post (a ++ lit "  " ++ t ++ lot ++ date) = Ok (mkPT a q s lq ls d [] [] false)).
Proof. exact bare_lot_refuted. Qed.
Print Assumptions C23_bare_lot_refuted.

Example C23_case : posting_line full_line full_tokens /\ scan_post full_line = Ok full_tokens.
Proof. split; [exact full_posting|]. vm_compute. reflexivity. Qed.

(** ** C24: transaction headers *)
Theorem C24_header_scanned :
  forall l date aux payee note, header_line l date aux payee note -> tokenize_xact_header l = Ok (date, aux, payee, note).
Proof. exact header_scanned. Qed.
Print Assumptions C24_header_scanned.

Theorem C24_header_read :
  forall j l dt d auxt aux payee note,
  header_line l dt auxt payee note -> date_written dt d -> aux_written auxt aux ->
  create_xact j l = Ok (mkJournal (j_master j) (j_pool j)
    (j_xacts j ++ [mkXact (Some d) aux payee (match note with [] => None | _ => Some note end) []])).
Proof. exact header_read. Qed.
Print Assumptions C24_header_read.

Example C24_case :
  header_line demo_header (lit "2023-04-05") (lit "2023-04-06") (lit "The; Shop") (lit "a note")
  /\ date_written (lit "2023-04-05") (mkDate 2023 4 5) /\ aux_written (lit "2023-04-06") (Some (mkDate 2023 4 6)).
Proof. split; [exact demo_header_line|]. split; [exact date_0405|]. right. eexists. split; [exact date_0406|reflexivity]. Qed.

(** ** C25: no space after @ *)
Theorem C25_glued_cost_refuted :
  ~ (forall a t q s t' q' s',
       account_text a -> written_amount t q s -> s <> [] -> written_amount t' q' s' ->
       scan_post (a ++ lit "  " ++ t ++ lit " @" ++ t') = scan_post (a ++ lit "  " ++ t ++ lit " @ " ++ t')).
Proof. exact glued_cost_refuted. Qed.
Print Assumptions C25_glued_cost_refuted.

(** What happens instead: the first character of the cost is dropped (if it is ASCII). *)
Theorem C25_first_character_lost_partial :
  forall c r, utf8_len c = 1 ->
  (c <> 64%N -> scan_cost (lit "@" ++ c :: r) = scan_cost (lit "@ " ++ r))
  /\ scan_cost (lit "@@" ++ c :: r) = scan_cost (lit "@@ " ++ r).
Proof. exact (fun c r U => conj (cost_first_character_lost c r U) (total_first_character_lost c r U)). Qed.
Print Assumptions C25_first_character_lost_partial.

(** The number of spaces, one or more, makes no difference. *)
Theorem C25_any_spaces_partial :
  forall t q s ws w2, written_amount t q s -> spaces ws -> spaces w2 ->
  scan_cost (lit "@ " ++ ws ++ t ++ w2) = Ok (q, s, true) /\ scan_cost (lit "@@ " ++ ws ++ t ++ w2) = Ok (q, s, false).
Proof. exact cost_any_spaces. Qed.
Print Assumptions C25_any_spaces_partial.

Example C25_case :
  scan_cost (lit "@25 EUR") = Ok (lit "5", lit "EUR", true) /\ scan_cost (lit "@@25 EUR") = Ok (lit "5", lit "EUR", false)
  /\ written_amount (lit "25 EUR") (lit "25") (lit "EUR").
Proof. split; [vm_compute; reflexivity|]. split; [vm_compute; reflexivity|]. exact (after_eur (lit "25") eq_refl). Qed.

(** ** C26: a written amount is not ignored *)
(** False for thousands separators, ... *)
Theorem C26_ignored_refuted :
  ~ (forall j xi l tok j', reachable_journal j ->
       posting_line l tok -> t_quantity tok <> [] -> parse_post j xi l = Ok j' ->
       exists p a, adds_posting j xi p j' /\ po_amount p = Some a).
Proof. exact ignored_refuted. Qed.
Print Assumptions C26_ignored_refuted.
(** ... for a decimal point directly after the symbol, ... *)
Theorem C26_other_number_refuted :
  ~ (forall j xi a s q u k j', reachable_journal j ->
       account_text a -> symbol_text s -> denotes q u k -> parse_post j xi (a ++ lit "  " ++ s ++ q) = Ok j' ->
       exists p am, adds_posting j xi p j' /\ po_amount p = Some am /\ aunits am = u).
Proof. exact other_number_refuted. Qed.
Print Assumptions C26_other_number_refuted.
(** ... and after a tab. *)
Theorem C26_tab_refuted :
  ~ (forall j xi a t q s j', reachable_journal j ->
       account_text a -> written_amount t q s -> parse_post j xi (a ++ [9%N] ++ t) = Ok j' ->
       exists p am, adds_posting j xi p j' /\ po_amount p = Some am).
Proof. exact tab_refuted. Qed.
Print Assumptions C26_tab_refuted.

(** Plain numbers are read. *)
Theorem C26_plain_number_partial :
  forall j xi l a q s lq ls d cq cs unit j' u k,
  posting_line l (mkPT a q s lq ls d cq cs unit) -> denotes q u k -> parse_post j xi l = Ok j' ->
  exists p am, adds_posting j xi p j' /\ po_amount p = Some am /\ amount_is am u k s.
Proof. exact amount_read. Qed.
Print Assumptions C26_plain_number_partial.

(** On the documented syntax, an amount that is read is never a different one. *)
Theorem C26_no_other_number_partial :
  forall j xi l tok j', posting_line l tok -> parse_post j xi l = Ok j' ->
  exists p, adds_posting j xi p j'
    /\ forall a, po_amount p = Some a -> a_c a = commodity_of (t_symbol tok)
       /\ exists neg whole frac, literal_of (t_quantity tok) neg whole frac
          /\ aunits a = ((if neg then - number (whole ++ frac) else number (whole ++ frac)) * 10 ^ Z.of_nat (28 - length frac))%Z.
Proof. exact no_other_number. Qed.
Print Assumptions C26_no_other_number_partial.

Example C26_case :
  posting_line full_line full_tokens /\ parse_post j1 1 full_line = Ok j3
  /\ last_amount j3 = Some (mkAmt (mkDec true 10 0) (Some (lit "VTI"))).
Proof. split; [exact full_posting|]. split; [exact j3_ok|]. vm_compute. reflexivity. Qed.

(** ** C48: lot annotations *)
(** False: only the first annotation of a commodity is stored, and the first posting without lot
    counts as one. *)
Theorem C48_lot_refuted :
  ~ (forall j xi l a q s lq ls d cq cs unit j' u k, reachable_journal j ->
       posting_line l (mkPT a q s lq ls d cq cs unit) -> s <> [] -> denotes lq u k -> parse_post j xi l = Ok j' ->
       exists an pr, lookup s (p_ann (j_pool j')) = Some an /\ an_price an = Some pr /\ amount_is pr u k ls).
Proof. exact lot_refuted. Qed.
Print Assumptions C48_lot_refuted.

Theorem C48_first_lot_partial :
  forall j xi l a q s lq ls d cq cs unit j',
  posting_line l (mkPT a q s lq ls d cq cs unit) -> s <> [] -> lookup s (p_ann (j_pool j)) = None -> parse_post j xi l = Ok j' ->
  exists an, lookup s (p_ann (j_pool j')) = Some an
    /\ (forall u k, denotes lq u k -> exists pr, an_price an = Some pr /\ amount_is pr u k ls)
    /\ (lq = [] -> an_price an = None)
    /\ an_date an = (match d with [] => None | _ => parse_date_opt d end)
    /\ (d <> [] -> an_date an <> None).
Proof. exact lot_kept. Qed.
Print Assumptions C48_first_lot_partial.

Example C48_case :
  posting_line full_line full_tokens /\ lookup (lit "VTI") (p_ann (j_pool j1)) = None /\ parse_post j1 1 full_line = Ok j3
  /\ denotes (lit "12.34") (1234 * (unit1 / 100)) 2
  /\ lookup (lit "VTI") (p_ann (j_pool j3))
     = Some (mkAnn (Some (mkAmt (mkDec false 1234 2) (Some (lit "EUR")))) (Some (mkDate 2023 4 5))).
Proof.
  split; [exact full_posting|]. split; [vm_compute; reflexivity|]. split; [exact j3_ok|]. split; [exact denotes_1234|]. vm_compute. reflexivity.
Qed.

(** ** C49: headers without payee *)
(** False: a line feed directly after the date makes the date unreadable. *)
Theorem C49_date_line_refuted : forall j dt, date_text dt -> create_xact j (dt ++ nl) = Panic PUnwrap.
Proof. exact date_line. Qed.
Print Assumptions C49_date_line_refuted.

(** It holds at the very end of the text, with a space after the date, and with a note. *)
Theorem C49_date_only_partial :
  forall j dt d, date_written dt d -> create_xact j dt = Ok (unknown j d None).
Proof. exact date_only. Qed.
Print Assumptions C49_date_only_partial.
Theorem C49_date_space_partial :
  forall j dt d w, date_written dt d -> spaces w -> create_xact j (dt ++ sp ++ w) = Ok (unknown j d None).
Proof. exact date_spaces. Qed.
Print Assumptions C49_date_space_partial.
Theorem C49_date_note_partial :
  forall j dt d w w1 n w2,
  date_written dt d -> Forall (fun c => c = 32%N) w -> spaces w1 -> spaces w2 -> trimmed n ->
  create_xact j (dt ++ w ++ lit "  ;" ++ w1 ++ n ++ w2) = Ok (unknown j d (Some n)).
Proof. exact date_note. Qed.
Print Assumptions C49_date_note_partial.

Example C49_case :
  date_written (lit "2023-04-05") (mkDate 2023 4 5) /\ date_text (lit "2023-04-05")
  /\ create_xact journal_new (lit "2023-04-05 
") = Ok (unknown journal_new (mkDate 2023 4 5) None)
  /\ create_xact journal_new (lit "2023-04-05
") = Panic PUnwrap.
Proof.
  split; [exact date_0405|]. split; [exact (date_written_text _ _ date_0405)|].
  split; [exact (date_spaces journal_new _ _ nl date_0405 eq_refl)|]. exact (date_line journal_new (lit "2023-04-05") (date_written_text _ _ date_0405)).
Qed.
