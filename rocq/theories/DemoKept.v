(** Pairs of texts that say something different but are read alike. *)
From Coq Require Import String List NArith ZArith Bool Lia.
From Verif Require Import Base Decimal Dates Amount Balance Scanner History Pool Account Journal Xact Parser.
From Verif Require Import SpecDecimal SpecAmount SpecText SpecReading SpecScan SpecWhole SpecJournal SpecFull SpecOrder SpecKept.
From Verif Require Import BaseFacts DemoJournal DemoReading DemoScan DemoWhole DemoFull DemoOrder DemoDecimals MoreProofs.
Import ListNotations.
Open Scope list_scope.
Open Scope nat_scope.

Definition unit_line : str := lit "    Assets:Cash  5 IVV @ 20 EUR
".
Definition food_line_written : str := lit "    Expenses:Food  -12.34 EUR
".
Definition lot_line (q : string) : str := lit "    Assets:Cash  -4 VTI {" ++ lit q ++ lit " EUR}
".
Definition v_unit : wvalue := mkWV (mkWA (5 * unit1) 0 (lit "IVV")) None None (Some (true, eur_of (20 * unit1) 0)).
Definition v_food : wvalue := mkWV (eur_of (-1234 * (unit1 / 100)) 2) None None None.
Definition v_lot (n : Z) : wvalue := mkWV (mkWA (-4 * unit1) 0 (lit "VTI")) (Some (eur_of (n * unit1) 0)) None None.
Definition w_total := demo_x [mkFP cash (Some v2) []; mkFP food None []].
Definition w_unit := demo_x [mkFP cash (Some v_unit) []; mkFP food None []].
Definition w_written := demo_x [mkFP cash (Some v4) []; mkFP food (Some v_food) []].
Definition w_notes := demo_x [mkFP cash (Some v4) [lit "second note"; lit "first note"]; mkFP food None []].
Definition w_note := demo_x [mkFP cash (Some v4) [lit "first note"]; mkFP food None []].
Definition w_lot (n : Z) := demo_x [mkFP cash (Some v6) []; mkFP cash (Some (v_lot n)) []].

Lemma writes_unit : writes_fposting [unit_line] (mkFP cash (Some v_unit) []).
Proof.
  eexists _, _, _, _. split; [reflexivity|]. split; [reflexivity|]. split.
  - apply (pl_amount (lit "    ") cash [] (lit "5" ++ sp ++ lit "IVV") (lit "5") (lit "IVV") [] [] [] [] []
           (sp ++ lit "@ " ++ [] ++ (lit "20" ++ sp ++ lit "EUR")) (lit "20") (lit "EUR") true nl); try reflexivity; try exact cash_account; try exact lp_none; try exact ld_none.
    + apply wa_after; [apply quantity_check; reflexivity|reflexivity|apply symbol_check; reflexivity|discriminate].
    + apply c_unit; [apply space_one|reflexivity|apply after_eur; reflexivity].
    + discriminate.
  - split; [reflexivity|]. split; [|constructor].
    split; [split; [apply denotes_int; vm_compute; reflexivity|reflexivity]|]. split; [reflexivity|]. split; [left; auto|].
    split; [reflexivity|]. split; [apply denotes_int; vm_compute; reflexivity|reflexivity].
Qed.
Lemma writes_food : writes_fposting [food_line_written] (mkFP food (Some v_food) []).
Proof.
  eapply writes_at; [exact (food_amount_line _ _ _ (after_eur (lit "-12.34") eq_refl))|eexists; reflexivity|].
  apply (denotes_check [minus_c] true (lit "12") [point_c] (lit "34")); auto.
Qed.
Lemma writes_noted ls ns : Forall2 note_line ls ns -> writes_fposting (fpost4 :: ls) (mkFP cash (Some v4) ns).
Proof.
  intros F. destruct writes_f4 as (l & r & tok & notes & E & El & P & A & V & _). injection E as <- <-. exists fpost4, r, tok, ls. repeat (split; [first [reflexivity|assumption]|]). exact F.
Qed.
Lemma writes_lot q n : written_amount (lit q ++ sp ++ lit "EUR") (lit q) (lit "EUR") -> ~ In 125%N (lit q ++ sp ++ lit "EUR") -> denotes (lit q) (n * unit1) 0 ->
  lit "    Assets:Cash  -4 VTI {" ++ lit q ++ lit " EUR}
" = (lit "    " ++ cash ++ lit "  " ++ [] ++ (lit "-4" ++ sp ++ lit "VTI") ++ (sp ++ lit "{" ++ [] ++ (lit q ++ sp ++ lit "EUR") ++ [] ++ lit "}") ++ [] ++ [] ++ nl) ->
  writes_fposting [lot_line q] (mkFP cash (Some (v_lot n)) []).
Proof.
  intros W I D E. eexists _, _, _, _. split; [reflexivity|]. split; [reflexivity|]. split.
  - unfold lot_line. rewrite E. apply (pl_amount (lit "    ") cash [] (lit "-4" ++ sp ++ lit "VTI") (lit "-4") (lit "VTI")
           (sp ++ lit "{" ++ [] ++ (lit q ++ sp ++ lit "EUR") ++ [] ++ lit "}") (lit q) (lit "EUR") [] [] [] [] [] false nl); try reflexivity; try exact cash_account; try exact ld_none; try exact c_none.
    + apply after_vti. reflexivity.
    + apply lp_some; try reflexivity; [apply space_one|exact W|exact I].
    + discriminate.
  - split; [reflexivity|]. split; [|constructor].
    split; [split; [apply (denotes_check [minus_c] true (lit "4") [] []); auto|reflexivity]|]. split; [split; [exact D|reflexivity]|]. split; [left; auto|reflexivity].
Qed.
Lemma writes_lot2 : writes_fposting [lot_line "2"] (mkFP cash (Some (v_lot 2)) []).
Proof. apply writes_lot; [apply after_eur; reflexivity|vm_compute; intuition discriminate|apply denotes_int; vm_compute; reflexivity|reflexivity]. Qed.
Lemma writes_lot3 : writes_fposting [lot_line "3"] (mkFP cash (Some (v_lot 3)) []).
Proof. apply writes_lot; [apply after_eur; reflexivity|vm_compute; intuition discriminate|apply denotes_int; vm_compute; reflexivity|reflexivity]. Qed.

Definition no_files : filesystem := fun _ => None.
Lemma one_read ls1 ls2 p1 p2 j :
  writes_fposting ls1 p1 -> writes_fposting ls2 p2 -> lines_of (concat (demo_header :: ls1 ++ ls2)) (demo_header :: ls1 ++ ls2) ->
  xact_ok (demo_x [p1; p2]) -> lots_check (j_pool journal_new) [demo_x [p1; p2]] = true ->
  parse_text 0 [] no_files (concat (demo_header :: ls1 ++ ls2)) journal_new = Ok j ->
  read_as 0 [] no_files (concat (demo_header :: ls1 ++ ls2)) [demo_x [p1; p2]] journal_new j.
Proof.
  intros W1 W2 L O C E. split; [|split; [constructor; [exact O|constructor]|split; [apply lots_check_ok, C|split; [exact rj_new|exact E]]]].
  exists (demo_header :: ls1 ++ ls2). split; [exact L|]. pose proof (says_last [] no_files 0 [demo_header] [ls1; ls2] (demo_x [p1; p2])) as S.
  cbn [concat app] in S. rewrite app_nil_r in S. apply S; [apply fheader_written; constructor|]. constructor; [exact W1|]. constructor; [exact W2|constructor].
Qed.
Ltac lines_end := split; [reflexivity|left; repeat constructor; apply one_line_check; reflexivity].
Ltac by_check := apply (xact_check_ok (lit "EUR") 2); vm_compute; reflexivity.
Lemma same_cost : same_journal [w_total] [w_unit].
Proof.
  eexists [], no_files, _, _, _. split.
  - apply (one_read [fpost2] [fpost5]); [exact writes_f2|exact writes_f5|apply (lines_check [demo_header; fpost2] fpost5); reflexivity|by_check|vm_compute; reflexivity|vm_compute; reflexivity].
  - apply (one_read [unit_line] [fpost5]); [exact writes_unit|exact writes_f5|apply (lines_check [demo_header; unit_line] fpost5); reflexivity|by_check|vm_compute; reflexivity|vm_compute; reflexivity].
Qed.
Lemma same_left_out : same_journal [fb] [w_written].
Proof.
  eexists [], no_files, _, _, _. split.
  - apply (one_read [fpost4] [fpost5]); [exact writes_f4|exact writes_f5|apply (lines_check [demo_header; fpost4] fpost5); reflexivity|by_check|vm_compute; reflexivity|vm_compute; reflexivity].
  - apply (one_read [fpost4] [food_line_written]); [exact writes_f4|exact writes_food|lines_end|by_check|vm_compute; reflexivity|vm_compute; reflexivity].
Qed.
Lemma same_notes : same_journal [w_notes] [w_note].
Proof.
  eexists [], no_files, _, _, _. split.
  - apply (one_read [fpost4; note2; note1] [fpost5]); [apply writes_noted; repeat constructor; [exact note2_line|exact note1_line]|exact writes_f5|apply (lines_check [demo_header; fpost4; note2; note1] fpost5); reflexivity|by_check|vm_compute; reflexivity|vm_compute; reflexivity].
  - apply (one_read [fpost4; note1] [fpost5]); [apply writes_noted; repeat constructor; exact note1_line|exact writes_f5|apply (lines_check [demo_header; fpost4; note1] fpost5); reflexivity|by_check|vm_compute; reflexivity|vm_compute; reflexivity].
Qed.
Lemma same_lots : same_journal [w_lot 2] [w_lot 3].
Proof.
  eexists [], no_files, _, _, _. split.
  - apply (one_read [fpost6] [lot_line "2"]); [exact writes_f6|exact writes_lot2|lines_end|by_check|vm_compute; reflexivity|vm_compute; reflexivity].
  - apply (one_read [fpost6] [lot_line "3"]); [exact writes_f6|exact writes_lot3|lines_end|by_check|vm_compute; reflexivity|vm_compute; reflexivity].
Qed.
