(** C46: written journals. *)
From Coq Require Import String List NArith ZArith Bool Lia.
From Verif Require Import Base Decimal Dates Amount Balance Scanner History Pool Account Journal Xact Parser Lib.
From Verif Require Import SpecDecimal SpecAmount SpecDates SpecPool SpecAccount SpecXact SpecJournal SpecText SpecReading SpecScan SpecWhole.
From Verif Require Import WholeProofs DemoJournal DemoScan DemoWhole.
Import ListNotations.
Open Scope list_scope.
Open Scope nat_scope.

(** ** C46: well-formed journals are accepted and mean what they say *)

(** The meaning of an amount left out is taken from C06: it is minus the absolute sum of the others. *)
Theorem C46_journal_accepted_partial :
  forall depth cwd fs t lines ws j,
  lines_of t lines -> writes_journal lines ws -> Forall well_formed ws -> reachable_journal j ->
  exists j' new, parse_text depth cwd fs t j = Ok j' /\ j_xacts j' = j_xacts j ++ new /\ Forall2 xact_is ws new.
Proof. exact journal_accepted. Qed.
Print Assumptions C46_journal_accepted_partial.

Theorem C46_elided_sum_refuted :
  ~ (forall depth cwd fs t lines ws j j', lines_of t lines -> writes_journal lines ws -> Forall well_formed ws -> reachable_journal j ->
       parse_text depth cwd fs t j = Ok j' ->
       forall i n w x wp p, nth_error ws i = Some w -> nth_error (j_xacts j') (length (j_xacts j) + i) = Some x ->
         nth_error (wx_posts w) n = Some wp -> nth_error (x_posts x) n = Some p -> wp_amount wp = None ->
         exists a, po_amount p = Some a /\ aunits a = (- sumZ (written_units w))%Z).
Proof. exact elided_sum_refuted. Qed.
Print Assumptions C46_elided_sum_refuted.

(** Two transactions, with comments, notes and auxiliary dates, read into a journal that has some. *)
Example C46_case :
  lines_of whole_text whole_lines /\ writes_journal whole_lines [wa; wb] /\ Forall well_formed [wa; wb] /\ reachable_journal j1
  /\ length whole_lines = 9 /\ length (j_xacts j1) = 2 /\ parse_text 1 [] (fun _ => None) whole_text j1 = Ok whole_j /\ length (j_xacts whole_j) = 4.
Proof.
  split; [exact whole_lines_of|]. split; [exact whole_written|]. split; [exact whole_well_formed|]. split; [exact j1_reachable|].
  split; [reflexivity|]. split; [exact length_j1|]. split; [exact whole_j_ok|]. vm_compute. reflexivity.
Qed.
