(** The same postings with and without a cost, in one transaction or two. *)
From Coq Require Import String List NArith ZArith Bool Lia.
From Verif Require Import Base Decimal Dates Amount Account Journal Scanner Parser Options Lib.
From Verif Require Import SpecDecimal SpecAmount SpecText SpecReading SpecScan SpecWhole SpecCommand SpecFull SpecEnd SpecFullEnd SpecOrder SpecCosts.
From Verif Require Import BaseFacts DemoJournal DemoReading DemoScan DemoWhole DemoFull DemoFullEnd DemoOrder.
Import ListNotations.
Open Scope list_scope.
Open Scope nat_scope.

Definition post_cost : str := lit "    Assets:Cash  4 VTI @@ 100 EUR
".
Definition v_cost : wvalue := mkWV (mkWA (4 * unit1) 0 (lit "VTI")) None None (Some (false, eur_of (100 * unit1) 0)).
Lemma post_cost_line : posting_line post_cost (mkPT cash (lit "4") (lit "VTI") [] [] [] (lit "100") (lit "EUR") false).
Proof.
  apply (pl_amount (lit "    ") cash [] (lit "4" ++ sp ++ lit "VTI") (lit "4") (lit "VTI") [] [] [] [] []
           (sp ++ lit "@@ " ++ [] ++ (lit "100" ++ sp ++ lit "EUR")) (lit "100") (lit "EUR") false nl); try reflexivity; try exact cash_account; try exact lp_none; try exact ld_none.
  - apply wa_after; [apply quantity_check; reflexivity|reflexivity|apply symbol_check; reflexivity|discriminate].
  - apply c_total; [apply space_one|reflexivity|apply after_eur; reflexivity].
  - discriminate.
Qed.
Lemma writes_cost : writes_fposting [post_cost] (mkFP cash (Some v_cost) []).
Proof.
  eexists _, _, _, _. split; [reflexivity|]. split; [reflexivity|]. split; [exact post_cost_line|]. split; [reflexivity|]. split; [|constructor].
  split; [split; [apply denotes_int; vm_compute; reflexivity|reflexivity]|]. split; [reflexivity|]. split; [left; auto|].
  split; [reflexivity|]. split; [apply denotes_int; vm_compute; reflexivity|reflexivity].
Qed.
Definition x_costs : fxact := demo_x [mkFP cash (Some v_cost) []; mkFP cash (Some v7) []].
Definition x_plain : fxact := demo_x [mkFP cash (Some v6) []; mkFP cash (Some v7) []].
Definition costs_file : str := lit "/w/costs.ledger".
Definition plain_file : str := lit "/w/plain.ledger".
Definition costs_text : str := concat [demo_header; post_cost; fpost7].
Definition plain_text : str := concat [demo_header; fpost6; fpost7].
Definition costs_fs : filesystem := fun p => if str_eqb p costs_file then Some (text_source costs_text) else if str_eqb p plain_file then Some (text_source plain_text) else None.
Lemma costs_says : ffile_says 1 (lit "/w") costs_fs costs_file [x_costs].
Proof.
  eexists _, [demo_header; post_cost; fpost7]. split; [reflexivity|]. split; [split; [reflexivity|left; repeat constructor; apply one_line_check; reflexivity]|].
  apply (says_last _ _ 1 [demo_header] [[post_cost]; [fpost7]]); [apply fheader_written; constructor|]. repeat constructor; [apply writes_cost|apply writes_f7].
Qed.
Lemma plain_says : ffile_says 1 (lit "/w") costs_fs plain_file [x_plain].
Proof.
  eexists _, [demo_header; fpost6; fpost7]. split; [reflexivity|]. split; [split; [reflexivity|left; repeat constructor; apply one_line_check; reflexivity]|].
  apply (says_last _ _ 1 [demo_header] [[fpost6]; [fpost7]]); [apply fheader_written; constructor|]. repeat constructor; [apply writes_f6|apply writes_f7].
Qed.
Definition costs_args (f : str) : list str := [lit "balance"; lit "-f"; f].
Lemma costs_said :
  said_run 1 (lit "/w") costs_fs (costs_args costs_file) [costs_file] (lit "balance") [x_costs]
  /\ said_run 1 (lit "/w") costs_fs (costs_args plain_file) [plain_file] (lit "balance") [x_plain].
Proof.
  assert (A : forall f, args_mean (costs_args f) [lit "balance"] [f]).
  { intros f. apply am_word; [discriminate|]. apply (am_files 1 [f] []); [reflexivity|]. apply am_nil. }
  split; [exists [], [[x_costs]]|exists [], [[x_plain]]]; (split; [apply A|]); (split; [|reflexivity]); constructor; [apply costs_says|constructor|apply plain_says|constructor].
Qed.
Lemma costs_ok : Forall xact_ok [x_costs].
Proof. constructor; [|constructor]. apply (xact_check_ok (lit "EUR") 2); vm_compute; reflexivity. Qed.
Lemma plain_ok : Forall xact_ok [x_plain].
Proof. constructor; [|constructor]. apply (implied_check_ok (lit "VTI") (lit "EUR") (205 * (unit1 / 10)) 2 1). vm_compute. reflexivity. Qed.
Lemma costs_lots : lots_ok (j_pool journal_new) [x_costs].
Proof. apply lots_check_ok. vm_compute. reflexivity. Qed.
Lemma plain_lots : lots_ok (j_pool journal_new) [x_plain].
Proof. apply lots_check_ok. vm_compute. reflexivity. Qed.
Lemma costs_same : Forall2 same_amount_written (postings_of [x_costs]) (postings_of [x_plain]).
Proof. repeat constructor; eexists _, _; repeat split; reflexivity. Qed.
