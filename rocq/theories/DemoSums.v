(** A transaction, the same with a posting split, and two that make it up. *)
From Coq Require Import String List NArith ZArith Bool Lia.
From Verif Require Import Base Decimal Dates Amount Account Journal Parser Options Lib.
From Verif Require Import SpecDecimal SpecAmount SpecText SpecReading SpecScan SpecWhole SpecCommand SpecFull SpecEnd SpecFullEnd SpecOrder SpecSums.
From Verif Require Import BaseFacts DemoJournal DemoReading DemoScan DemoWhole DemoFull DemoFullEnd DemoOrder.
Import ListNotations.
Open Scope list_scope.
Open Scope nat_scope.

Definition v_half : wvalue := mkWV (eur_of (250 * (unit1 / 100)) 2) None None None.
Definition post_half : str := lit "    Assets:Cash  2.50 EUR
".
Lemma writes_half : writes_fposting [post_half] (mkFP cash (Some v_half) []).
Proof.
  eapply writes_plain; [exact (amount_line _ _ _ (after_eur (lit "2.50") eq_refl))|eexists; reflexivity|].
  apply (denotes_check [] false (lit "2") [point_c] (lit "50")); auto.
Qed.
Definition x_halves : fxact := demo_x [mkFP cash (Some v_half) []; mkFP cash (Some v_half) []; mkFP food None []].
Definition halves_file : str := lit "/w/halves.ledger".
Definition halves_text : str := concat [demo_header; post_half; post_half; fpost5].
Definition sums_fs : filesystem := fun p => if str_eqb p halves_file then Some (text_source halves_text) else order_fs p.
Lemma halves_says : ffile_says 1 (lit "/w") sums_fs halves_file [x_halves].
Proof.
  eexists _, [demo_header; post_half; post_half; fpost5]. split; [reflexivity|]. split; [apply (lines_check [demo_header; post_half; post_half] fpost5); reflexivity|].
  apply (says_last _ _ 1 [demo_header] [[post_half]; [post_half]; [fpost5]]); [apply fheader_written; constructor|]. repeat constructor; [apply writes_half|apply writes_half|apply writes_f5].
Qed.
Lemma whole_says : ffile_says 1 (lit "/w") sums_fs five_file [x_five].
Proof.
  eexists _, [demo_header; post_five; fpost5]. split; [reflexivity|]. split; [apply (lines_check [demo_header; post_five] fpost5); reflexivity|].
  apply (says_last _ _ 1 [demo_header] [[post_five]; [fpost5]]); [apply fheader_written; constructor|]. repeat constructor; [apply writes_five|apply writes_f5].
Qed.
Definition sums_args (verb f : str) : list str := [verb; lit "-f"; f].
Lemma sums_said verb : hd_error verb <> Some 45%N ->
  said_run 1 (lit "/w") sums_fs (sums_args verb five_file) [five_file] verb [x_five]
  /\ said_run 1 (lit "/w") sums_fs (sums_args verb halves_file) [halves_file] verb [x_halves].
Proof.
  intros V. assert (A : forall f, args_mean (sums_args verb f) [verb] [f]).
  { intros f. apply am_word; [exact V|]. apply (am_files 1 [f] []); [reflexivity|]. apply am_nil. }
  split; [exists [], [[x_five]]|exists [], [[x_halves]]]; (split; [apply A|]); (split; [|reflexivity]).
  - constructor; [apply whole_says|constructor].
  - constructor; [apply halves_says|constructor].
Qed.
Lemma whole_ok : Forall xact_ok [x_five].
Proof. constructor; [|constructor]. apply (xact_check_ok (lit "EUR") 2); vm_compute; reflexivity. Qed.
Lemma halves_ok : Forall xact_ok [x_halves].
Proof. constructor; [|constructor]. apply (xact_check_ok (lit "EUR") 2); vm_compute; reflexivity. Qed.
Lemma whole_lots : lots_ok (j_pool journal_new) [x_five].
Proof. apply lots_check_ok. vm_compute. reflexivity. Qed.
Lemma halves_lots : lots_ok (j_pool journal_new) [x_halves].
Proof. apply lots_check_ok. vm_compute. reflexivity. Qed.
Lemma whole_fit : full_sums_fit [x_five].
Proof. apply (full_fit_ok 2). vm_compute. reflexivity. Qed.
Lemma halves_fit : full_sums_fit [x_halves].
Proof. apply (full_fit_ok 2). vm_compute. reflexivity. Qed.
Lemma units_halved : (5 * unit1 = 250 * (unit1 / 100) + 250 * (unit1 / 100))%Z.
Proof. vm_compute. reflexivity. Qed.
Lemma halves_split : split_in x_five x_halves.
Proof. exists [], [mkFP food None []], cash, (lit "EUR"), (5 * unit1)%Z, (250 * (unit1 / 100))%Z, (250 * (unit1 / 100))%Z, 0, 2, 2, [], [], []. split; [exact units_halved|]. split; reflexivity. Qed.
Lemma split_refuted :
  ~ (forall d c f args files verb w args' files' w', said_run d c f args files verb [w] -> said_run d c f args' files' verb [w'] -> balance_verb verb ->
     Forall xact_ok [w] -> lots_ok (j_pool journal_new) [w] -> full_sums_fit [w] -> Forall xact_ok [w'] -> lots_ok (j_pool journal_new) [w'] -> full_sums_fit [w'] ->
     split_in w w' -> run d c f args = run d c f args').
Proof.
  intros H. destruct (sums_said (lit "balance") ltac:(discriminate)) as [A B].
  specialize (H _ _ _ _ _ _ _ _ _ _ A B ltac:(right; right; reflexivity) whole_ok whole_lots whole_fit halves_ok halves_lots halves_fit halves_split).
  revert H. vm_compute. discriminate.
Qed.
