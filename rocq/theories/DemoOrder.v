(** Two files, to be read in either order. *)
From Coq Require Import String List NArith ZArith Bool Lia Permutation.
From Verif Require Import Base Decimal Dates Amount Account Journal Parser Options Lib.
From Verif Require Import SpecDecimal SpecAmount SpecText SpecReading SpecScan SpecWhole SpecCommand SpecFull SpecEnd SpecFullEnd SpecOrder.
From Verif Require Import BaseFacts DemoJournal DemoReading DemoScan DemoWhole DemoFull DemoFullEnd.
Import ListNotations.
Open Scope list_scope.
Open Scope nat_scope.

Definition post_five : str := lit "    Assets:Cash  5 EUR
".
Definition post_out : str := lit "    Assets:Cash  -12.34 EUR
".
Definition v_five : wvalue := mkWV (eur_of (5 * unit1) 0) None None None.
Definition v_out : wvalue := mkWV (eur_of (-1234 * (unit1 / 100)) 2) None None None.
Definition demo_x (ps : list fposting) : fxact := mkFX (mkDate 2023 4 5) (Some (mkDate 2023 4 6)) (lit "The; Shop") (lit "a note") [] ps.
Definition x_five : fxact := demo_x [mkFP cash (Some v_five) []; mkFP food None []].
Definition x_round : fxact := demo_x [mkFP cash (Some v_out) []; mkFP cash (Some v4) []].
Lemma writes_five : writes_fposting [post_five] (mkFP cash (Some v_five) []).
Proof. eapply writes_plain; [exact (amount_line _ _ _ (after_eur (lit "5") eq_refl))|eexists; reflexivity|apply denotes_int; vm_compute; reflexivity]. Qed.
Lemma writes_out : writes_fposting [post_out] (mkFP cash (Some v_out) []).
Proof.
  eapply writes_plain; [exact (amount_line _ _ _ (after_eur (lit "-12.34") eq_refl))|eexists; reflexivity|].
  apply (denotes_check [minus_c] true (lit "12") [point_c] (lit "34")); auto.
Qed.
Definition five_file : str := lit "/w/five.ledger".
Definition round_file : str := lit "/w/round.ledger".
Definition five_text : str := concat [demo_header; post_five; fpost5].
Definition round_text : str := concat [demo_header; post_out; fpost4].
Definition order_fs : filesystem := fun p => if str_eqb p five_file then Some (text_source five_text) else if str_eqb p round_file then Some (text_source round_text) else None.
Lemma five_says : ffile_says 1 (lit "/w") order_fs five_file [x_five].
Proof.
  eexists _, [demo_header; post_five; fpost5]. split; [reflexivity|]. split; [apply (lines_check [demo_header; post_five] fpost5); reflexivity|].
  apply (says_last _ _ 1 [demo_header] [[post_five]; [fpost5]]); [apply fheader_written; constructor|]. repeat constructor; [apply writes_five|apply writes_f5].
Qed.
Lemma one_line_check l : str_eqb l (removelast l ++ nl) && forallb (fun c => negb (c =? 10)%N) (removelast l) = true -> one_line l.
Proof.
  intros H. apply andb_prop in H as [H K]. exists (removelast l). split; [apply str_eqb_eq, H|]. intros I. rewrite forallb_forall in K. discriminate (K _ I).
Qed.
Lemma round_says : ffile_says 1 (lit "/w") order_fs round_file [x_round].
Proof.
  eexists _, [demo_header; post_out; fpost4]. split; [reflexivity|]. split; [split; [reflexivity|left; repeat constructor; apply one_line_check; reflexivity]|].
  apply (says_last _ _ 1 [demo_header] [[post_out]; [fpost4]]); [apply fheader_written; constructor|]. repeat constructor; [apply writes_out|apply writes_f4].
Qed.
Definition order_args (verb f g : str) : list str := [verb; lit "-f"; f; lit "-f"; g].
Lemma order_args_mean verb f g : hd_error verb <> Some 45%N -> verb <> [] -> args_mean (order_args verb f g) [verb] [f; g].
Proof.
  intros V N. apply am_word; [exact V|]. apply (am_files 1 [f] [lit "-f"; g]); [reflexivity|]. apply (am_files 1 [g] []); [reflexivity|]. apply am_nil.
Qed.
Lemma order_said verb : hd_error verb <> Some 45%N -> verb <> [] ->
  said_run 1 (lit "/w") order_fs (order_args verb five_file round_file) [five_file; round_file] verb [x_five; x_round]
  /\ said_run 1 (lit "/w") order_fs (order_args verb round_file five_file) [round_file; five_file] verb [x_round; x_five].
Proof.
  intros V N. split; [exists [], [[x_five]; [x_round]]|exists [], [[x_round]; [x_five]]]; (split; [apply order_args_mean; assumption|]); (split; [|reflexivity]).
  - constructor; [apply five_says|]. constructor; [apply round_says|constructor].
  - constructor; [apply round_says|]. constructor; [apply five_says|constructor].
Qed.
Lemma order_ok : Forall xact_ok [x_five; x_round].
Proof. constructor; [|constructor; [|constructor]]; apply (xact_check_ok (lit "EUR") 2); vm_compute; reflexivity. Qed.
Lemma order_lots : lots_ok (j_pool journal_new) [x_five; x_round].
Proof. apply lots_check_ok. vm_compute. reflexivity. Qed.
Lemma order_fit : full_sums_fit [x_five; x_round].
Proof. apply (full_fit_ok 2). vm_compute. reflexivity. Qed.
Lemma order_refuted :
  ~ (forall d c f args files verb ws args' files' ws', said_run d c f args files verb ws -> said_run d c f args' files' verb ws' -> balance_verb verb ->
     Forall xact_ok ws -> lots_ok (j_pool journal_new) ws -> full_sums_fit ws -> Permutation ws ws' ->
     (exists s, Forall (fun w => Forall (fun v => wa_symbol (wv_amount v) = s) (values_of (fx_posts w))) ws) ->
     run d c f args = run d c f args').
Proof.
  intros H. destruct (order_said (lit "balance") ltac:(discriminate) ltac:(discriminate)) as [A B].
  specialize (H _ _ _ _ _ _ _ _ _ _ A B ltac:(right; right; reflexivity) order_ok order_lots order_fit (perm_swap _ _ _)).
  specialize (H ltac:(exists (lit "EUR"); repeat constructor)). vm_compute in H. discriminate H.
Qed.
