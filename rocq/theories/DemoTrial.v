(** Files whose amounts do not come to zero, and a file about another account. *)
From Coq Require Import String List NArith ZArith Bool Lia Sorted Permutation.
From Verif Require Import Base Decimal Dates Amount Balance Scanner History Pool Account Journal Xact Parser Options Lib.
From Verif Require Import SpecDecimal SpecAmount SpecText SpecReading SpecScan SpecWhole SpecCommand SpecFull SpecEnd SpecFullEnd SpecOrder SpecTrial.
From Verif Require Import BaseFacts ArithProofs ScanFacts ScanProofs DemoJournal DemoReading DemoScan DemoWhole DemoEnd DemoFull DemoFullEnd DemoOrder DemoDecimals.
Import ListNotations.
Open Scope list_scope.
Open Scope nat_scope.

Definition post_broker : str := lit "    Assets:Broker".
Definition v_ten : wvalue := mkWV (mkWA (10 * unit1) 0 (lit "VTI")) None None None.
(** 12.34 EUR are left out, and counted as -12.34 EUR. *)
Definition x_out : fxact := demo_x [mkFP cash (Some v_out) []; mkFP food None []].
(** The amounts come to 17.34 EUR. *)
Definition x_sum : fxact := demo_x [mkFP cash (Some v4) []; mkFP cash (Some v_five) []].
Definition x_broker : fxact := demo_x [mkFP broker (Some v_ten) []; mkFP broker None []].
Definition trial_fs : filesystem := fun p =>
  if str_eqb p (file_of "out") then Some (text_source (concat [demo_header; post_out; fpost5]))
  else if str_eqb p (file_of "sum") then Some (text_source (concat [demo_header; fpost4; post_five]))
  else if str_eqb p (file_of "broker") then Some (text_source (concat [demo_header; wpost6; post_broker]))
  else if str_eqb p (file_of "shop") then Some (text_source (concat [demo_header; fpost4; fpost5]))
  else None.
Lemma writes_ten : writes_fposting [wpost6] (mkFP broker (Some v_ten) []).
Proof.
  eapply writes_at; [|eexists; reflexivity|exact denotes_10].
  apply (pl_amount (lit "    ") broker [] (lit "10 VTI") (lit "10") (lit "VTI") [] [] [] [] [] [] [] [] false nl); try reflexivity; try exact lp_none; try exact ld_none; try exact c_none;
    [apply check_account_ok; reflexivity|exact (after_vti (lit "10") eq_refl)|auto].
Qed.
Lemma broker_line : posting_line (lit "    " ++ broker ++ []) (mkPT broker [] [] [] [] [] [] [] false).
Proof.
  apply pl_account; try reflexivity; [apply check_account_ok; reflexivity| |apply find_sub_not; reflexivity].
  intros r c E. apply (f_equal (@rev char)) in E. rewrite rev_app_distr in E. cbn in E. injection E as <- _. reflexivity.
Qed.
Lemma writes_broker : writes_fposting [post_broker] (mkFP broker None []).
Proof. eexists _, _, _, _. split; [reflexivity|]. split; [reflexivity|]. split; [exact broker_line|]. split; [reflexivity|]. split; [reflexivity|constructor]. Qed.
Lemma out_says : ffile_says 1 (lit "/w") trial_fs (file_of "out") [x_out].
Proof. eexists _, [demo_header; post_out; fpost5]. split; [reflexivity|]. split; [apply (lines_check [demo_header; post_out] fpost5); reflexivity|]. apply says_two; [apply writes_out|apply writes_f5|reflexivity]. Qed.
Lemma sum_says : ffile_says 1 (lit "/w") trial_fs (file_of "sum") [x_sum].
Proof.
  eexists _, [demo_header; fpost4; post_five]. split; [reflexivity|]. split; [split; [reflexivity|left; repeat constructor; apply one_line_check; reflexivity]|]. apply says_two; [apply writes_f4|apply writes_five|reflexivity].
Qed.
Lemma broker_says : ffile_says 1 (lit "/w") trial_fs (file_of "broker") [x_broker].
Proof. eexists _, [demo_header; wpost6; post_broker]. split; [reflexivity|]. split; [apply (lines_check [demo_header; wpost6] post_broker); reflexivity|]. apply says_two; [apply writes_ten|apply writes_broker|reflexivity]. Qed.
Lemma shop_says' : ffile_says 1 (lit "/w") trial_fs (file_of "shop") [demo_x [mkFP cash (Some v4) []; mkFP food None []]].
Proof. eexists _, [demo_header; fpost4; fpost5]. split; [reflexivity|]. split; [apply (lines_check [demo_header; fpost4] fpost5); reflexivity|]. apply says_two; [apply writes_f4|apply writes_f5|reflexivity]. Qed.
Lemma pair_said verb f g w v : hd_error verb <> Some 45%N -> verb <> [] -> ffile_says 1 (lit "/w") trial_fs f [w] -> ffile_says 1 (lit "/w") trial_fs g [v] ->
  said_run 1 (lit "/w") trial_fs (order_args verb f g) [f; g] verb [w; v].
Proof.
  intros V N A B. exists [], [[w]; [v]]. split; [apply order_args_mean; assumption|]. split; [|reflexivity]. constructor; [exact A|]. constructor; [exact B|constructor].
Qed.
Definition one_args (f : str) : list str := [lit "balance"; lit "-f"; f].
Lemma one_args_mean f : args_mean (one_args f) [lit "balance"] [f].
Proof. apply am_word; [discriminate|]. apply (am_files 1 [f] []); [reflexivity|]. apply am_nil. Qed.

(** ** The root account is not zero *)
Lemma zero_text b s t q : Forall wf_amt b -> Forall (fun a => aunits a = 0%Z) b -> NoDup (map a_c b) -> (forall c, In c (map a_c b) <-> c = Some s) ->
  shown_amounts b = t ++ 32%N :: s -> d_from_str t = Some q -> units q = 0%Z.
Proof.
  intros W Z N I E D. assert (X : In (Some s) (map a_c b)) by (apply I; reflexivity). destruct b as [|[d c] [|[d' c'] b]]; [destruct X| |].
  - destruct X as [X|[]]. cbn in X. subst c. unfold shown_amounts in E. cbn [map concat a_q a_c] in E. rewrite app_nil_r in E. apply app_inv_tail in E. subst t.
    inversion W as [|? ? Wd _]; subst. inversion Z as [|? ? Zd _]; subst. destruct (quantity_round_trip d Wd) as (r & Er & Ur & _). rewrite Er in D. injection D as <-. rewrite Ur. exact Zd.
  - exfalso. assert (A : c = Some s) by (apply I; left; reflexivity). assert (B : c' = Some s) by (apply I; right; left; reflexivity). subst. inversion N as [|? ? Nn _]; subst. apply Nn. left. reflexivity.
Qed.
Lemma not_zero_root out ws s t q : hd_error out = Some (lit "Account  has balance " ++ t ++ 32%N :: s) -> d_from_str t = Some q -> units q <> 0%Z ->
  full_entries ws <> [] -> Forall (fun e => snd (fst e) = Some s) (full_entries ws) -> ~ zero_root out ws.
Proof.
  intros H D U Ne F (b & Hb & N & I & W & Z). pose proof (eq_trans (eq_sym H) Hb) as E. apply (f_equal (fun o => match o with Some x => x | None => [] end)) in E. cbv beta iota in E.
  apply app_inv_head in E. apply U. eapply (zero_text b s t); try eassumption; [|symmetry; exact E]. intros c. rewrite I. rewrite Forall_forall in F. split; [intros (e & He & <-); apply F, He|intros ->].
  destruct (full_entries ws) as [|e es]; [contradiction|]. exists e. split; [left; reflexivity|apply F; left; reflexivity].
Qed.
Lemma x_out_ok : Forall xact_ok [x_out] /\ lots_ok (j_pool journal_new) [x_out] /\ full_sums_fit [x_out].
Proof.
  split; [constructor; [|constructor]; apply (xact_check_ok (lit "EUR") 2); vm_compute; reflexivity|]. split; [apply lots_check_ok; vm_compute; reflexivity|apply (full_fit_ok 2); vm_compute; reflexivity].
Qed.
Lemma x_sum_ok : Forall xact_ok [x_sum] /\ lots_ok (j_pool journal_new) [x_sum] /\ full_sums_fit [x_sum].
Proof.
  split; [constructor; [|constructor]; apply (xact_check_ok (lit "EUR") 2); vm_compute; reflexivity|]. split; [apply lots_check_ok; vm_compute; reflexivity|apply (full_fit_ok 2); vm_compute; reflexivity].
Qed.
Lemma one_file_says f w : ffile_says 1 (lit "/w") trial_fs f [w] -> Forall2 (ffile_says 1 (lit "/w") trial_fs) [f] [[w]].
Proof. intros H. constructor; [exact H|constructor]. Qed.
Lemma positive_rest_refuted :
  ~ (forall depth cwd fs args verb cmds files wss,
     args_mean args (verb :: cmds) files -> balance_verb verb -> Forall2 (ffile_says depth cwd fs) files wss ->
     Forall xact_ok (concat wss) -> lots_ok (j_pool journal_new) (concat wss) -> full_sums_fit (concat wss) ->
     Forall no_costs (concat wss) -> Forall (fun w => leaves_out w \/ sums_to_zero w) (concat wss) ->
     exists out, run depth cwd fs args = Ok out /\ zero_root out (concat wss)).
Proof.
  intros H. destruct x_out_ok as (K & L & F). destruct (H 1 (lit "/w") trial_fs _ _ [] _ _ (one_args_mean (file_of "out")) (or_intror (or_intror eq_refl)) (one_file_says _ _ out_says) K L F) as (out & R & Z).
  - repeat constructor.
  - constructor; [|constructor]. left. right. left. reflexivity.
  - vm_compute in R. injection R as <-. revert Z. apply (not_zero_root _ _ (lit "EUR") (lit "-24.68") (mkDec true 2468 2)); [reflexivity|reflexivity|vm_compute; discriminate|vm_compute; discriminate|vm_compute; repeat constructor].
Qed.
Lemma accepted_refuted :
  ~ (forall depth cwd fs args verb cmds files wss out,
     args_mean args (verb :: cmds) files -> balance_verb verb -> Forall2 (ffile_says depth cwd fs) files wss ->
     Forall xact_ok (concat wss) -> lots_ok (j_pool journal_new) (concat wss) -> full_sums_fit (concat wss) ->
     Forall no_costs (concat wss) -> Forall rest_not_positive (concat wss) ->
     run depth cwd fs args = Ok out -> zero_root out (concat wss)).
Proof.
  intros H. destruct x_sum_ok as (K & L & F). assert (R : exists out, run 1 (lit "/w") trial_fs (one_args (file_of "sum")) = Ok out /\ hd_error out = Some (lit "Account  has balance 17.34 EUR")).
  { eexists. split; [vm_compute; reflexivity|reflexivity]. }
  destruct R as (out & R & Hd). specialize (H 1 (lit "/w") trial_fs _ _ [] _ _ out (one_args_mean (file_of "sum")) (or_intror (or_intror eq_refl)) (one_file_says _ _ sum_says) K L F).
  assert (Z : zero_root out [x_sum]).
  { apply H; [repeat constructor| |exact R]. constructor; [|constructor]. unfold rest_not_positive. vm_compute. discriminate. }
  revert Z. apply (not_zero_root _ _ (lit "EUR") (lit "17.34") (mkDec false 1734 2)); [exact Hd|reflexivity|vm_compute; discriminate|vm_compute; discriminate|vm_compute; repeat constructor].
Qed.
