(** Files that write a commodity always with the same number of decimals. *)
From Coq Require Import String List NArith ZArith Bool Lia Permutation.
From Verif Require Import Base Decimal Dates Amount Balance Scanner History Pool Account Journal Xact Parser Options Lib.
From Verif Require Import SpecDecimal SpecAmount SpecText SpecReading SpecScan SpecWhole SpecCommand SpecFull SpecEnd SpecFullEnd SpecOrder SpecDecimals.
From Verif Require Import BaseFacts DemoJournal DemoReading DemoScan DemoWhole DemoFull DemoFullEnd DemoOrder.
Import ListNotations.
Open Scope list_scope.
Open Scope nat_scope.

Definition by_symbol (c : comm) : nat := if comm_eqb c (Some (lit "EUR")) then 2 else 0.
Definition alike_check (f : comm -> nat) (w : fxact) : bool :=
  forallb (fun v => (wa_decimals (wv_amount v) =? f (commodity_of (wa_symbol (wv_amount v))))
                    && (worth_decimals v =? f (commodity_of (worth_symbol v))) && match wv_cost v with Some (true, _) => false | _ => true end) (values_of (fx_posts w)).
Lemma alike_check_ok f w : alike_check f w = true -> decimals_alike f w.
Proof.
  unfold alike_check, decimals_alike. rewrite forallb_forall. intros H. split; [|right]; apply Forall_forall; intros v Hv; specialize (H v Hv); rewrite !andb_true_iff in H; destruct H as [[A B] C]; [apply Nat.eqb_eq, A|].
  split; [apply Nat.eqb_eq, B|]. intros c E. rewrite E in C. discriminate.
Qed.

Lemma writes_at acct l q s u k : posting_line l (mkPT acct q s [] [] [] [] [] false) -> (exists r, l = 32%N :: r) -> denotes q u k ->
  writes_fposting [l] (mkFP acct (Some (mkWV (mkWA u k s) None None None)) []).
Proof.
  intros Hl (r & El) D. eexists _, r, _, _. split; [reflexivity|]. split; [exact El|]. split; [exact Hl|]. split; [reflexivity|]. split; [|constructor].
  split; [split; [exact D|reflexivity]|]. split; [reflexivity|]. split; [left; auto|reflexivity].
Qed.
Lemma food_amount_line t q s : written_amount t q s -> posting_line (lit "    " ++ food ++ lit "  " ++ [] ++ t ++ [] ++ [] ++ [] ++ nl) (mkPT food q s [] [] [] [] [] false).
Proof.
  intros W. apply (pl_amount (lit "    ") food [] t q s [] [] [] [] [] [] [] [] false nl); try reflexivity; try exact lp_none; try exact ld_none; try exact c_none; [apply check_account_ok; reflexivity|exact W|auto].
Qed.

(** Transactions. *)
Definition post_zero : str := lit "    Assets:Cash  0.00 EUR
".
Definition food_zero : str := lit "    Expenses:Food  0.00 EUR
".
Definition v_zero : wvalue := mkWV (eur_of 0 2) None None None.
Definition x_vti : fxact := demo_x [mkFP cash (Some v6) []; mkFP food None []].
Definition x_rest : fxact := demo_x [mkFP cash (Some v_zero) []; mkFP food None []].
Definition x_zero : fxact := demo_x [mkFP cash (Some v_zero) []; mkFP food (Some v_zero) []].
Lemma denotes_zero : denotes (lit "0.00") 0 2.
Proof. apply (denotes_check [] false (lit "0") [point_c] (lit "00")); auto. Qed.
Lemma writes_zero : writes_fposting [post_zero] (mkFP cash (Some v_zero) []).
Proof. eapply writes_at; [exact (amount_line _ _ _ (after_eur (lit "0.00") eq_refl))|eexists; reflexivity|exact denotes_zero]. Qed.
Lemma writes_food_zero : writes_fposting [food_zero] (mkFP food (Some v_zero) []).
Proof. eapply writes_at; [exact (food_amount_line _ _ _ (after_eur (lit "0.00") eq_refl))|eexists; reflexivity|exact denotes_zero]. Qed.

(** Each in a file of its own. *)
Definition file_of (n : string) : str := lit "/w/" ++ lit n.
Definition dec_fs : filesystem := fun p =>
  if str_eqb p (file_of "shop") then Some (text_source (concat [demo_header; fpost4; fpost5]))
  else if str_eqb p (file_of "round") then Some (text_source round_text)
  else if str_eqb p (file_of "vti") then Some (text_source (concat [demo_header; fpost6; fpost5]))
  else if str_eqb p (file_of "rest") then Some (text_source (concat [demo_header; post_zero; fpost5]))
  else if str_eqb p (file_of "zero") then Some (text_source (concat [demo_header; post_zero; food_zero]))
  else None.
Lemma says_two d fs l1 l2 ps : writes_fposting [l1] (nth 0 ps (mkFP [] None [])) -> writes_fposting [l2] (nth 1 ps (mkFP [] None [])) -> length ps = 2 ->
  says (lit "/w") fs d [demo_header; l1; l2] [demo_x ps].
Proof.
  destruct ps as [|a [|b [|c ps]]]; try discriminate. cbn [nth]. intros A B _.
  apply (says_last _ _ d [demo_header] [[l1]; [l2]]); [apply fheader_written; constructor|]. constructor; [exact A|]. constructor; [exact B|constructor].
Qed.
Lemma shop_says : ffile_says 1 (lit "/w") dec_fs (file_of "shop") [demo_x [mkFP cash (Some v4) []; mkFP food None []]].
Proof. eexists _, [demo_header; fpost4; fpost5]. split; [reflexivity|]. split; [apply (lines_check [demo_header; fpost4] fpost5); reflexivity|]. apply says_two; [apply writes_f4|apply writes_f5|reflexivity]. Qed.
Lemma vti_says : ffile_says 1 (lit "/w") dec_fs (file_of "vti") [x_vti].
Proof. eexists _, [demo_header; fpost6; fpost5]. split; [reflexivity|]. split; [apply (lines_check [demo_header; fpost6] fpost5); reflexivity|]. apply says_two; [apply writes_f6|apply writes_f5|reflexivity]. Qed.
Lemma rest_says : ffile_says 1 (lit "/w") dec_fs (file_of "rest") [x_rest].
Proof. eexists _, [demo_header; post_zero; fpost5]. split; [reflexivity|]. split; [apply (lines_check [demo_header; post_zero] fpost5); reflexivity|]. apply says_two; [apply writes_zero|apply writes_f5|reflexivity]. Qed.
Lemma round_says' : ffile_says 1 (lit "/w") dec_fs (file_of "round") [x_round].
Proof.
  eexists _, [demo_header; post_out; fpost4]. split; [reflexivity|]. split; [split; [reflexivity|left; repeat constructor; apply one_line_check; reflexivity]|]. apply says_two; [apply writes_out|apply writes_f4|reflexivity].
Qed.
Lemma zero_says : ffile_says 1 (lit "/w") dec_fs (file_of "zero") [x_zero].
Proof.
  eexists _, [demo_header; post_zero; food_zero]. split; [reflexivity|]. split; [split; [reflexivity|left; repeat constructor; apply one_line_check; reflexivity]|]. apply says_two; [apply writes_zero|apply writes_food_zero|reflexivity].
Qed.
Lemma two_said verb f g w v : hd_error verb <> Some 45%N -> verb <> [] -> ffile_says 1 (lit "/w") dec_fs f [w] -> ffile_says 1 (lit "/w") dec_fs g [v] ->
  said_run 1 (lit "/w") dec_fs (order_args verb f g) [f; g] verb [w; v].
Proof.
  intros V N A B. exists [], [[w]; [v]]. split; [apply order_args_mean; assumption|]. split; [|reflexivity]. constructor; [exact A|]. constructor; [exact B|constructor].
Qed.

(** ** The sign of zero and the order of the commodities depend on the order *)
Lemma zero_order_refuted :
  ~ (forall f d c fs args files verb ws args' files' ws', said_run d c fs args files verb ws -> said_run d c fs args' files' verb ws' -> balance_verb verb ->
     Forall xact_ok ws -> lots_ok (j_pool journal_new) ws -> full_sums_fit ws -> Forall (decimals_alike f) ws -> one_commodity ws -> Permutation ws ws' ->
     run d c fs args = run d c fs args').
Proof.
  intros H. specialize (H by_symbol _ _ _ _ _ _ _ _ _ _ (two_said (lit "balance") _ _ _ _ ltac:(discriminate) ltac:(discriminate) rest_says zero_says)
    (two_said (lit "balance") _ _ _ _ ltac:(discriminate) ltac:(discriminate) zero_says rest_says) ltac:(right; right; reflexivity)).
  assert (X : run 1 (lit "/w") dec_fs (order_args (lit "balance") (file_of "rest") (file_of "zero")) = run 1 (lit "/w") dec_fs (order_args (lit "balance") (file_of "zero") (file_of "rest"))).
  { apply H.
    - constructor; [|constructor; [|constructor]]; apply (xact_check_ok (lit "EUR") 2); vm_compute; reflexivity.
    - apply lots_check_ok. vm_compute. reflexivity.
    - apply (full_fit_ok 2). vm_compute. reflexivity.
    - constructor; [|constructor; [|constructor]]; apply alike_check_ok; vm_compute; reflexivity.
    - exists (Some (lit "EUR")). repeat constructor.
    - apply perm_swap. }
  vm_compute in X. discriminate X.
Qed.
Lemma commodity_order_refuted :
  ~ (forall f d c fs args files verb ws args' files' ws', said_run d c fs args files verb ws -> said_run d c fs args' files' verb ws' -> balance_verb verb ->
     Forall xact_ok ws -> lots_ok (j_pool journal_new) ws -> full_sums_fit ws -> Forall (decimals_alike f) ws -> Forall no_zero_rest ws -> Permutation ws ws' ->
     run d c fs args = run d c fs args').
Proof.
  intros H. specialize (H by_symbol _ _ _ _ _ _ _ _ _ _ (two_said (lit "balance") _ _ _ _ ltac:(discriminate) ltac:(discriminate) shop_says vti_says)
    (two_said (lit "balance") _ _ _ _ ltac:(discriminate) ltac:(discriminate) vti_says shop_says) ltac:(right; right; reflexivity)).
  assert (X : run 1 (lit "/w") dec_fs (order_args (lit "balance") (file_of "shop") (file_of "vti")) = run 1 (lit "/w") dec_fs (order_args (lit "balance") (file_of "vti") (file_of "shop"))).
  { apply H.
    - constructor; [apply (xact_check_ok (lit "EUR") 2); vm_compute; reflexivity|]. constructor; [apply (xact_check_ok (lit "VTI") 2); vm_compute; reflexivity|constructor].
    - apply lots_check_ok. vm_compute. reflexivity.
    - apply (full_fit_ok 2). vm_compute. reflexivity.
    - constructor; [|constructor; [|constructor]]; apply alike_check_ok; vm_compute; reflexivity.
    - constructor; [|constructor; [|constructor]]; right; vm_compute; discriminate.
    - apply perm_swap. }
  vm_compute in X. discriminate X.
Qed.
