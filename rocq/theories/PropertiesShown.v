(** C78, C79: the first line of the balance report, and the order of the commodities in a line. *)
From Coq Require Import String List NArith ZArith Bool Lia Sorted Permutation.
From Verif Require Import Base Decimal Dates Amount Balance Account Journal Xact Parser Report Options Lib.
From Verif Require Import SpecDecimal SpecAmount SpecAccount SpecJournal SpecReport SpecScan SpecWhole SpecCommand SpecFull SpecEnd SpecFullEnd SpecOrder SpecDecimals SpecShown SpecTrial.
From Verif Require Import ReportFacts TrialProofs ShownProofs DecimalsProofs DemoReading DemoScan DemoWhole DemoEnd DemoFull DemoFullEnd DemoOrder DemoDecimals DemoTrial.
Import ListNotations.
Open Scope list_scope.
Open Scope nat_scope.

(** ** C78: the trial balance is zero *)
(** If every transaction sums to zero or leaves an amount out, the first line of the report, which is that of
    the root account, shows zero for every commodity.  Missing from the full statement: transactions in which
    a positive amount is left out. *)
Theorem C78_trial_balance_partial :
  forall depth cwd fs args verb cmds files wss,
  args_mean args (verb :: cmds) files -> balance_verb verb -> Forall2 (ffile_says depth cwd fs) files wss ->
  Forall xact_ok (concat wss) -> lots_ok (j_pool journal_new) (concat wss) -> full_sums_fit (concat wss) ->
  Forall even (concat wss) ->
  exists out, run depth cwd fs args = Ok out /\ zero_root out (concat wss).
Proof. exact trial_balance. Qed.
Print Assumptions C78_trial_balance_partial.
(** With them it is false: 12.34 EUR that are left out count as -12.34 EUR. *)
Theorem C78_positive_rest_refuted :
  ~ (forall depth cwd fs args verb cmds files wss,
     args_mean args (verb :: cmds) files -> balance_verb verb -> Forall2 (ffile_says depth cwd fs) files wss ->
     Forall xact_ok (concat wss) -> lots_ok (j_pool journal_new) (concat wss) -> full_sums_fit (concat wss) ->
     Forall no_costs (concat wss) -> Forall (fun w => leaves_out w \/ sums_to_zero w) (concat wss) ->
     exists out, run depth cwd fs args = Ok out /\ zero_root out (concat wss)).
Proof. exact positive_rest_refuted. Qed.
Print Assumptions C78_positive_rest_refuted.
(** Nor does it hold for everything that is accepted: transactions that do not sum to zero are. *)
Theorem C78_accepted_refuted :
  ~ (forall depth cwd fs args verb cmds files wss out,
     args_mean args (verb :: cmds) files -> balance_verb verb -> Forall2 (ffile_says depth cwd fs) files wss ->
     Forall xact_ok (concat wss) -> lots_ok (j_pool journal_new) (concat wss) -> full_sums_fit (concat wss) ->
     Forall no_costs (concat wss) -> Forall rest_not_positive (concat wss) ->
     run depth cwd fs args = Ok out -> zero_root out (concat wss)).
Proof. exact accepted_refuted. Qed.
Print Assumptions C78_accepted_refuted.
Example C78_case :
  let args := order_args (lit "balance") (file_of "round") (file_of "vti") in
  args_mean args [lit "balance"] [file_of "round"; file_of "vti"] /\ balance_verb (lit "balance")
  /\ Forall2 (ffile_says 1 (lit "/w") dec_fs) [file_of "round"; file_of "vti"] [[x_round]; [x_vti]]
  /\ Forall xact_ok [x_round; x_vti] /\ lots_ok (j_pool journal_new) [x_round; x_vti] /\ full_sums_fit [x_round; x_vti] /\ Forall even [x_round; x_vti]
  /\ run 1 (lit "/w") dec_fs args
     = Ok (map lit ["Account  has balance 0.00 EUR0 VTI"; "Account Assets has balance 0.00 EUR4 VTI"; "Account Assets:Cash has balance 0.00 EUR4 VTI";
                    "Account Expenses has balance -4 VTI"; "Account Expenses:Food has balance -4 VTI"]%string).
Proof.
  cbv zeta. split; [apply order_args_mean; discriminate|]. split; [right; right; reflexivity|]. split; [constructor; [exact round_says'|constructor; [exact vti_says|constructor]]|].
  split; [constructor; [apply (xact_check_ok (lit "EUR") 2); vm_compute; reflexivity|]; constructor; [apply (xact_check_ok (lit "VTI") 2); vm_compute; reflexivity|constructor]|].
  split; [apply lots_check_ok; vm_compute; reflexivity|]. split; [apply (full_fit_ok 2); vm_compute; reflexivity|]. split; [|vm_compute; reflexivity].
  constructor; [|constructor; [|constructor]]; (split; [repeat constructor|]).
  - right. split; [intros X; inversion X as [? ? E|? ? X2]; subst; [discriminate|]; inversion X2 as [? ? E|? ? X3]; subst; [discriminate|inversion X3]|].
    intros s. change (sumZ (map (fun v => if str_eqb (wa_symbol (wv_amount v)) s then wa_units (wv_amount v) else 0%Z) [v_out; v4]) = 0%Z). cbn [map].
    change (wa_symbol (wv_amount v_out)) with (lit "EUR"). change (wa_symbol (wv_amount v4)) with (lit "EUR"). destruct (str_eqb (lit "EUR") s); vm_compute; reflexivity.
  - left. split; [right; left; reflexivity|]. unfold rest_not_positive. vm_compute. discriminate.
Qed.

(** ** C79: the order of the commodities in a balance *)
(** In every journal that can be read, the commodities in the total of an account are in the order in which
    they first occur when the accounts below it are gone through, in alphabetical order and each after the
    accounts below it, and in each account its postings in the order of reading. *)
Theorem C79_order :
  forall j q a b, reachable_journal j -> get_account (j_master j) q = Some a -> account_total (j_xacts j) a = Ok b ->
  exists ps, account_order po_account (posts_below j q) ps /\ map a_c b = firsts (map a_c (amounts_of ps)).
Proof. exact commodities_order. Qed.
Print Assumptions C79_order.
(** That describes one order. *)
Theorem C79_unique : forall es cs cs', shown_order es cs -> shown_order es cs' -> cs = cs'.
Proof. exact shown_unique. Qed.
Print Assumptions C79_unique.
(** The lines of the report show the commodities of the written postings in this order. *)
Theorem C79_report :
  forall depth cwd fs args verb cmds files wss,
  args_mean args (verb :: cmds) files -> balance_verb verb -> Forall2 (ffile_says depth cwd fs) files wss ->
  Forall xact_ok (concat wss) -> lots_ok (j_pool journal_new) (concat wss) -> full_sums_fit (concat wss) ->
  exists out ps, run depth cwd fs args = Ok out /\ accounts_of_entries (full_entries (concat wss)) ps
    /\ Forall2 (fun p line => exists b, totals_said (below p (full_entries (concat wss))) b
                /\ shown_order (below p (full_entries (concat wss))) (map a_c b)
                /\ line = lit "Account " ++ shown_name p ++ lit " has balance " ++ shown_amounts b) ps out.
Proof. exact full_balance_order. Qed.
Print Assumptions C79_report.
(** So the text does not change if each account keeps its postings in the same order, provided a commodity is
    always written with the same number of decimals and no amount left out is zero (C76). *)
Theorem C79_same_text :
  forall f d c fs args files verb ws d' c' fs' args' files' verb' ws',
  said_run d c fs args files verb ws -> balance_verb verb -> said_run d' c' fs' args' files' verb' ws' -> balance_verb verb' ->
  Forall xact_ok ws -> lots_ok (j_pool journal_new) ws -> full_sums_fit ws -> Forall (decimals_alike f) ws -> Forall no_zero_rest ws ->
  Forall xact_ok ws' -> lots_ok (j_pool journal_new) ws' -> full_sums_fit ws' -> Forall (decimals_alike f) ws' -> Forall no_zero_rest ws' ->
  same_by_account (full_entries ws) (full_entries ws') ->
  exists out, run d c fs args = Ok out /\ run d' c' fs' args' = Ok out.
Proof. exact by_account_same. Qed.
Print Assumptions C79_same_text.
Theorem C79_reordered :
  forall f d c fs args files verb ws d' c' fs' args' files' verb' ws',
  said_run d c fs args files verb ws -> balance_verb verb -> said_run d' c' fs' args' files' verb' ws' -> balance_verb verb' ->
  Forall xact_ok ws -> lots_ok (j_pool journal_new) ws -> full_sums_fit ws -> Forall (decimals_alike f) ws -> Forall no_zero_rest ws ->
  Permutation ws ws' -> same_by_account (full_entries ws) (full_entries ws') ->
  exists out, run d c fs args = Ok out /\ run d' c' fs' args' = Ok out.
Proof. exact by_account_order. Qed.
Print Assumptions C79_reordered.
(** The broker's account comes first, whichever file is read first. *)
Example C79_case :
  let ws := [demo_x [mkFP cash (Some v4) []; mkFP food None []]; x_broker] in
  let one := order_args (lit "balance") (file_of "shop") (file_of "broker") in let two := order_args (lit "balance") (file_of "broker") (file_of "shop") in
  let out := map lit ["Account  has balance 0 VTI0.00 EUR"; "Account Assets has balance 0 VTI12.34 EUR"; "Account Assets:Broker has balance 0 VTI"; "Account Assets:Cash has balance 12.34 EUR";
                      "Account Expenses has balance -12.34 EUR"; "Account Expenses:Food has balance -12.34 EUR"]%string in
  said_run 1 (lit "/w") trial_fs one [file_of "shop"; file_of "broker"] (lit "balance") ws
  /\ said_run 1 (lit "/w") trial_fs two [file_of "broker"; file_of "shop"] (lit "balance") (rev ws)
  /\ balance_verb (lit "balance") /\ Forall xact_ok ws /\ lots_ok (j_pool journal_new) ws /\ full_sums_fit ws
  /\ Forall (decimals_alike by_symbol) ws /\ Forall no_zero_rest ws /\ Permutation ws (rev ws) /\ same_by_account (full_entries ws) (full_entries (rev ws))
  /\ run 1 (lit "/w") trial_fs one = Ok out /\ run 1 (lit "/w") trial_fs two = Ok out.
Proof.
  cbv zeta. split; [exact (pair_said (lit "balance") _ _ _ _ ltac:(discriminate) ltac:(discriminate) shop_says' broker_says)|].
  split; [exact (pair_said (lit "balance") _ _ _ _ ltac:(discriminate) ltac:(discriminate) broker_says shop_says')|].
  split; [right; right; reflexivity|].
  split; [constructor; [apply (xact_check_ok (lit "EUR") 2); vm_compute; reflexivity|]; constructor; [apply (xact_check_ok (lit "VTI") 2); vm_compute; reflexivity|constructor]|].
  split; [apply lots_check_ok; vm_compute; reflexivity|]. split; [apply (full_fit_ok 2); vm_compute; reflexivity|].
  split; [constructor; [|constructor; [|constructor]]; apply alike_check_ok; vm_compute; reflexivity|].
  split; [constructor; [|constructor; [|constructor]]; right; vm_compute; discriminate|].
  split; [apply Permutation_rev|]. split; [|split; vm_compute; reflexivity].
  intros q. unfold full_entries. cbn [rev app flat_map map fx_posts demo_x x_broker fp_value]. cbn [filter].
  unfold in_account, entry_account. cbn [fst fp_account].
  repeat match goal with |- context [if list_eq_dec ?d ?a q then _ else _] => destruct (list_eq_dec d a q) as [<-|?] end; try reflexivity; vm_compute; reflexivity.
Qed.
(** The accounts below come first, then siblings. *)
Example C79_visited :
  visited [lit "Assets"; lit "Broker"] [lit "Assets"; lit "Cash"] /\ visited [lit "Assets"; lit "Cash"] [lit "Assets"] /\ visited [lit "Assets"] [lit "Expenses"; lit "Food"]
  /\ visited [lit "Expenses"] [].
Proof.
  split; [right; split; [reflexivity|]; left; apply str_lt_leb; split; [reflexivity|discriminate]|]. split; [right; split; reflexivity|]. split; [left; apply str_lt_leb; split; [reflexivity|discriminate]|exact I].
Qed.
