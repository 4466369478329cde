(** C76: the number of decimals shown. *)
From Coq Require Import String List NArith ZArith Bool Lia Permutation.
From Verif Require Import Base Decimal Dates Amount Balance Account Journal Xact Parser Report Options Lib.
From Verif Require Import SpecDecimal SpecAmount SpecAccount SpecScan SpecWhole SpecCommand SpecFull SpecEnd SpecFullEnd SpecOrder SpecDecimals.
From Verif Require Import XactFacts DecimalsProofs DemoReading DemoScan DemoWhole DemoFull DemoFullEnd DemoOrder DemoDecimals.
Import ListNotations.
Open Scope list_scope.
Open Scope nat_scope.

(** ** C76: amounts written with equally many decimals are shown with that many, whatever the order *)
(** Every total of the balance report has as many decimals as its commodity is always written with.  A zero
    has no minus sign if no amount left out is zero. *)
Theorem C76_decimals :
  forall (f : comm -> nat) depth cwd fs args verb cmds files wss,
  args_mean args (verb :: cmds) files -> balance_verb verb -> Forall2 (ffile_says depth cwd fs) files wss ->
  Forall xact_ok (concat wss) -> lots_ok (j_pool journal_new) (concat wss) -> full_sums_fit (concat wss) ->
  Forall (decimals_alike f) (concat wss) ->
  exists out ps, run depth cwd fs args = Ok out /\ accounts_of_entries (full_entries (concat wss)) ps
    /\ Forall2 (fun p line => exists b, totals_said (below p (full_entries (concat wss))) b
                /\ Forall (fun a => d_s (a_q a) = f (a_c a)) b /\ (Forall no_zero_rest (concat wss) -> Forall plain b)
                /\ line = lit "Account " ++ shown_name p ++ lit " has balance " ++ shown_amounts b) ps out.
Proof.
  intros f depth cwd fs args verb cmds files wss A V F K L S D. destruct (full_balance_alike f depth cwd fs _ _ _ _ _ A V F K L S D) as (out & ps & R & Ac & O).
  exists out, ps. split; [exact R|]. split; [exact Ac|]. eapply Forall2_impl; [|exact O]. intros p line (b & T & _ & H). exists b. split; [exact T|exact H].
Qed.
Print Assumptions C76_decimals.
(** Then every order of the transactions gives the same lines, up to the order of the commodities in a line. *)
Theorem C76_order :
  forall f d c fs args files verb ws d' c' fs' args' files' verb' ws',
  said_run d c fs args files verb ws -> balance_verb verb -> said_run d' c' fs' args' files' verb' ws' -> balance_verb verb' ->
  Forall xact_ok ws -> lots_ok (j_pool journal_new) ws -> full_sums_fit ws -> Forall (decimals_alike f) ws -> Forall no_zero_rest ws -> Permutation ws ws' ->
  exists out out', run d c fs args = Ok out /\ run d' c' fs' args' = Ok out' /\ same_lines out out'.
Proof. exact alike_order. Qed.
Print Assumptions C76_order.
(** With a single commodity the text is the same. *)
Theorem C76_one_commodity :
  forall f d c fs args files verb ws d' c' fs' args' files' verb' ws',
  said_run d c fs args files verb ws -> balance_verb verb -> said_run d' c' fs' args' files' verb' ws' -> balance_verb verb' ->
  Forall xact_ok ws -> lots_ok (j_pool journal_new) ws -> full_sums_fit ws -> Forall (decimals_alike f) ws -> Forall no_zero_rest ws ->
  one_commodity ws -> Permutation ws ws' ->
  exists out, run d c fs args = Ok out /\ run d' c' fs' args' = Ok out.
Proof. exact alike_same. Qed.
Print Assumptions C76_one_commodity.
(** Not if an amount left out is zero: it is shown as [-0.00] or [0.00], depending on the order. *)
Theorem C76_minus_zero_refuted :
  ~ (forall f d c fs args files verb ws args' files' ws', said_run d c fs args files verb ws -> said_run d c fs args' files' verb ws' -> balance_verb verb ->
     Forall xact_ok ws -> lots_ok (j_pool journal_new) ws -> full_sums_fit ws -> Forall (decimals_alike f) ws -> one_commodity ws -> Permutation ws ws' ->
     run d c fs args = run d c fs args').
Proof. exact zero_order_refuted. Qed.
Print Assumptions C76_minus_zero_refuted.
(** Nor with two commodities: they are shown in the order of reading. *)
Theorem C76_two_commodities_refuted :
  ~ (forall f d c fs args files verb ws args' files' ws', said_run d c fs args files verb ws -> said_run d c fs args' files' verb ws' -> balance_verb verb ->
     Forall xact_ok ws -> lots_ok (j_pool journal_new) ws -> full_sums_fit ws -> Forall (decimals_alike f) ws -> Forall no_zero_rest ws -> Permutation ws ws' ->
     run d c fs args = run d c fs args').
Proof. exact commodity_order_refuted. Qed.
Print Assumptions C76_two_commodities_refuted.
Example C76_case :
  let ws := [demo_x [mkFP cash (Some v4) []; mkFP food None []]; x_round] in
  let one := order_args (lit "balance") (file_of "shop") (file_of "round") in let two := order_args (lit "balance") (file_of "round") (file_of "shop") in
  let out := map lit ["Account  has balance 0.00 EUR"; "Account Assets has balance 12.34 EUR"; "Account Assets:Cash has balance 12.34 EUR";
                      "Account Expenses has balance -12.34 EUR"; "Account Expenses:Food has balance -12.34 EUR"]%string in
  said_run 1 (lit "/w") dec_fs one [file_of "shop"; file_of "round"] (lit "balance") ws
  /\ said_run 1 (lit "/w") dec_fs two [file_of "round"; file_of "shop"] (lit "balance") (rev ws)
  /\ balance_verb (lit "balance") /\ Forall xact_ok ws /\ lots_ok (j_pool journal_new) ws /\ full_sums_fit ws
  /\ Forall (decimals_alike by_symbol) ws /\ Forall no_zero_rest ws /\ one_commodity ws
  /\ run 1 (lit "/w") dec_fs one = Ok out /\ run 1 (lit "/w") dec_fs two = Ok out.
Proof.
  cbv zeta. split; [exact (two_said (lit "balance") _ _ _ _ ltac:(discriminate) ltac:(discriminate) shop_says round_says')|].
  split; [exact (two_said (lit "balance") _ _ _ _ ltac:(discriminate) ltac:(discriminate) round_says' shop_says)|].
  split; [right; right; reflexivity|].
  split; [constructor; [|constructor; [|constructor]]; apply (xact_check_ok (lit "EUR") 2); vm_compute; reflexivity|].
  split; [apply lots_check_ok; vm_compute; reflexivity|]. split; [apply (full_fit_ok 2); vm_compute; reflexivity|].
  split; [constructor; [|constructor; [|constructor]]; apply alike_check_ok; vm_compute; reflexivity|].
  split; [constructor; [right; vm_compute; discriminate|]; constructor; [left; repeat constructor; discriminate|constructor]|].
  split; [exists (Some (lit "EUR")); repeat constructor|].
  split; vm_compute; reflexivity.
Qed.
Example C76_other_cases :
  run 1 (lit "/w") dec_fs (order_args (lit "balance") (file_of "rest") (file_of "zero"))
  = Ok (map lit ["Account  has balance 0.00 EUR"; "Account Assets has balance 0.00 EUR"; "Account Assets:Cash has balance 0.00 EUR";
                 "Account Expenses has balance -0.00 EUR"; "Account Expenses:Food has balance -0.00 EUR"]%string)
  /\ run 1 (lit "/w") dec_fs (order_args (lit "balance") (file_of "shop") (file_of "vti"))
  = Ok (map lit ["Account  has balance 0.00 EUR0 VTI"; "Account Assets has balance 12.34 EUR4 VTI"; "Account Assets:Cash has balance 12.34 EUR4 VTI";
                 "Account Expenses has balance -12.34 EUR-4 VTI"; "Account Expenses:Food has balance -12.34 EUR-4 VTI"]%string).
Proof. split; vm_compute; reflexivity. Qed.
