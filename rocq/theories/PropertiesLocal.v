(** C80: the line of an account. *)
From Coq Require Import String List NArith ZArith Bool Lia.
From Verif Require Import Base Decimal Dates Amount Balance Account Journal Xact Parser Report Options Lib.
From Verif Require Import SpecAccount SpecJournal SpecText SpecReading SpecReport SpecScan SpecCommand SpecOutline SpecShown SpecLocal.
From Verif Require Import BaseFacts ScanProofs OutlineProofs LocalProofs DemoJournal DemoReading.
Import ListNotations.
Open Scope list_scope.
Open Scope nat_scope.

(** ** C80: the line of an account depends on the amounts at and below the account only *)
(** Two journals that agree on the account [q] and those below it have the same total for [q]: the same amounts
    in the same order with the same decimals, or the same panic. *)
Theorem C80_total :
  forall j j' q a a', reachable_journal j -> reachable_journal j' -> same_below q j j' ->
  get_account (j_master j) q = Some a -> get_account (j_master j') q = Some a' -> account_total (j_xacts j) a = account_total (j_xacts j') a'.
Proof. exact same_total. Qed.
Print Assumptions C80_total.
(** So they have the same line for it. *)
Theorem C80_line :
  forall j j' out out' q l l', reachable_journal j -> reachable_journal j' -> same_below q j j' ->
  balance_report j = Ok out -> balance_report j' = Ok out' -> line_for j out q l -> line_for j' out' q l' -> l = l'.
Proof. exact same_line. Qed.
Print Assumptions C80_line.
Theorem C80_run :
  forall q d cwd fs args verb cmds files sources j out d' cwd' fs' args' verb' cmds' files' sources' j' out' l l',
  args_mean args (verb :: cmds) files -> balance_verb verb -> files_are fs files sources -> read_into_journal d cwd fs (joined sources) journal_new = Ok j ->
  args_mean args' (verb' :: cmds') files' -> balance_verb verb' -> files_are fs' files' sources' -> read_into_journal d' cwd' fs' (joined sources') journal_new = Ok j' ->
  same_below q j j' -> run d cwd fs args = Ok out -> run d' cwd' fs' args' = Ok out' -> line_for j out q l -> line_for j' out' q l' -> l = l'.
Proof. exact run_same_line. Qed.
Print Assumptions C80_run.
(** Reading a source none of whose posting lines names the account or one below it does not change its line. *)
Theorem C80_reading :
  forall depth cwd fs src j j' q out out', reachable_journal j -> read_into_journal depth cwd fs src j = Ok j' ->
  (forall its, outline cwd fs None src its -> leaves_alone q its) -> exists_at (j_master j) q ->
  balance_report j = Ok out -> balance_report j' = Ok out' -> exists l, line_for j out q l /\ line_for j' out' q l.
Proof. exact read_same_line. Qed.
Print Assumptions C80_reading.

Lemma two_spaces_written r w a b c t : r = w ++ a ++ lit "  " ++ b -> spaces w -> a = c :: t -> is_ws c = false -> find_sub (lit "  ") (a ++ sp) = None -> account_written r a.
Proof.
  intros -> W Ea C N. exists w, (a ++ lit "  " ++ b). split; [reflexivity|]. split; [exact W|]. split; [subst a; eexists _, _; split; [reflexivity|exact C]|]. left.
  exists b. split; [reflexivity|]. apply find_sub_not, N.
Qed.
Definition text2_outline : list item := [Lines (lit "2023-02-01 Salary" ++ nl, [lit "   Assets:Bank  1000 EUR" ++ nl; lit "   Income:Salary" ++ nl])].
Example C80_case :
  reachable_journal j1 /\ read_into_journal 3 [] ModelTests.no_files (text_source text2) j1 = Ok j2
  /\ outline [] ModelTests.no_files None (text_source text2) text2_outline
  /\ (forall its, outline [] ModelTests.no_files None (text_source text2) its -> leaves_alone [lit "Expenses"] its) /\ exists_at (j_master j1) [lit "Expenses"]
  /\ balance_report j1 = Ok (map lit ["Account  has balance -9.00 EUR10 USD"; "Account Assets has balance -29.00 EUR10 USD"; "Account Assets:Bank has balance -29.00 EUR"; "Account Assets:Cash has balance 10 USD";
       "Account Expenses has balance 20.00 EUR"; "Account Expenses:Food has balance 12.50 EUR"; "Account Expenses:Household has balance 7.50 EUR"]%string)
  /\ balance_report j2 = Ok (map lit ["Account  has balance -9.00 EUR10 USD"; "Account Assets has balance 971.00 EUR10 USD"; "Account Assets:Bank has balance 971.00 EUR"; "Account Assets:Cash has balance 10 USD";
       "Account Expenses has balance 20.00 EUR"; "Account Expenses:Food has balance 12.50 EUR"; "Account Expenses:Household has balance 7.50 EUR";
       "Account Income has balance -1000 EUR"; "Account Income:Salary has balance -1000 EUR"]%string).
Proof.
  split; [exact j1_reachable|]. split; [exact j2_ok|].
  assert (O : outline [] ModelTests.no_files None (text_source text2) text2_outline).
  { assert (E : text_source text2 = [Some (lit "# second file" ++ nl); Some (50%N :: lit "023-02-01 Salary" ++ nl); Some (32%N :: lit "   Assets:Bank  1000 EUR" ++ nl); Some (32%N :: lit "   Income:Salary" ++ nl); Some nl]) by (vm_compute; reflexivity).
    rewrite E. clear E. apply ol_inert; [eexists; split; [reflexivity|]; right; right; eexists _, _; split; [reflexivity|cbn; tauto]|]. unfold text2_outline. change (lit "2023-02-01 Salary" ++ nl) with (50%N :: lit "023-02-01 Salary" ++ nl).
    apply ol_header; [reflexivity|]. apply (ol_posting _ _ _ [] _ 65%N); [exists (lit "   "), (lit "ssets:Bank  1000 EUR" ++ nl); repeat split|discriminate|].
    apply (ol_posting _ _ _ _ _ 73%N); [exists (lit "   "), (lit "ncome:Salary" ++ nl); repeat split|discriminate|]. apply ol_return; [right; reflexivity|]. constructor. }
  split; [exact O|]. split.
  - intros its O'. rewrite (outline_unique [] ModelTests.no_files (fun p H => False_ind _ (H eq_refl)) _ _ _ O _ O'). intros l a [<-|[<-|[]]] W.
    + assert (a = lit "Assets:Bank"); [|subst a; reflexivity]. eapply account_unique; [exact W|]. eapply (two_spaces_written _ (lit "   ") _ (lit "1000 EUR" ++ nl)); reflexivity.
    + assert (a = lit "Income:Salary"); [|subst a; reflexivity]. eapply account_unique; [exact W|]. exists (lit "   "), (lit "Income:Salary" ++ nl). split; [reflexivity|]. split; [reflexivity|].
      split; [eexists _, _; split; [reflexivity|reflexivity]|]. right. split; [apply find_sub_not; reflexivity|]. exists nl. split; [reflexivity|]. split; [reflexivity|]. exists (lit "Income:Salar"), 121%N. split; reflexivity.
  - split; [eexists; vm_compute; reflexivity|]. split; vm_compute; reflexivity.
Qed.
