(** C40, C41, C42: the command line. *)
From Coq Require Import String List NArith ZArith Bool Lia.
From Verif Require Import Base Decimal Dates Amount Balance Scanner History Pool Account Journal Xact Parser Report Options Lib.
From Verif Require Import SpecText SpecReading SpecCommand ReadingFacts CommandProofs DemoJournal DemoReading.
From Verif Require ModelTests.
Import ListNotations.
Open Scope list_scope.
Open Scope nat_scope.

(** ** C40: splitting *)
Theorem C40_words_and_files :
  forall args cmds files, simple_args args cmds files -> process_arguments args = Ok (cmds, files).
Proof. exact (fun args cmds files H => proj2 (arguments_meaning args cmds files) (simple_meaning args cmds files H)). Qed.
Print Assumptions C40_words_and_files.

(** Exactly the argument lists with a meaning are accepted, including groups like "-ff A B". *)
Theorem C40_accepted :
  forall args cmds files, process_arguments args = Ok (cmds, files) <-> args_mean args cmds files.
Proof. exact arguments_meaning. Qed.
Print Assumptions C40_accepted.

Theorem C40_all_others_fail :
  forall args, (forall cmds files, ~ args_mean args cmds files) -> exists p, process_arguments args = Panic p.
Proof. exact arguments_error. Qed.
Print Assumptions C40_all_others_fail.

(** An unknown option or a missing value is an error, whatever follows. *)
Theorem C40_bad_option :
  forall pre cmds files opt rest, args_mean pre cmds files -> bad_option opt rest ->
  exists p, process_arguments (pre ++ opt :: rest) = Panic p.
Proof. exact bad_option_error. Qed.
Print Assumptions C40_bad_option.

Example C40_case :
  simple_args (map lit ["-f"; "a.txt"; "balance"; "-f"; "-b"; "Assets"]%string) [lit "balance"; lit "Assets"] [lit "a.txt"; lit "-b"]
  /\ bad_option (lit "-fx") [lit "a"; lit "b"] /\ bad_option (lit "-f") [].
Proof.
  split; [|split].
  - cbn [map]. apply sa_file. apply sa_word; [discriminate|]. apply sa_file. apply sa_word; [discriminate|]. apply sa_nil.
  - exists (lit "fx"). split; [reflexivity|]. left. right. left. discriminate.
  - exists (lit "f"). split; [reflexivity|]. right. cbn. lia.
Qed.

(** ** C41: reports *)
Theorem C41_balance :
  forall depth cwd fs args verb cmds files sources,
  args_mean args (verb :: cmds) files -> files_are fs files sources -> balance_verb verb ->
  run depth cwd fs args = let* j := read_into_journal depth cwd fs (joined sources) journal_new in balance_report j.
Proof. exact run_balance. Qed.
Print Assumptions C41_balance.

Theorem C41_accounts :
  forall depth cwd fs args verb cmds files sources,
  args_mean args (verb :: cmds) files -> files_are fs files sources -> accounts_verb verb ->
  run depth cwd fs args = let* j := read_into_journal depth cwd fs (joined sources) journal_new in
                          Ok (sort_strings (report_accounts j)).
Proof. exact run_accounts. Qed.
Print Assumptions C41_accounts.

(** Nothing else gives a report. *)
Theorem C41_only :
  forall depth cwd fs args lines, run depth cwd fs args = Ok lines ->
  exists verb cmds files, args_mean args (verb :: cmds) files /\ (balance_verb verb \/ accounts_verb verb)
    /\ Forall (fun f => fs f <> None) files.
Proof. exact run_only. Qed.
Print Assumptions C41_only.

(** The result depends only on the contents of the given files and the files they include. *)
Theorem C41_contents_only :
  forall depth cwd fs fs' args cmds files,
  args_mean args cmds files -> (forall p, may_read cwd fs files p -> fs p = fs' p) ->
  run depth cwd fs args = run depth cwd fs' args.
Proof. exact run_ext. Qed.
Print Assumptions C41_contents_only.

Definition bal_args : list str := map lit ["bal"; "-f"; "/w/food.ledger"]%string.
Example C41_case :
  args_mean bal_args [lit "bal"] [inc_path] /\ files_are demo_fs [inc_path] [text_source xact_text] /\ balance_verb (lit "bal")
  /\ run 3 [] demo_fs bal_args
     = Ok (map lit ["Account  has balance 0.00 EUR"; "Account Assets has balance -3.20 EUR"; "Account Assets:Cash has balance -3.20 EUR";
                    "Account Expenses has balance 3.20 EUR"; "Account Expenses:Food has balance 3.20 EUR"]%string)
  /\ accounts_verb (lit "accounts")
  /\ run 3 [] demo_fs (map lit ["accounts"; "-f"; "/w/food.ledger"]%string)
     = Ok (map lit [""; "Assets"; "Cash"; "Expenses"; "Food"]%string).
Proof.
  split; [apply am_word; [discriminate|]; apply (am_files 1 [inc_path] []); [reflexivity|constructor]|].
  split; [constructor; [|constructor]; split; [vm_compute; reflexivity|apply text_decodable]|].
  split; [right; left; reflexivity|]. split; [vm_compute; reflexivity|]. split; [reflexivity|]. vm_compute. reflexivity.
Qed.

(** ** C42: the program *)
(** False: the program passes its own path on as the first word. *)
Theorem C42_main_refuted :
  ~ (forall depth cwd fs program args lines,
       run depth cwd fs args = Ok lines -> main depth cwd fs program args = Ok lines).
Proof.
  exact (fun H => main_never 3 [] demo_fs (lit "ledger") bal_args _ ltac:(discriminate) ltac:(discriminate)
                    ltac:(intros [E|[E|E]]; discriminate E)
                    (H 3 [] demo_fs (lit "ledger") bal_args _ (proj1 (proj2 (proj2 (proj2 C41_case)))))).
Qed.
Print Assumptions C42_main_refuted.

(** With a program path like [./ledger] there is never a report. *)
Theorem C42_main_never_reports :
  forall depth cwd fs program args lines,
  hd_error program <> Some 45%N -> ~ accounts_verb program -> ~ balance_verb program ->
  main depth cwd fs program args <> Ok lines.
Proof. exact main_never. Qed.
Print Assumptions C42_main_never_reports.

Example C42_case :
  hd_error (lit "./ledger") <> Some 45%N /\ ~ accounts_verb (lit "./ledger") /\ ~ balance_verb (lit "./ledger")
  /\ main 3 [] demo_fs (lit "./ledger") bal_args = Panic PTodo.
Proof.
  split; [discriminate|]. split; [discriminate|]. split; [intros [E|[E|E]]; discriminate E|]. vm_compute. reflexivity.
Qed.
