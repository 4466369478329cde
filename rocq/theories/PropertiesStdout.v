(** C91: the text that the program prints; C39: the messages in it. *)
From Coq Require Import String List NArith ZArith Bool Lia.
From Verif Require Import Base Journal Parser Report Options Lib Stdout SpecReading SpecStdout.
From Verif Require Import StdoutProofs DemoReading.
Import ListNotations.
Open Scope list_scope.
Open Scope N_scope.

(** ** C91: the printed text has one line for the arguments and one for the result, from which both can be read *)
(** The first two lines, a line for each message about a line that cannot be decoded, and a line with the report if
    the command succeeds; arguments and report have no line ends or other control characters. *)
Theorem C91_lines :
  forall plain invalid depth cwd fs args, exists a r,
  fst (main_prints plain invalid depth cwd fs args) = lit "Hello, Ledger-rs!" ++ [10] ++ lit "You requested " ++ a ++ [10]
    ++ concat (map (fun l => l ++ [10]) (repeat (lit "Error: " ++ invalid) (match args with [] => 0%nat | _ => run_errors depth cwd fs args end) ++ r))
  /\ Forall visible a /\ Forall (Forall visible) r /\ (length r <= 1)%nat
  /\ (length r = 1%nat <-> snd (main_prints plain invalid depth cwd fs args) = Ok tt).
Proof. exact prints_lines. Qed.
Print Assumptions C91_lines.
(** Whoever sees the text knows the arguments, the number of messages and the lines of the report, whatever characters
    they contain. *)
Theorem C91_determined :
  forall plain invalid depth cwd fs args depth' cwd' fs' args',
  fst (main_prints plain invalid depth cwd fs args) = fst (main_prints plain invalid depth' cwd' fs' args') ->
  args = args' /\ (args <> [] -> run_errors depth cwd fs args = run_errors depth' cwd' fs' args'
    /\ forall out, run depth cwd fs args = Ok out <-> run depth' cwd' fs' args' = Ok out).
Proof. exact prints_determined. Qed.
Print Assumptions C91_determined.
Theorem C91_ordinary :
  forall plain invalid depth cwd fs args out, args <> [] -> run depth cwd fs args = Ok out -> run_errors depth cwd fs args = 0%nat ->
  Forall (Forall ordinary) args -> Forall (Forall ordinary) out ->
  main_prints plain invalid depth cwd fs args =
    (lit "Hello, Ledger-rs!" ++ [10] ++ lit "You requested " ++ in_quotes args ++ [10] ++ in_quotes out ++ [10], Ok tt).
Proof. exact prints_ordinary. Qed.
Print Assumptions C91_ordinary.

(** A program with the path [bal], called with a file name. *)
Definition printed_fs : filesystem := fun p => if str_eqb p (lit "j") then Some (text_source (lit "2023-05-03 x" ++ [10] ++ lit "  A""\  1 EUR" ++ [10] ++ lit "  B")) else None.
Example C91_program :
  fst (main_prints (fun _ => true) [] 1 [] printed_fs [lit "bal"; lit "-f"; lit "j"])
  = lit "Hello, Ledger-rs!" ++ [10] ++ lit "You requested [""bal"", ""-f"", ""j""]" ++ [10]
    ++ lit "[""Account  has balance 0 EUR"", ""Account A\""\\ has balance 1 EUR"", ""Account B has balance -1 EUR""]" ++ [10]
  /\ snd (main_prints (fun _ => true) [] 1 [] printed_fs [lit "bal"; lit "-f"; lit "j"]) = Ok tt.
Proof. split; vm_compute; reflexivity. Qed.
(** The hypotheses of [C91_ordinary] for the demo files. *)
Definition ordinary_fs : filesystem := fun p => if str_eqb p (lit "j") then Some (text_source (lit "2023-05-03 x" ++ [10] ++ lit "  A  1 EUR" ++ [10] ++ lit "  B")) else None.
Example C91_ordinary_program : exists out, run 1 [] ordinary_fs [lit "bal"; lit "-f"; lit "j"] = Ok out
  /\ run_errors 1 [] ordinary_fs [lit "bal"; lit "-f"; lit "j"] = 0%nat /\ length out = 3%nat
  /\ Forall (Forall ordinary) [lit "bal"; lit "-f"; lit "j"] /\ Forall (Forall ordinary) out.
Proof.
  eexists. split; [vm_compute; reflexivity|]. split; [vm_compute; reflexivity|]. split; [reflexivity|].
  split; apply Forall_forall; intros s H; apply Forall_forall; intros c C; vm_compute in H; repeat destruct H as [<-|H]; try destruct H; vm_compute in C;
    repeat destruct C as [<-|C]; try destruct C; unfold ordinary; repeat split; try discriminate; reflexivity.
Qed.
(** A failing command: the path of the program is not a command. *)
Example C91_failing : main_prints (fun _ => true) [] 1 [] printed_fs [lit "ledger"; [7; 233; 10]] =
  (lit "Hello, Ledger-rs!" ++ [10] ++ lit "You requested [""ledger"", ""\u{7}" ++ [233] ++ lit "\n""]" ++ [10], Panic PTodo).
Proof. vm_compute. reflexivity. Qed.

(** ** C39: the messages about lines that cannot be decoded *)
(** Reading goes on after such a line or ends as if the file ended there (C39_rest_dropped, C39_ends_transaction), and a
    message is printed among the output of the program, between transactions ... *)
Theorem C39_message :
  forall depth cwd fs src1 src2 j j', decodable src1 -> inside src1 = false -> read_into_journal depth cwd fs src1 j = Ok j' ->
  read_errors depth cwd fs (src1 ++ None :: src2) j = S (read_errors depth cwd fs src1 j).
Proof. exact message_top. Qed.
Print Assumptions C39_message.
(** ... and inside a transaction. *)
Theorem C39_message_inside :
  forall depth cwd fs src1 src2 j j', decodable src1 -> inside src1 = true -> read_into_journal depth cwd fs src1 j = Ok j' ->
  read_errors depth cwd fs (src1 ++ None :: src2) j = S (read_errors depth cwd fs (src1 ++ Some [10] :: src2) j).
Proof. exact message_inside. Qed.
Print Assumptions C39_message_inside.
(** Without a message nothing was dropped: the source is decodable, and the files that are not play no role. *)
Theorem C39_no_message :
  forall depth cwd fs fs' src j j', read_into_journal depth cwd fs src j = Ok j' -> read_errors depth cwd fs src j = 0%nat ->
  (forall p, fs' p = fs p \/ exists s, fs p = Some s /\ ~ decodable s) ->
  decodable src /\ read_into_journal depth cwd fs' src j = Ok j'.
Proof. exact read_silent. Qed.
Print Assumptions C39_no_message.
Theorem C39_no_message_run :
  forall depth cwd fs fs' args out, run depth cwd fs args = Ok out -> run_errors depth cwd fs args = 0%nat ->
  (forall p, fs' p = fs p \/ exists s, fs p = Some s /\ ~ decodable s) -> run depth cwd fs' args = Ok out.
Proof. exact run_silent. Qed.
Print Assumptions C39_no_message_run.
(** Files that can be decoded give no messages. *)
Theorem C39_decodable :
  forall depth cwd fs args, (forall p s, fs p = Some s -> decodable s) -> run_errors depth cwd fs args = 0%nat.
Proof. exact run_decodable. Qed.
Print Assumptions C39_decodable.

(** A file with a line that is not UTF-8 inside a transaction and one after it, included by another one. *)
Definition spoiled_fs : filesystem := fun p =>
  if str_eqb p (lit "j") then Some (text_source (lit "include k" ++ [10] ++ lit "2023-05-03 x" ++ [10] ++ lit "  A  1 EUR" ++ [10] ++ lit "  B"))
  else if str_eqb p (lit "/k") then Some (text_source (lit "2023-05-03 x" ++ [10] ++ lit "  A  1 EUR" ++ [10] ++ lit "  B" ++ [10]) ++ [None; None; Some (lit "2023-05-03 dropped" ++ [10])])
  else None.
Example C39_program :
  fst (main_prints (fun _ => true) (lit "invalid") 2 (lit "/") spoiled_fs [lit "bal"; lit "-f"; lit "j"])
  = lit "Hello, Ledger-rs!" ++ [10] ++ lit "You requested [""bal"", ""-f"", ""j""]" ++ [10]
    ++ lit "Error: invalid" ++ [10] ++ lit "Error: invalid" ++ [10]
    ++ lit "[""Account  has balance 0 EUR"", ""Account A has balance 2 EUR"", ""Account B has balance -2 EUR""]" ++ [10].
Proof. vm_compute. reflexivity. Qed.
(** Another file that is not decodable but not read. *)
Example C39_unread :
  let fs p := if str_eqb p (lit "other") then Some [None] else ordinary_fs p in
  (forall p, ordinary_fs p = fs p \/ exists s, fs p = Some s /\ ~ decodable s) /\ run_errors 1 [] fs [lit "bal"; lit "-f"; lit "j"] = 0%nat
  /\ exists out, run 1 [] fs [lit "bal"; lit "-f"; lit "j"] = Ok out.
Proof.
  split; [|split; [vm_compute; reflexivity|eexists; vm_compute; reflexivity]].
  intros p. destruct (str_eqb p (lit "other")); [right; exists [None]; split; [reflexivity|]; intros H; inversion H; congruence|left; reflexivity].
Qed.
