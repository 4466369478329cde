(** The nesting depth is fuel: a result does not change with more of it. *)
From Coq Require Import String List NArith ZArith Bool Lia.
From Verif Require Import Base Journal Xact Parser Report Options Lib.
From Verif Require Import SpecText SpecJournal SpecReading SpecCommand.
From Verif Require Import BaseFacts ReadingFacts CommandProofs.
Import ListNotations.
Open Scope nat_scope.

(** [b] is [a] unless [a] is unfinished. *)
Definition upto {A} (a b : outcome A) : Prop := a = Diverge \/ a = b.
Lemma upto_refl {A} (a : outcome A) : upto a a.
Proof. right. reflexivity. Qed.
Lemma upto_bind {A B} (a b : outcome A) (f g : A -> outcome B) : upto a b -> (forall x, upto (f x) (g x)) -> upto (bind a f) (bind b g).
Proof. intros [->| ->] H; [left; reflexivity|]. destruct b; cbn [bind]; [apply H|apply upto_refl|apply upto_refl]. Qed.

Lemma general_more inc inc' j l : (forall arg, upto (inc arg j) (inc' arg j)) -> upto (general_directive inc j l) (general_directive inc' j l).
Proof.
  intros H. rewrite !general_eq. destruct (fst (take_word l)) as [|c d]; [apply upto_refl|].
  destruct (c =? 97)%N; [apply upto_refl|]. destruct (c =? 105)%N; [|apply upto_refl].
  destruct (str_eqb (c :: d) (lit "include")); [|apply upto_refl].
  destruct (fst (take_word (snd (take_word l)))); [apply upto_refl|apply H].
Qed.
Lemma parse_more inc inc' src : (forall arg j, upto (inc arg j) (inc' arg j)) ->
  forall m j, upto (parse_lines inc m j src) (parse_lines inc' m j src).
Proof.
  intros H. induction src as [|l src IH]; intros m j; cbn [parse_lines]; [apply upto_refl|]. apply upto_bind.
  - destruct m, l as [l|]; cbn [step]; try apply upto_refl. unfold top_line.
    destruct (_ || _); [apply upto_refl|]. destruct l as [|c r]; [apply upto_refl|]. destruct (_ || _); [apply upto_refl|].
    destruct (c =? 45)%N; [apply upto_refl|]. destruct (is_digit c); [apply upto_refl|]. destruct (_ || _); [apply upto_refl|].
    apply upto_bind; [apply general_more; intros arg; apply H|intros x; apply upto_refl].
  - intros [m' j'|j']; [apply IH|apply upto_refl].
Qed.
Lemma include_more cwd fs d : forall d', d <= d' -> forall arg j, upto (include_file d cwd fs arg j) (include_file d' cwd fs arg j).
Proof.
  induction d as [|d IH]; intros d' L arg j; [left; reflexivity|]. destruct d' as [|d']; [lia|]. cbn [include_file].
  apply upto_bind; [apply upto_refl|]. intros [src|]; [|apply upto_refl]. apply parse_more. apply IH. lia.
Qed.
Lemma read_more d d' cwd fs src j : d <= d' -> upto (read_into_journal d cwd fs src j) (read_into_journal d' cwd fs src j).
Proof. intros L. apply parse_more. apply include_more, L. Qed.
Lemma files_more d d' cwd fs files : d <= d' -> upto (read_journal_files d cwd fs files) (read_journal_files d' cwd fs files).
Proof.
  intros L. unfold read_journal_files. generalize journal_new. induction files as [|f files IH]; intros j; cbn [fold_outcome]; [apply upto_refl|].
  apply upto_bind; [|exact IH]. unfold parse_file. destruct (fs f); [apply read_more, L|apply upto_refl].
Qed.
Lemma run_more d d' cwd fs args : d <= d' -> upto (run d cwd fs args) (run d' cwd fs args).
Proof.
  intros L. unfold run. apply upto_bind; [apply upto_refl|]. intros [cmds files]. unfold execute_command.
  apply upto_bind; [apply upto_refl|]. intros verb. apply upto_bind; [apply files_more, L|]. intros j. apply upto_refl.
Qed.

Lemma depth_reading d d' cwd fs src j : d <= d' -> read_into_journal d cwd fs src j <> Diverge ->
  read_into_journal d' cwd fs src j = read_into_journal d cwd fs src j.
Proof. intros L N. destruct (read_more d d' cwd fs src j L); congruence. Qed.
Lemma depth_run d d' cwd fs args : d <= d' -> run d cwd fs args <> Diverge -> run d' cwd fs args = run d cwd fs args.
Proof. intros L N. destruct (run_more d d' cwd fs args L); congruence. Qed.
Lemma depth_one d d' cwd fs args : run d cwd fs args <> Diverge -> run d' cwd fs args <> Diverge -> run d cwd fs args = run d' cwd fs args.
Proof. intros N N'. destruct (Nat.le_ge_cases d d') as [L|L]; [symmetry|]; apply depth_run; assumption. Qed.
