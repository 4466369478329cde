(** C45 again: circles of any length. *)
From Coq Require Import String List NArith ZArith Bool Lia.
From Verif Require Import Base Decimal Dates Amount Balance Scanner Pool Account Journal Xact Parser Report Options Lib.
From Verif Require Import SpecText SpecJournal SpecReading SpecCommand SpecCycle.
From Verif Require Import BaseFacts CommandProofs CycleProofs DepthProofs.
Import ListNotations.
Open Scope list_scope.
Open Scope nat_scope.

(** A file that is in a circle of includes, or leads to one, is never read successfully, whatever else the files contain. *)
Theorem C45_circle_never_read :
  forall cwd fs loop, circular cwd fs loop ->
  forall depth p src j j', loop p -> fs p = Some src -> read_into_journal depth cwd fs src j <> Ok j'.
Proof. exact circle_never. Qed.
Print Assumptions C45_circle_never_read.
(** If nothing before the include lines panics, reading goes on without end. *)
Theorem C45_circle_diverges :
  forall cwd fs loop, circular_quiet cwd fs loop ->
  forall depth p src j, reachable_journal j -> loop p -> fs p = Some src -> read_into_journal depth cwd fs src j = Diverge.
Proof. exact circle_diverges. Qed.
Print Assumptions C45_circle_diverges.
(** No command gives a report if one of its files is such a file. *)
Theorem C45_circle_no_report :
  forall cwd fs loop, circular cwd fs loop ->
  forall depth args cmds files f out, args_mean args cmds files -> In f files -> loop f -> run depth cwd fs args <> Ok out.
Proof. exact circle_run. Qed.
Print Assumptions C45_circle_no_report.

(** The nesting depth is no part of the result: with any larger one it is the same, for all file systems. *)
Theorem C45_depth_reading :
  forall d d' cwd fs src j, d <= d' -> read_into_journal d cwd fs src j <> Diverge ->
  read_into_journal d' cwd fs src j = read_into_journal d cwd fs src j.
Proof. exact depth_reading. Qed.
Print Assumptions C45_depth_reading.
Theorem C45_depth_run :
  forall d d' cwd fs args, run d cwd fs args <> Diverge -> run d' cwd fs args <> Diverge -> run d cwd fs args = run d' cwd fs args.
Proof. exact depth_one. Qed.
Print Assumptions C45_depth_run.

Definition xact_text : str := lit "2023-05-01 Shop
  A  20 EUR
  B

".
Definition before_a : source := text_source xact_text.
Definition before_b : source := text_source (lit "; second
").
Definition circle_fs : filesystem := fun p =>
  if str_eqb p (lit "/w/a") then Some (before_a ++ Some (lit "include b") :: text_source xact_text)
  else if str_eqb p (lit "/w/b") then Some (before_b ++ Some (lit "include /w/a") :: [])
  else None.
Definition a_or_b (p : str) : Prop := p = lit "/w/a" \/ p = lit "/w/b".
Lemma a_to_b : goes_to (lit "/w") circle_fs (lit "/w/a") before_a (lit "/w/b").
Proof.
  exists (lit "include b"), (lit "b"), (text_source xact_text). split; [vm_compute; reflexivity|].
  split; [unfold decodable; vm_compute; repeat constructor; discriminate|]. split; [vm_compute; reflexivity|].
  split; [exists [], (lit " "), []; repeat split; vm_compute; try reflexivity; try discriminate; auto|].
  split; [reflexivity|]. split.
  - change (lit "/w/b") with (lit "/w" ++ lit "/" ++ lit "b"). apply nf_relative.
    + intros c r E. injection E as <- _. vm_compute. intuition discriminate.
    + discriminate.
    + intros d E. apply (f_equal (@rev N)) in E. rewrite rev_app_distr in E. discriminate E.
  - exists (lit "/w"), (lit "b"). repeat split; try discriminate. vm_compute. intuition discriminate.
Qed.
Lemma b_to_a : goes_to (lit "/w") circle_fs (lit "/w/b") before_b (lit "/w/a").
Proof.
  exists (lit "include /w/a"), (lit "/w/a"), []. split; [vm_compute; reflexivity|].
  split; [unfold decodable; vm_compute; repeat constructor; discriminate|]. split; [vm_compute; reflexivity|].
  split; [exists [], (lit " "), []; repeat split; vm_compute; try reflexivity; try discriminate; auto|].
  split; [reflexivity|]. split.
  - eapply nf_absolute; [reflexivity|left; reflexivity].
  - exists (lit "/w"), (lit "a"). repeat split; try discriminate. vm_compute. intuition discriminate.
Qed.
Example C45_circle_case :
  circular (lit "/w") circle_fs a_or_b /\ a_or_b (lit "/w/a") /\ circle_fs (lit "/w/a") <> None
  /\ option_map (fun j => length (j_xacts j)) (match read_into_journal 3 (lit "/w") circle_fs before_a journal_new with Ok j => Some j | _ => None end) = Some 1
  /\ args_mean [lit "bal"; lit "-f"; lit "/w/a"] [lit "bal"] [lit "/w/a"].
Proof.
  split; [intros p [->| ->]; [exists before_a, (lit "/w/b"); split; [right; reflexivity|exact a_to_b]|exists before_b, (lit "/w/a"); split; [left; reflexivity|exact b_to_a]]|].
  split; [left; reflexivity|]. split; [vm_compute; discriminate|]. split; [vm_compute; reflexivity|].
  apply arguments_meaning. vm_compute. reflexivity.
Qed.
(** The same circle without the transactions. *)
Definition quiet_fs : filesystem := fun p =>
  if str_eqb p (lit "/w/a") then Some (before_b ++ Some (lit "include b") :: text_source xact_text)
  else if str_eqb p (lit "/w/b") then Some (before_b ++ Some (lit "include /w/a") :: [])
  else None.
Lemma quiet_before depth cwd fs j pn : read_into_journal depth cwd fs before_b j <> Panic pn.
Proof. unfold read_into_journal. discriminate. Qed.
Example C45_quiet_case :
  circular_quiet (lit "/w") quiet_fs a_or_b /\ reachable_journal journal_new
  /\ read_into_journal 4 (lit "/w") quiet_fs (text_source (lit "include a")) journal_new = Diverge.
Proof.
  split; [|split; [apply rj_new|vm_compute; reflexivity]].
  destruct a_to_b as (l & arg & after & E & D & I & R1). destruct b_to_a as (l2 & arg2 & after2 & E2 & D2 & I2 & R2).
  intros p [->| ->].
  - exists before_b, (lit "/w/b"). split; [right; reflexivity|]. split; [|intros depth j pn _; apply quiet_before].
    exists l, arg, after. split; [|split; [exact D2|split; [exact I2|exact R1]]].
    change (circle_fs (lit "/w/a")) with (Some (before_a ++ Some (lit "include b") :: text_source xact_text)) in E.
    assert (E' := f_equal (fun o => match o with Some x => x | None => [] end) E). cbv beta iota in E'. apply app_inv_head in E'.
    rewrite <- E'. reflexivity.
  - exists before_b, (lit "/w/a"). split; [left; reflexivity|]. split; [|intros depth j pn _; apply quiet_before].
    exists l2, arg2, after2. split; [exact E2|split; [exact D2|split; [exact I2|exact R2]]].
Qed.
(** Including one file takes one level. *)
Definition one_fs : filesystem := fun p =>
  if str_eqb p (lit "/w/main") then Some (text_source (lit "include b")) else if str_eqb p (lit "/w/b") then Some before_a else None.
Example C45_depth_case :
  run 0 (lit "/w") one_fs [lit "accounts"; lit "-f"; lit "/w/main"] = Diverge
  /\ run 1 (lit "/w") one_fs [lit "accounts"; lit "-f"; lit "/w/main"] = Ok [[]; lit "A"; lit "B"]
  /\ run 7 (lit "/w") one_fs [lit "accounts"; lit "-f"; lit "/w/main"] = Ok [[]; lit "A"; lit "B"]
  /\ read_into_journal 1 (lit "/w") one_fs (text_source (lit "include b")) journal_new <> Diverge.
Proof. repeat split; vm_compute; try reflexivity. discriminate. Qed.
