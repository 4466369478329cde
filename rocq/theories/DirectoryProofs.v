(** Proofs about the working directory. *)
From Coq Require Import String List NArith ZArith Bool Lia.
From Verif Require Import Base Decimal Dates Amount Balance Scanner History Pool Account Journal Xact Parser Report Options Lib.
From Verif Require Import SpecText SpecReading SpecCommand SpecDirectory.
From Verif Require Import BaseFacts ReadingFacts CommandProofs.
Import ListNotations.
Open Scope list_scope.
Open Scope nat_scope.

Lemma full_dec arg : full_path arg \/ (forall c r, arg = c :: r -> ~ In c (lit "/\~")).
Proof.
  destruct arg as [|c r]; [right; discriminate|]. destruct (in_dec N.eq_dec c (lit "/\~")) as [I|I]; [left; exists c, r; auto|].
  right. intros c' r' E. injection E as <- <-. exact I.
Qed.
Lemma full_resolve cwd arg : full_path arg -> resolve cwd arg = arg.
Proof. intros (c & r & -> & I). apply resolve_absolute, I. Qed.

(** Below a directory with a name every name is looked up. *)
Lemma included_below cwd fs arg : file_path cwd -> arg <> [] -> ~ full_path arg -> included cwd fs arg = Ok (fs (resolve cwd arg)).
Proof.
  intros (dir & name & E & Ne & Nd & Ns) Na H. destruct (full_dec arg) as [F|F]; [contradiction|]. rewrite (resolve_relative _ _ F) in *. unfold included. rewrite (resolve_relative _ _ F).
  destruct (push_cases cwd arg) as [[X _]|[(d & X & _)|(_ & _ & ->)]].
  - rewrite X in E. destruct dir; discriminate.
  - exfalso. rewrite E in X. destruct name as [|c n _] using rev_ind; [congruence|]. rewrite !app_assoc in X. apply app_inj_tail in X as [_ X]. apply Ns. rewrite X. apply in_or_app. right. left. reflexivity.
  - change (lit "/" ++ arg) with (47%N :: arg). unfold path_components. rewrite path_parts_app. rewrite E. change (lit "/" ++ name) with (47%N :: name). rewrite path_parts_app, (path_parts_one _ Ns).
    destruct (path_parts_head dir) as (q & qs & -> & Hq). cbn [app]. rewrite !filter_app. cbn [filter].
    assert (X : negb (is_empty name) && negb (str_eqb name (lit ".")) = true).
    { destruct name; [congruence|]. cbn [is_empty negb andb]. apply negb_true_iff. apply str_eqb_neq, Nd. }
    rewrite X. destruct q as [|c q]; cbn [is_empty].
    + cbn [app]. assert (Y : exists t, (dir ++ 47%N :: name) ++ 47%N :: arg = 47%N :: t).
      { destruct (Hq eq_refl) as [->|Hd]; [eexists; reflexivity|]. destruct dir as [|x d]; [discriminate|]. injection Hd as ->. eexists. reflexivity. }
      destruct Y as (t & ->). destruct (filter _ qs) as [|a l]; cbn [app]; [destruct (filter _ (path_parts arg)); reflexivity|].
      destruct l; cbn [app]; reflexivity.
    + cbn [app]. destruct (filter _ qs) as [|a l]; reflexivity.
Qed.

Lemma included_same cwd fs cwd' fs' arg : arg <> [] -> same_file cwd fs cwd' fs' arg -> full_path arg \/ file_path cwd /\ file_path cwd' ->
  included cwd fs arg = included cwd' fs' arg.
Proof.
  intros Na S H. assert (E : fs (resolve cwd arg) = fs' (resolve cwd' arg)) by (apply S; apply names_resolve; reflexivity).
  destruct (full_dec arg) as [F|F].
  - rewrite !(full_resolve _ _ F) in E. unfold included. rewrite !(full_resolve _ _ F), E. reflexivity.
  - assert (N : ~ full_path arg) by (intros (c & r & -> & I); exact (F c r eq_refl I)). destruct H as [H|[H H']]; [contradiction|].
    rewrite !included_below by assumption. rewrite E. reflexivity.
Qed.

Lemma word_nonempty l arg : include_line l arg -> arg <> [].
Proof. intros (ws0 & ws1 & rest & _ & _ & _ & _ & [W _] & _). exact W. Qed.

Section Same.
Variables (cwd cwd' : str) (fs fs' : filesystem) (ok : str -> Prop).
Hypothesis Hok : forall arg, ok arg -> same_file cwd fs cwd' fs' arg /\ (full_path arg \/ file_path cwd /\ file_path cwd').

Lemma include_same d : forall arg j, arg <> [] -> ok arg -> (forall p s, names_file cwd arg p -> fs p = Some s -> all_includes cwd fs s ok) ->
  include_file d cwd fs arg j = include_file d cwd' fs' arg j.
Proof.
  induction d as [|d IH]; intros arg j Na O A; [reflexivity|]. cbn [include_file]. destruct (Hok _ O) as [S F].
  rewrite <- (included_same _ _ _ _ _ Na S F). destruct (included cwd fs arg) as [[s|]| |] eqn:E; cbn [bind]; try reflexivity.
  apply included_some in E. assert (As : all_includes cwd fs s ok) by (apply (A (resolve cwd arg) s); [apply names_resolve; reflexivity|exact E]).
  apply parse_ext. intros t a I L k. apply IH; [eapply word_nonempty, L|eapply As; [apply rf_self|exact I|exact L]|].
  intros p s' N F'. intros s0 l0 a0 R I0 L0. apply (As s0 l0 a0); [|exact I0|exact L0].
  clear I0 L0. induction R as [|s1 l1 a1 p1 s1' R IHR I1 L1 N1 F1]; [eapply rf_include; [apply rf_self|exact I|exact L|exact N|exact F']|eapply rf_include; eassumption].
Qed.
Theorem source_same depth src j : all_includes cwd fs src ok -> read_into_journal depth cwd fs src j = read_into_journal depth cwd' fs' src j.
Proof.
  intros A. unfold read_into_journal. apply parse_ext. intros t a I L k. apply include_same; [eapply word_nonempty, L|eapply A; [apply rf_self|exact I|exact L]|].
  intros p s' N F' s0 l0 a0 R I0 L0. apply (A s0 l0 a0); [|exact I0|exact L0].
  clear I0 L0. induction R as [|s1 l1 a1 p1 s1' R IHR I1 L1 N1 F1]; [eapply rf_include; [apply rf_self|exact I|exact L|exact N|exact F']|eapply rf_include; eassumption].
Qed.
Theorem files_same depth files files' : Forall2 (fun f f' => fs f = fs' f') files files' ->
  (forall f src, In f files -> fs f = Some src -> all_includes cwd fs src ok) ->
  read_journal_files depth cwd fs files = read_journal_files depth cwd' fs' files'.
Proof.
  unfold read_journal_files. generalize journal_new. intros j H. revert j. induction H as [|f f' l l' E _ IH]; intros j A; [reflexivity|]. cbn [fold_outcome].
  assert (P : parse_file depth cwd fs f j = parse_file depth cwd' fs' f' j).
  { unfold parse_file. rewrite <- E. destruct (fs f) as [src|] eqn:F; [|reflexivity]. apply source_same. apply (A f src); [left; reflexivity|exact F]. }
  rewrite P. destruct (parse_file depth cwd' fs' f' j); cbn [bind]; try reflexivity. apply IH. intros g src I. apply A. right. exact I.
Qed.
Theorem run_same depth args args' cmds files files' : args_mean args cmds files -> args_mean args' cmds files' -> Forall2 (fun f f' => fs f = fs' f') files files' ->
  (forall f src, In f files -> fs f = Some src -> all_includes cwd fs src ok) ->
  run depth cwd fs args = run depth cwd' fs' args'.
Proof.
  intros M M' E A. unfold run. apply arguments_meaning in M, M'. rewrite M, M'. cbn [bind]. unfold execute_command. rewrite (files_same _ _ _ E A). reflexivity.
Qed.
End Same.

Theorem directory_source depth cwd cwd' fs fs' src j : file_path cwd -> file_path cwd' -> all_includes cwd fs src (same_file cwd fs cwd' fs') ->
  read_into_journal depth cwd fs src j = read_into_journal depth cwd' fs' src j.
Proof. intros F F' A. apply (source_same _ _ _ _ (same_file cwd fs cwd' fs')); [|exact A]. intros arg S. split; [exact S|right; split; assumption]. Qed.
Theorem directory_run depth cwd cwd' fs fs' args args' cmds files files' : file_path cwd -> file_path cwd' ->
  args_mean args cmds files -> args_mean args' cmds files' -> Forall2 (fun f f' => fs f = fs' f') files files' ->
  (forall f src, In f files -> fs f = Some src -> all_includes cwd fs src (same_file cwd fs cwd' fs')) ->
  run depth cwd fs args = run depth cwd' fs' args'.
Proof. intros F F' M M' E A. apply (run_same _ _ _ _ (same_file cwd fs cwd' fs')) with (cmds := cmds) (files := files) (files' := files'); auto. Qed.
Lemma full_same cwd cwd' fs arg : full_path arg -> same_file cwd fs cwd' fs arg.
Proof. intros F p p' N N'. apply names_resolve in N, N'. rewrite full_resolve in N, N' by exact F. congruence. Qed.
Theorem full_source depth cwd cwd' fs src j : all_includes cwd fs src full_path -> read_into_journal depth cwd fs src j = read_into_journal depth cwd' fs src j.
Proof. intros A. apply (source_same _ _ _ _ full_path); [|exact A]. intros arg F. split; [apply full_same, F|left; exact F]. Qed.
Theorem full_run depth cwd cwd' fs args cmds files : args_mean args cmds files ->
  (forall f src, In f files -> fs f = Some src -> all_includes cwd fs src full_path) -> run depth cwd fs args = run depth cwd' fs args.
Proof.
  intros M A. apply (run_same _ _ _ _ full_path) with (cmds := cmds) (files := files) (files' := files); auto.
  - intros arg F. split; [apply full_same, F|left; exact F].
  - clear. induction files; constructor; auto.
Qed.
