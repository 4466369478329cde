(** Proofs about the command line. *)
From Coq Require Import String List NArith ZArith Bool Lia Relations ZifyBool ZifyNat ZifyN.
From Verif Require Import Base BaseFacts Decimal Dates Amount Balance Scanner History Pool Account Journal Xact Parser Report Options Lib.
From Verif Require Import SpecText SpecReading SpecCommand ReadingFacts TerminationFacts.
Import ListNotations.
Open Scope nat_scope.

(** ** Splitting arguments *)
Fixpoint pairs (letters : str) (values : list str) : list str :=
  match letters, values with
  | c :: l, v :: vs => [45%N; c] :: v :: pairs l vs
  | _, _ => []
  end.
Lemma take_values_spec letters : forall args opts rest,
  take_values letters args = Ok (opts, rest) <->
  exists vs, length vs = length letters /\ args = vs ++ rest /\ opts = pairs letters vs.
Proof.
  induction letters as [|c l IH]; intros args opts rest; cbn [take_values].
  - split.
    + intros [= <- <-]. exists []. auto.
    + intros ([|] & L & -> & ->); [reflexivity|discriminate].
  - destruct args as [|v args].
    + split; [discriminate|]. intros ([|] & L & E & _); discriminate.
    + split.
      * intros H. inv_bind H. destruct v0 as [o r]. injection H as <- <-. apply IH in EQ as (vs & L & -> & ->).
        exists (v :: vs). cbn. auto.
      * intros ([|w vs] & L & E & ->); [discriminate|]. injection E as -> ->. cbn [pairs].
        assert (T : take_values l (vs ++ rest) = Ok (pairs l vs, rest)) by (apply IH; exists vs; cbn in L; auto).
        rewrite T. reflexivity.
Qed.
Lemma input_pairs letters : forall vs opts, length vs = length letters ->
  forall files, get_input_options (pairs letters vs ++ opts) = Ok files <->
  letters = repeat 102%N (length vs) /\ exists files', files = vs ++ files' /\ get_input_options opts = Ok files'.
Proof.
  induction letters as [|c l IH]; intros [|v vs] opts L files; try discriminate; cbn [pairs app].
  - split; [intros H; split; [reflexivity|]; exists files; auto|]. intros (_ & f' & -> & H). exact H.
  - injection L as L. cbn [get_input_options]. split.
    + destruct (str_eqb [45%N; c] (lit "-f")) eqn:E; [|discriminate]. apply str_eqb_eq in E. injection E as ->.
      intros H. inv_bind H. injection H as <-. apply (IH vs opts L) in EQ as (-> & f' & -> & G). split; [cbn; f_equal; rewrite repeat_length; reflexivity|].
      exists f'. auto.
    + intros (E & f' & -> & G). cbn in E. injection E as -> E. change (str_eqb [45%N; 102%N] (lit "-f")) with true. cbv iota.
      assert (K : get_input_options (pairs l vs ++ opts) = Ok (vs ++ f')) by (apply (IH vs opts L); eauto). rewrite K. reflexivity.
Qed.

Lemma split_args_eq f arg args : split_args (S f) (arg :: args) =
  match arg with
  | c :: letters =>
      if (c =? 45)%N then
        if starts_with [45%N] letters then Panic PTodo
        else let* (opts, rest) := take_values letters args in
             let* (cmds, opts') := split_args f rest in Ok (cmds, opts ++ opts')
      else let* (cmds, opts) := split_args f args in Ok (arg :: cmds, opts)
  | [] => let* (cmds, opts) := split_args f args in Ok (arg :: cmds, opts)
  end.
Proof.
  cbn [split_args]. destruct arg as [|c letters]; [reflexivity|]. destruct c as [|p]; [reflexivity|].
  do 6 (destruct p as [p|p|]; try reflexivity).
  destruct letters as [|d letters]; [reflexivity|]. destruct d as [|p]; [reflexivity|]. do 6 (destruct p as [p|p|]; try reflexivity).
Qed.
Lemma plain_eqb c w : plain_arg (c :: w) <-> (c =? 45)%N = false.
Proof. unfold plain_arg. cbn. rewrite N.eqb_neq. split; congruence. Qed.

Definition split_means (f : nat) (args cmds files : list str) : Prop :=
  exists opts, split_args f args = Ok (cmds, opts) /\ get_input_options opts = Ok files.
Lemma split_means_iff : forall f args, length args <= f -> forall cmds files,
  split_means f args cmds files <-> args_mean args cmds files.
Proof.
  induction f as [|f IH]; intros [|arg args] L cmds files; cbn [length] in L; try lia.
  1,2: split; [intros (o & H & G); cbn in H; injection H as <- <-; injection G as <-; constructor|
               intros H; inversion H; subst; exists []; auto].
  unfold split_means. rewrite split_args_eq.
  assert (W : plain_arg arg ->
    ((exists opts, (let* (cmds, opts) := split_args f args in Ok (arg :: cmds, opts)) = Ok (cmds, opts) /\ get_input_options opts = Ok files)
     <-> args_mean (arg :: args) cmds files)).
  { intros Pa. split.
    - intros (o & H & G). inv_bind H. destruct v as [c' o']. injection H as <- <-. constructor; [exact Pa|]. apply (IH args); [lia|]. exists o'. auto.
    - intros H. inversion H as [|? ? cs ? _ M|n vs ? ? ? _ _ E]; subst.
      + apply (IH args) in M as (o & E1 & E2); [|lia]. exists o. rewrite E1. auto.
      + elim Pa. reflexivity. }
  destruct arg as [|c letters]; [apply W; discriminate|]. destruct (c =? 45)%N eqn:Ec; [|apply W, plain_eqb, Ec].
  apply N.eqb_eq in Ec. subst c. destruct (starts_with [45%N] letters) eqn:Es.
  { split; [intros (o & H & _); discriminate|]. intros H. inversion H as [|? ? cs ? Pw|n vs ? ? ? Ln M E]; subst; [elim Pw; reflexivity|].
    destruct vs; discriminate. }
  split.
  - intros (o & H & G). inv_bind H. destruct v as [o1 r]. inv_bind H. destruct v as [c1 o2]. injection H as <- <-.
    apply take_values_spec in EQ as (vs & Lv & -> & ->). apply (input_pairs letters vs o2 Lv) in G as (-> & f' & -> & G).
    apply (am_files (length vs)); [reflexivity|]. apply (IH r); [rewrite app_length in L; lia|]. exists o2. auto.
  - intros H. inversion H as [|? ? cs ? Pw|n vs ? ? ? Ln M E]; subst; [elim Pw; reflexivity|].
    apply (IH args0) in M as (o & E1 & E2); [|rewrite app_length in L; lia].
    assert (T : take_values (repeat 102%N (length vs)) (vs ++ args0) = Ok (pairs (repeat 102%N (length vs)) vs, args0)).
    { apply take_values_spec. exists vs. rewrite repeat_length. auto. }
    rewrite T. cbn [bind]. rewrite E1. cbn [bind]. eexists. split; [reflexivity|].
    apply input_pairs; [rewrite repeat_length; reflexivity|]. split; [reflexivity|]. eauto.
Qed.
Lemma arguments_meaning args cmds files : process_arguments args = Ok (cmds, files) <-> args_mean args cmds files.
Proof.
  rewrite <- (split_means_iff (length args) args (le_n _) cmds files). unfold process_arguments, split_means. split.
  - intros H. inv_bind H. destruct v as [c o]. inv_bind H. injection H as <- <-. eauto.
  - intros (o & H & G). rewrite H. cbn [bind]. rewrite G. reflexivity.
Qed.
Lemma simple_meaning args cmds files : simple_args args cmds files -> args_mean args cmds files.
Proof.
  induction 1 as [|w args cmds files P _ IH|f args cmds files _ IH]; [constructor|constructor; assumption|].
  apply (am_files 1 [f] args cmds files eq_refl IH).
Qed.
Lemma arguments_error args : (forall cmds files, ~ args_mean args cmds files) -> exists p, process_arguments args = Panic p.
Proof.
  intros N. pose proof (nd_process args) as D. destruct (process_arguments args) as [[c f]|p|] eqn:E; [|eauto|congruence].
  elim (N c f). apply arguments_meaning, E.
Qed.
Lemma args_mean_prefix pre c f : args_mean pre c f -> forall rest cs fs, args_mean (pre ++ rest) cs fs ->
  exists c' f', cs = c ++ c' /\ fs = f ++ f' /\ args_mean rest c' f'.
Proof.
  induction 1 as [|w args cmds files Pw _ IH|n vs args cmds files Ln _ IH]; intros rest cs fs M; cbn [app] in M.
  - exists cs, fs. auto.
  - inversion M as [|? ? cs' ? _ M'|n vs ? ? ? _ _ E]; subst; [|elim Pw; reflexivity].
    apply IH in M' as (c' & f' & -> & -> & M'). exists c', f'. auto.
  - rewrite <- app_assoc in M. inversion M as [|? ? cs' ? Pw _|n' vs' args' ? fs' Ln' M' E E']; subst; [elim Pw; reflexivity|].
    assert (Lr : length vs' = length vs).
    { assert (K : @length N (repeat 102%N (length vs')) = @length N (repeat 102%N (length vs))) by (f_equal; assumption). rewrite !repeat_length in K. exact K. }
    assert (V : vs' = vs /\ args' = args ++ rest).
    { match goal with H : vs' ++ args' = vs ++ args ++ rest |- _ => clear -H Lr; rename H into H0 end. revert vs' Lr H0. induction vs as [|v vs IH]; intros [|v' vs'] L E; try discriminate; [auto|].
      injection E as -> E. injection L as L. destruct (IH _ L E) as [-> ->]. auto. }
    destruct V as [-> ->]. apply IH in M' as (c' & f' & -> & -> & M'). exists c', f'. split; [reflexivity|]. split; [apply app_assoc|exact M'].
Qed.
Lemma bad_option_error pre c f opt rest : args_mean pre c f -> bad_option opt rest ->
  exists p, process_arguments (pre ++ opt :: rest) = Panic p.
Proof.
  intros M (letters & -> & B). apply arguments_error. intros cs fs K.
  destruct (args_mean_prefix _ _ _ M _ _ _ K) as (c' & f' & _ & _ & K').
  inversion K' as [|? ? ? ? Pw _|n vs args' ? fs' Ln M' E E']; subst; [elim Pw; reflexivity|].
  destruct B as [B|B].
  - apply Exists_exists in B as (x & I & N). apply repeat_spec in I. congruence.
  - rewrite repeat_length, app_length in B. lia.
Qed.

(** ** Reports *)
Lemma files_joined depth cwd fs files : forall sources, files_are fs files sources -> forall j,
  fold_outcome (fun j f => parse_file depth cwd fs f j) files j = read_into_journal depth cwd fs (joined sources) j.
Proof.
  induction files as [|f files IH]; intros sources H j; inversion H as [|? src ? ss [Fs D] Hr]; subst; [reflexivity|].
  cbn [fold_outcome joined flat_map]. unfold parse_file at 1. rewrite Fs. rewrite <- app_assoc. cbn [app].
  rewrite (read_app_blank depth cwd fs src _ j (Some [10%N]) D (or_introl eq_refl)).
  destruct (read_into_journal depth cwd fs src j); cbn [bind]; try reflexivity. apply IH, Hr.
Qed.
Lemma execute_eq depth cwd fs verb cmds files :
  execute_command depth cwd fs (verb :: cmds) files =
  let* j := read_journal_files depth cwd fs files in
  match verb with
  | [] => Panic PUnwrap
  | c :: _ => if (c =? 97)%N then Ok (sort_strings (report_accounts j))
              else if str_eqb verb (lit "b") || str_eqb verb (lit "bal") || str_eqb verb (lit "balance") then balance_report j
              else Panic PTodo
  end.
Proof.
  unfold execute_command. cbn [nth_error unwrap bind]. destruct (read_journal_files depth cwd fs files) as [j| |]; cbn [bind]; try reflexivity.
  destruct verb as [|c verb]; [reflexivity|]. destruct c as [|p]; [reflexivity|]. do 7 (destruct p as [p|p|]; try reflexivity).
Qed.
Lemma run_means depth cwd fs args verb cmds files sources :
  args_mean args (verb :: cmds) files -> files_are fs files sources ->
  run depth cwd fs args = execute_command depth cwd fs (verb :: cmds) files
  /\ read_journal_files depth cwd fs files = read_into_journal depth cwd fs (joined sources) journal_new.
Proof.
  intros M F. unfold run. apply arguments_meaning in M. rewrite M. split; [reflexivity|]. apply files_joined, F.
Qed.
Lemma run_balance depth cwd fs args verb cmds files sources :
  args_mean args (verb :: cmds) files -> files_are fs files sources -> balance_verb verb ->
  run depth cwd fs args = let* j := read_into_journal depth cwd fs (joined sources) journal_new in balance_report j.
Proof.
  intros M F V. destruct (run_means depth cwd fs _ _ _ _ _ M F) as [-> E]. rewrite execute_eq, E.
  destruct (read_into_journal _ _ _ _ _); cbn [bind]; try reflexivity. destruct V as [->|[->| ->]]; reflexivity.
Qed.
Lemma run_accounts depth cwd fs args verb cmds files sources :
  args_mean args (verb :: cmds) files -> files_are fs files sources -> accounts_verb verb ->
  run depth cwd fs args = let* j := read_into_journal depth cwd fs (joined sources) journal_new in Ok (sort_strings (report_accounts j)).
Proof.
  intros M F V. destruct (run_means depth cwd fs _ _ _ _ _ M F) as [-> E]. rewrite execute_eq, E.
  destruct (read_into_journal _ _ _ _ _); cbn [bind]; try reflexivity. destruct verb as [|c verb]; [discriminate|]. injection V as ->. reflexivity.
Qed.
Lemma run_only depth cwd fs args lines : run depth cwd fs args = Ok lines ->
  exists verb cmds files, args_mean args (verb :: cmds) files /\ (balance_verb verb \/ accounts_verb verb)
    /\ Forall (fun f => fs f <> None) files.
Proof.
  unfold run. intros H. inv_bind H. destruct v as [cmds files]. apply arguments_meaning in EQ.
  destruct cmds as [|verb cmds]; [discriminate|]. exists verb, cmds, files. split; [exact EQ|]. rewrite execute_eq in H. inv_bind H.
  split.
  - destruct verb as [|c verb]; [discriminate|]. destruct (c =? 97)%N eqn:E; [right; apply N.eqb_eq in E; subst; reflexivity|left].
    destruct (str_eqb (c :: verb) (lit "b")) eqn:E1; [left; apply str_eqb_eq, E1|].
    destruct (str_eqb (c :: verb) (lit "bal")) eqn:E2; [right; left; apply str_eqb_eq, E2|].
    destruct (str_eqb (c :: verb) (lit "balance")) eqn:E3; [right; right; apply str_eqb_eq, E3|discriminate].
  - clear -EQ0. unfold read_journal_files in EQ0. revert EQ0. generalize journal_new. induction files as [|f files IH]; intros j H; constructor.
    + cbn [fold_outcome] in H. unfold parse_file in H. destruct (fs f); [discriminate|cbn in H; discriminate].
    + cbn [fold_outcome] in H. inv_bind H. eapply IH, H.
Qed.

(** ** The result depends on the contents of the files read *)
Lemma general_ext inc inc' j l : (forall arg, include_line l arg -> inc arg j = inc' arg j) ->
  general_directive inc j l = general_directive inc' j l.
Proof.
  intros H. rewrite !general_eq. destruct (fst (take_word l)) as [|c d] eqn:E; [reflexivity|].
  destruct (c =? 97)%N; [reflexivity|]. destruct (c =? 105)%N; [|reflexivity].
  destruct (str_eqb (c :: d) (lit "include")) eqn:Ei; [|reflexivity].
  apply str_eqb_eq in Ei. rewrite Ei in E. destruct (fst (take_word (snd (take_word l)))) as [|a arg] eqn:E2; [reflexivity|].
  apply H, take_word_include; assumption.
Qed.
Lemma parse_ext inc inc' src : (forall t arg, In (Some t) src -> include_line t arg -> forall j, inc arg j = inc' arg j) ->
  forall m j, parse_lines inc m j src = parse_lines inc' m j src.
Proof.
  induction src as [|l src IH]; intros H m j; [reflexivity|]. cbn [parse_lines].
  assert (E : step inc m j l = step inc' m j l).
  { destruct m, l as [l|]; cbn [step]; try reflexivity. unfold top_line. rewrite (general_ext inc inc' j l); [reflexivity|].
    intros arg Hl. eapply H; [left; reflexivity|exact Hl]. }
  rewrite E. destruct (step inc' m j l) as [[m' j'|j']| |]; cbn [bind]; try reflexivity.
  apply IH. intros t arg I. apply H. right. exact I.
Qed.
Lemma include_ext cwd fs fs' (P : str -> Prop) :
  (forall p, P p -> fs p = fs' p) -> (forall p q, P p -> includes cwd fs p q -> P q) ->
  forall d arg j, P (resolve cwd arg) -> include_file d cwd fs arg j = include_file d cwd fs' arg j.
Proof.
  intros E C. induction d as [|d IH]; intros arg j H; [reflexivity|]. cbn [include_file]. rewrite <- (included_ext cwd fs fs' arg (E _ H)).
  destruct (included cwd fs arg) as [[src|]| |] eqn:Fi; cbn [bind]; try reflexivity. apply included_some in Fi as Fs. apply parse_ext. intros t a I Hl j'. apply IH.
  apply (C (resolve cwd arg)); [exact H|]. exists src, t, a. rewrite names_resolve. auto.
Qed.
Lemma run_ext depth cwd fs fs' args cmds files :
  args_mean args cmds files -> (forall p, may_read cwd fs files p -> fs p = fs' p) ->
  run depth cwd fs args = run depth cwd fs' args.
Proof.
  intros M E. unfold run. apply arguments_meaning in M. rewrite M. cbn [bind]. unfold execute_command.
  destruct (unwrap (nth_error cmds 0)); cbn [bind]; try reflexivity.
  assert (R : read_journal_files depth cwd fs files = read_journal_files depth cwd fs' files); [|rewrite R; reflexivity].
  unfold read_journal_files. generalize journal_new.
  assert (G : forall l j, incl l files -> fold_outcome (fun j f => parse_file depth cwd fs f j) l j = fold_outcome (fun j f => parse_file depth cwd fs' f j) l j).
  { induction l as [|f l IH]; intros j I; [reflexivity|]. cbn [fold_outcome].
    assert (Pf : parse_file depth cwd fs f j = parse_file depth cwd fs' f j).
    { unfold parse_file. assert (Rf : may_read cwd fs files f) by (exists f; split; [apply I; left; reflexivity|apply rt_refl]).
      rewrite <- (E _ Rf). destruct (fs f) as [src|] eqn:Fs; [|reflexivity]. apply parse_ext. intros t arg It Hl j'.
      apply (include_ext cwd fs fs' (may_read cwd fs files)); [exact E| |].
      - intros p q (f0 & If & R) Hi. exists f0. split; [exact If|]. eapply rt_trans; [exact R|apply rt_step, Hi].
      - exists f. split; [apply I; left; reflexivity|]. apply rt_step. exists src, t, arg. rewrite names_resolve. auto. }
    rewrite Pf. destruct (parse_file depth cwd fs' f j); cbn [bind]; try reflexivity. apply IH. intros x Hx. apply I. right. exact Hx. }
  intros j. apply G. intros x Hx. exact Hx.
Qed.

(** ** The program *)
Lemma main_never depth cwd fs program args lines :
  hd_error program <> Some 45%N -> ~ accounts_verb program -> ~ balance_verb program ->
  main depth cwd fs program args <> Ok lines.
Proof.
  intros N1 N2 N3 H. apply run_only in H as (verb & cmds & files & M & V & _).
  inversion M as [|? ? ? ? _ M'|n vs ? ? ? _ _ E]; subst; [|apply N1; reflexivity]. destruct V as [V|V]; auto.
Qed.
