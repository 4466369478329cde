(** What the commands show for any files whatever. *)
From Coq Require Import String List NArith ZArith Bool Lia Permutation Sorting.
From Verif Require Import Base Decimal Dates Amount Balance Scanner History Pool Account Journal Xact Parser Report Options Lib.
From Verif Require Import SpecText SpecDecimal SpecAmount SpecReading SpecReport SpecAccount SpecJournal SpecPool SpecDates SpecLine SpecCommand SpecEnd SpecContent SpecRefused SpecModerate SpecAny.
From Verif Require SpellingProofs.
From Verif Require Import BaseFacts BalanceFacts XactFacts AccountFacts JournalFacts ReportFacts ReportProofs CommandProofs EndProofs ContentProofs RefusedProofs ReadingProofs ModerateProofs ModerateReading ModerateRun.
Import ListNotations.
Open Scope nat_scope.

Definition named (j : journal) : Prop := forall q, exists_at (j_master j) q <-> q = [] \/ exists p, In p (all_posts j) /\ prefix_of q (po_account p) = true.
Lemma named_new : named journal_new.
Proof.
  intros q. split.
  - destruct q as [|n q]; [auto|]. intros H. exfalso. destruct H as [a H]. discriminate H.
  - intros [->|(p & [] & _)]. eexists. reflexivity.
Qed.
Lemma files_content depth cwd fs files : forall j j', reachable_journal j -> named j ->
  fold_outcome (fun j f => parse_file depth cwd fs f j) files j = Ok j' ->
  reachable_journal j' /\ named j' /\ exists its new, files_tell cwd fs files its /\ j_xacts j' = j_xacts j ++ new /\ Forall2 xact_told its new.
Proof.
  induction files as [|f files IH]; intros j j' R N H; cbn [fold_outcome] in H.
  - injection H as <-. split; [exact R|]. split; [exact N|]. exists [], []. split; [exists []; split; [constructor|reflexivity]|]. rewrite app_nil_r. split; [reflexivity|constructor].
  - inv_bind H. rename v into j1. unfold parse_file in EQ. destruct (fs f) as [src|] eqn:E; [|discriminate].
    assert (R1 := rj_read _ _ _ _ _ _ R EQ). destruct (read_content _ _ _ _ _ _ R EQ) as (its & new & C & X & T).
    assert (N1 : named j1).
    { intros q. rewrite (read_accounts _ _ _ _ _ _ q R EQ), (N q). split; [intros [[H1|(p & I & Hp)]|H1]; auto|intros [H1|H1]; auto].
      right. exists p. split; [|exact Hp]. unfold all_posts in *. rewrite X, flat_map_app. apply in_or_app. left. exact I. }
    destruct (IH j1 j' R1 N1 H) as (R2 & N2 & its2 & new2 & (itss & C2 & ->) & X2 & T2). split; [exact R2|]. split; [exact N2|].
    exists (its ++ concat itss), (new ++ new2). split; [exists (its :: itss); split; [constructor; [exists src; auto|exact C2]|reflexivity]|].
    split; [rewrite X2, X, app_assoc; reflexivity|]. apply Forall2_app; assumption.
Qed.
Lemma execute_mean depth cwd fs args cmds files : args_mean args cmds files -> run depth cwd fs args = execute_command depth cwd fs cmds files.
Proof. intros M. unfold run. apply arguments_meaning in M. rewrite M. reflexivity. Qed.
Lemma shown_totals j p line a b : reachable_journal j -> get_account (j_master j) p = Some a -> account_total (j_xacts j) a = Ok b ->
  line = lit "Account " ++ fullname p ++ lit " has balance " ++ concat (map (fun x => d_to_string (a_q x) ++ match a_c x with Some s => 32%N :: s | None => [] end) b) ->
  (fits_amts (amounts_below p (j_xacts j)) -> sums_up b (amounts_below p (j_xacts j))) /\ line = lit "Account " ++ shown_name p ++ lit " has balance " ++ shown_amounts b.
Proof.
  intros R G T ->. split; [|rewrite shown_fullname; reflexivity]. intros F. destruct (total_below j p a R G F) as (b' & T' & S). rewrite T in T'. injection T' as <-. exact S.
Qed.
Theorem any_balance depth cwd fs args verb cmds files out :
  args_mean args (verb :: cmds) files -> balance_verb verb -> run depth cwd fs args = Ok out ->
  exists its xs ps, files_tell cwd fs files its /\ Forall2 xact_told its xs /\ accounts_named xs ps
    /\ Forall2 (fun p line => exists b, (fits_amts (amounts_below p xs) -> sums_up b (amounts_below p xs))
                  /\ line = lit "Account " ++ shown_name p ++ lit " has balance " ++ shown_amounts b) ps out.
Proof.
  intros A V H. rewrite (execute_mean _ _ _ _ _ _ A), execute_eq in H.
  destruct (read_journal_files depth cwd fs files) as [j| |] eqn:E; cbn [bind] in H; try discriminate.
  assert (Hr : balance_report j = Ok out) by (destruct V as [->|[->| ->]]; exact H). clear H.
  destruct (files_content _ _ _ _ _ _ rj_new named_new E) as (R & N & its & xs & C & X & T). cbn [journal_new j_xacts app] in X. subst xs.
  destruct (report_shape j out R Hr) as (ps & (O & I) & G). exists its, (j_xacts j), ps. split; [exact C|]. split; [exact T|].
  split; [split; [exact O|]; intros p; rewrite I; apply N|]. eapply Forall2_impl; [|exact G]. intros p line (a & b & Ga & Tb & L). exists b. eapply shown_totals; eassumption.
Qed.
Theorem any_accounts depth cwd fs args verb cmds files out :
  args_mean args (verb :: cmds) files -> accounts_verb verb -> run depth cwd fs args = Ok out ->
  exists its xs ps, files_tell cwd fs files its /\ Forall2 xact_told its xs /\ accounts_named xs ps
    /\ Permutation out (map (fun p => last p []) ps) /\ StronglySorted (fun a b => str_lt a b \/ a = b) out.
Proof.
  intros A V H. rewrite (execute_mean _ _ _ _ _ _ A), execute_eq in H.
  destruct (read_journal_files depth cwd fs files) as [j| |] eqn:E; cbn [bind] in H; try discriminate.
  assert (Hr : out = sort_strings (report_accounts j)). { destruct verb as [|c verb]; [discriminate|]. injection V as ->. injection H as <-. reflexivity. } subst out. clear H.
  destruct (files_content _ _ _ _ _ _ rj_new named_new E) as (R & N & its & xs & C & X & T). cbn [journal_new j_xacts app] in X. subst xs.
  destruct (accounts_shape j R) as (ps & (O & I) & Ea). exists its, (j_xacts j), ps. split; [exact C|]. split; [exact T|].
  split; [split; [exact O|]; intros p; rewrite I; apply N|].
  destruct (sort_strings_spec (report_accounts j)) as [P S]. rewrite <- Ea. split; [symmetry; exact P|exact S].
Qed.

(** ** Files with numbers of ordinary size *)
Lemma posting_count its xs : Forall2 xact_told its xs -> length (postings xs) = posting_lines its.
Proof.
  induction 1 as [|o x its xs (ps & (note & ns & es & _ & Es & _ & F) & _ & S & _) T IH]; [reflexivity|].
  unfold postings, posting_lines in *. cbn [flat_map]. rewrite filter_app, !app_length, IH. f_equal. cbn [x_posts] in F.
  assert (L : length (x_posts x) = length es). { rewrite <- (SpellingProofs.len_rel _ _ _ S). symmetry. exact (SpellingProofs.len_rel _ _ _ F). } rewrite L, Es, filter_app, app_length.
  assert (Z : forall l, filter is_posting (map Note_line l) = []) by (intros l; induction l; auto). rewrite Z. cbn [length Nat.add]. clear - Z.
  induction es as [|e es IH]; [reflexivity|]. cbn [flat_map]. rewrite filter_app, app_length. cbn [filter is_posting]. rewrite Z. cbn [length]. rewrite <- IH. reflexivity.
Qed.
Section Ordinary.
  Variables (B : Z) (k N : nat).
  Hypothesis Bounds : moderate_bounds B k N.
  Variables (cwd : str) (fs : filesystem) (known : list str) (depth : nat).
  Hypothesis Files : forall p f, fs p = Some f -> moderate_source B k N f.
  Hypothesis Acyclic : acyclic cwd fs.
  Hypothesis Only : only_files fs known.
  Hypothesis Paths : forall q, fs q <> None -> file_path q.
  Hypothesis Deep : length known < depth.
  Lemma ordinary_file f src j : fs f = Some src -> ~ refused cwd fs None src -> reachable_journal j -> moderate_journal B k N j -> exists j', read_into_journal depth cwd fs src j = Ok j'.
  Proof.
    intros E Nr R M. destruct (moderate_reading B k N Bounds depth cwd fs src j (Files _ _ E) Files M) as [Np _].
    destruct (terminates cwd fs known Acyclic Only src j) as (o & No & Ho). rewrite (Ho _ Deep) in *. destruct o as [j'|q|]; [eauto| |contradiction].
    elim Nr. eapply (panics_refused depth cwd fs src j q); [exact Paths|exact R|rewrite (Ho _ Deep); reflexivity|]. intros ->. apply Np. reflexivity.
  Qed.
  Lemma ordinary_files files : (forall f, In f files -> exists src, fs f = Some src /\ ~ refused cwd fs None src) -> forall j, reachable_journal j -> moderate_journal B k N j ->
    exists j', fold_outcome (fun j f => parse_file depth cwd fs f j) files j = Ok j'.
  Proof.
    induction files as [|f files IH]; intros F j R M; cbn [fold_outcome]; [eauto|]. destruct (F f (or_introl eq_refl)) as (src & E & Nr).
    destruct (ordinary_file f src j E Nr R M) as [j1 E1]. assert (Ep : parse_file depth cwd fs f j = Ok j1) by (unfold parse_file; rewrite E; exact E1). rewrite Ep. cbn [bind].
    apply IH; [intros g I; apply F; right; exact I|exact (rj_read _ _ _ _ _ _ R E1)|]. apply (moderate_reading B k N Bounds depth cwd fs src j (Files _ _ E) Files M), E1.
  Qed.
  Theorem ordinary_balance args verb cmds files :
    args_mean args (verb :: cmds) files -> balance_verb verb -> (forall f, In f files -> exists src, fs f = Some src /\ ~ refused cwd fs None src) ->
    (forall its, files_tell cwd fs files its -> Z.of_nat (posting_lines its) * (Z.of_nat N * (B * B * 10 ^ Z.of_nat (2 * k))) < 2 ^ 96)%Z ->
    exists out its xs ps, run depth cwd fs args = Ok out /\ files_tell cwd fs files its /\ Forall2 xact_told its xs /\ accounts_named xs ps
      /\ Forall2 (fun p line => exists b, sums_up b (amounts_below p xs) /\ line = lit "Account " ++ shown_name p ++ lit " has balance " ++ shown_amounts b) ps out.
  Proof.
    intros A V F L.
    assert (M0 : moderate_journal B k N journal_new). { split; [intros p a []|]. intros s an pr H. discriminate H. }
    destruct (ordinary_files files F _ rj_new M0) as [j E]. destruct (files_content _ _ _ _ _ _ rj_new named_new E) as (R & Nm & its & xs & C & X & T). cbn [journal_new j_xacts app] in X. subst xs.
    destruct (files_moderate B k N Bounds depth cwd fs Files files journal_new rj_new M0) as [_ Mj]. destruct (Mj _ E) as [_ M].
    assert (Ft : fits_amts (amounts_of (all_posts j))).
    { apply (moderate_fits B k N j Bounds M). unfold all_posts. fold (postings (j_xacts j)). rewrite (posting_count _ _ T). apply L, C. }
    destruct (report_succeeds j R Ft) as [out Er]. destruct (report_shape j out R Er) as (ps & (O & I) & G).
    exists out, its, (j_xacts j), ps. split.
    { rewrite (execute_mean _ _ _ _ _ _ A), execute_eq. unfold read_journal_files. rewrite E. cbn [bind]. destruct V as [->|[->| ->]]; exact Er. }
    split; [exact C|]. split; [exact T|]. split; [split; [exact O|]; intros p; rewrite I; apply Nm|].
    eapply Forall2_impl; [|exact G]. intros p line (a & b & Ga & Tb & Ln). exists b. destruct (shown_totals j p line a b R Ga Tb Ln) as [S ->]. split; [|reflexivity]. apply S.
    destruct (below_sub j p []) as (r & P). rewrite below_master in P. cbn [app] in P. change (fits_amts (amounts_of (posts_below j p))). eapply fits_amts_sub; eassumption.
  Qed.
End Ordinary.
