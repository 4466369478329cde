(** Written files for the examples about reports, and why the sign of a negative rest matters. *)
From Coq Require Import String List NArith ZArith Bool Lia Sorted.
From Verif Require Import Base Decimal Dates Amount Balance Scanner History Pool Account Journal Xact Parser Report Options Lib.
From Verif Require Import SpecDecimal SpecAmount SpecDates SpecPool SpecAccount SpecXact SpecJournal SpecText SpecReading SpecScan SpecWhole SpecReport SpecCommand SpecEnd.
From Verif Require Import BaseFacts DecimalFacts ArithProofs ScanFacts ScanProofs DemoJournal DemoScan WholeProofs DemoWhole EndProofs.
Import ListNotations.
Open Scope list_scope.
Open Scope nat_scope.

Definition file_a : str := lit "/w/a.ledger".
Definition file_b : str := lit "/w/b.ledger".
Definition broker : str := lit "Assets:Broker".
Definition wpost6 : str := lit "    Assets:Broker  10 VTI
".
Definition a_lines : list str := [wcomment; demo_header; wpost1; wpost2; wpost5].
Definition b_lines : list str := [demo_header; wpost6; wpost4; nl; demo_header; wpost2; wpost5].
Definition wc : wxact := mkWX (mkDate 2023 4 5) (Some (mkDate 2023 4 6)) (lit "The; Shop") (lit "a note")
  [mkWP broker (Some ((10 * unit1)%Z, 0, lit "VTI")); mkWP cash (Some ((-10 * unit1)%Z, 0, lit "VTI"))].
Definition wd : wxact := mkWX (mkDate 2023 4 5) (Some (mkDate 2023 4 6)) (lit "The; Shop") (lit "a note")
  [mkWP cash (Some ((25 * unit1)%Z, 0, lit "EUR")); mkWP food None].
Definition end_fs (p : str) : option source :=
  if str_eqb p file_a then Some (text_source (concat a_lines)) else if str_eqb p file_b then Some (text_source (concat b_lines)) else None.
Definition end_args : list str := [lit "bal"; lit "-f"; file_a; lit "-f"; file_b].

Lemma denotes_10 : denotes (lit "10") (10 * unit1) 0.
Proof. apply (denotes_check [] false (lit "10") [] []); auto. Qed.
Lemma writes6 : writes_posting wpost6 (mkWP broker (Some ((10 * unit1)%Z, 0, lit "VTI"))).
Proof.
  eexists _, _, _. split; [reflexivity|]. split; [|split; [reflexivity|exact denotes_10]].
  apply (pl_amount (lit "    ") broker [] (lit "10 VTI") (lit "10") (lit "VTI") [] [] [] [] [] [] [] [] false nl); try reflexivity; try exact lp_none; try exact ld_none; try exact c_none;
    [apply check_account_ok; reflexivity|exact (after_vti (lit "10") eq_refl)|auto].
Qed.
Lemma a_written : writes_journal a_lines [wa].
Proof.
  apply wj_inert; [eexists; split; [reflexivity|]; right; right; eexists _, _; split; [reflexivity|left; reflexivity]|].
  apply (wj_last demo_header [wpost1; wpost2; wpost5]); [apply writes_demo_header|]. repeat constructor; [apply writes1|apply writes2|apply writes5].
Qed.
Lemma b_written : writes_journal b_lines [wc; wd].
Proof.
  apply (wj_xact demo_header [wpost6; wpost4] nl); [apply writes_demo_header| |left; reflexivity|].
  - repeat constructor; [apply writes6|apply writes4].
  - apply (wj_last demo_header [wpost2; wpost5]); [apply writes_demo_header|]. repeat constructor; [apply writes2|apply writes5].
Qed.
Lemma end_files : Forall2 (file_says end_fs) [file_a; file_b] [[wa]; [wc; wd]].
Proof.
  constructor; [|constructor; [|constructor]]; eexists _, _; (split; [reflexivity|]).
  - split; [apply (lines_check [wcomment; demo_header; wpost1; wpost2] wpost5); reflexivity|exact a_written].
  - split; [apply (lines_check [demo_header; wpost6; wpost4; nl; demo_header; wpost2] wpost5); reflexivity|exact b_written].
Qed.
Lemma end_well_formed : Forall well_formed [wa; wc; wd].
Proof. repeat apply Forall_cons; [exact wa_well_formed| | |constructor]; [apply (well_formed_ok (lit "VTI") 0)|apply (well_formed_ok (lit "EUR") 0)]; vm_compute; reflexivity. Qed.
Definition rest_check (w : wxact) : bool := (0 <=? sumZ (written_units w))%Z.
Lemma rest_ok w : rest_check w = true -> no_positive_rest w.
Proof. intros H. right. apply Z.leb_le, H. Qed.
Lemma end_rest : Forall no_positive_rest [wa; wc; wd].
Proof. repeat apply Forall_cons; [..|constructor]; apply rest_ok; vm_compute; reflexivity. Qed.
Definition fit_check (scale : nat) (ws : list wxact) : bool :=
  (scale <=? 28) && forallb (fun w => forallb (fun p => match wp_amount p with Some (_, k, _) => k <=? scale | None => true end) (wx_posts w)) ws
  && (sumZ (map (fun e => Z.abs (snd e)) (entries ws)) <? 2 ^ 96 * 10 ^ Z.of_nat (28 - scale))%Z.
Lemma fit_ok scale ws : fit_check scale ws = true -> sums_fit ws.
Proof.
  unfold fit_check. rewrite !andb_true_iff. intros [[A B] C]. exists scale. split; [apply Nat.leb_le, A|]. split; [|apply Z.ltb_lt, C].
  rewrite forallb_forall in B. apply Forall_forall. intros w Hw. specialize (B w Hw). rewrite forallb_forall in B. apply Forall_forall. intros p Hp u k s E.
  specialize (B p Hp). rewrite E in B. apply Nat.leb_le, B.
Qed.
Lemma end_fit : sums_fit [wa; wc; wd].
Proof. apply (fit_ok 2). vm_compute. reflexivity. Qed.
Lemma end_args_mean : args_mean end_args [lit "bal"] [file_a; file_b].
Proof.
  apply am_word; [discriminate|]. apply (am_files 1 [file_a] [lit "-f"; file_b]); [reflexivity|]. apply (am_files 1 [file_b] []); [reflexivity|]. apply am_nil.
Qed.

(** Without the condition on rests the report can differ: what is left out is 10 VTI, shown is -10 VTI. *)
Definition c_lines : list str := [demo_header; wpost4; wpost5].
Definition neg_fs (p : str) : option source := if str_eqb p file_a then Some (text_source (concat c_lines)) else None.
Definition neg_args : list str := [lit "bal"; lit "-f"; file_a].
Definition neg_out : list str := map lit ["Account  has balance -20 VTI"; "Account Assets has balance -10 VTI"; "Account Assets:Cash has balance -10 VTI";
  "Account Expenses has balance -10 VTI"; "Account Expenses:Food has balance -10 VTI"]%string.
Lemma neg_run : run 1 [] neg_fs neg_args = Ok neg_out.
Proof. vm_compute. reflexivity. Qed.
Lemma neg_files : Forall2 (file_says neg_fs) [file_a] [[wb]].
Proof.
  constructor; [|constructor]; eexists _, _; (split; [reflexivity|]). split; [apply (lines_check [demo_header; wpost4] wpost5); reflexivity|].
  apply (wj_last demo_header [wpost4; wpost5]); [apply writes_demo_header|]. repeat constructor; [apply writes4|apply writes5].
Qed.
Lemma neg_args_mean : args_mean neg_args [lit "bal"] [file_a].
Proof. apply am_word; [discriminate|]. apply (am_files 1 [file_a] []); [reflexivity|]. apply am_nil. Qed.
Lemma neg_fit : sums_fit [wb].
Proof. apply (fit_ok 0). vm_compute. reflexivity. Qed.
Lemma neg_sum : sum_in (Some (lit "VTI")) (below [] (entries [wb])) = 0%Z.
Proof. vm_compute. reflexivity. Qed.
Lemma neg_comm c : (exists e, In e (below [] (entries [wb])) /\ snd (fst e) = c) <-> c = Some (lit "VTI").
Proof.
  split; [|intros ->; eexists; split; [left; reflexivity|reflexivity]].
  intros (e & He & <-). assert (F : Forall (fun e => snd (fst e) = Some (lit "VTI")) (below [] (entries [wb]))) by (repeat constructor).
  rewrite Forall_forall in F. apply F, He.
Qed.
Lemma neg_text d : wf_dec d -> units d = 0%Z -> lit "Account  has balance -20 VTI" <> lit "Account " ++ shown_name [] ++ lit " has balance " ++ shown_amounts [mkAmt d (Some (lit "VTI"))].
Proof.
  intros W U E. change (lit "Account  has balance -20 VTI") with (lit "Account " ++ shown_name [] ++ lit " has balance " ++ lit "-20 VTI") in E.
  do 3 apply app_inv_head in E. unfold shown_amounts in E. cbn [map concat a_q a_c] in E. rewrite app_nil_r in E.
  change (lit "-20 VTI") with (lit "-20" ++ (32%N :: lit "VTI")) in E. apply app_inv_tail in E.
  destruct (quantity_round_trip d W) as (r & Er & Ur & _). rewrite <- E in Er. assert (X : d_from_str (lit "-20") = Some (mkDec true 20 0)) by reflexivity.
  rewrite X in Er. injection Er as <-. rewrite U in Ur. vm_compute in Ur. discriminate Ur.
Qed.
Lemma first_line {A B} (R : A -> B -> Prop) ps out p : Forall2 R ps out -> hd_error ps = Some p -> exists l, hd_error out = Some l /\ R p l.
Proof. intros F H. destruct F; [discriminate|]. injection H as <-. cbn. eauto. Qed.
Lemma sorted_head ps : StronglySorted path_lt ps -> In [] ps -> hd_error ps = Some [].
Proof. intros S H. destruct ps as [|p ps]; [destruct H|]. cbn. destruct H as [->|H]; [reflexivity|]. inversion S as [|? ? _ F]; subst. rewrite Forall_forall in F. specialize (F _ H). destruct p; destruct F. Qed.
Lemma balance_end_refuted :
  ~ (forall depth cwd fs args verb cmds files wss,
       args_mean args (verb :: cmds) files -> balance_verb verb -> Forall2 (file_says fs) files wss ->
       Forall well_formed (concat wss) -> sums_fit (concat wss) ->
       exists out ps, run depth cwd fs args = Ok out /\ accounts_said (concat wss) ps
         /\ Forall2 (fun p line => exists b, totals_said (below p (entries (concat wss))) b
                     /\ line = lit "Account " ++ shown_name p ++ lit " has balance " ++ shown_amounts b) ps out).
Proof.
  intros H. destruct (H 1 [] neg_fs neg_args (lit "bal") [] [file_a] [[wb]] neg_args_mean (or_intror (or_introl eq_refl)) neg_files
    (Forall_cons _ wb_well_formed (Forall_nil _)) neg_fit) as (out & ps & E & (S & I) & F).
  rewrite neg_run in E. assert (out = neg_out) by congruence. subst out. clear E H.
  assert (Hd : hd_error ps = Some []) by (apply sorted_head; [exact S|apply I; left; reflexivity]).
  destruct (first_line _ _ _ _ F Hd) as (l & El & b & (Nd & C & W & T) & ->). clear F. change (concat [[wb]]) with [wb] in *.
  assert (Eb : exists d, b = [mkAmt d (Some (lit "VTI"))]).
  { assert (X : In (Some (lit "VTI")) (map a_c b)) by (apply C, neg_comm; reflexivity).
    destruct b as [|[d c] [|[d' c'] b]]; [destruct X| |].
    - destruct X as [X|[]]. cbn in X. subst c. eauto.
    - assert (c = Some (lit "VTI")) by (apply neg_comm, C; left; reflexivity). assert (c' = Some (lit "VTI")) by (apply neg_comm, C; right; left; reflexivity).
      subst c c'. inversion Nd as [|? ? N _]; subst. destruct N. left. reflexivity. }
  destruct Eb as (d & ->). apply (neg_text d).
  - inversion W; subst. assumption.
  - specialize (T _ (or_introl eq_refl)). cbn [a_c] in T. rewrite neg_sum in T. exact T.
  - unfold neg_out in El. cbn [map hd_error] in El. congruence.
Qed.
