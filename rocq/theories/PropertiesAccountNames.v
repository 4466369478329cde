(** C90: other names of the accounts. *)
From Coq Require Import String List NArith ZArith Bool Lia.
From Verif Require Import Base Decimal Dates Amount Balance Scanner History Pool Account Journal Xact Parser Report Options Lib.
From Verif Require Import SpecText SpecAccount SpecReading SpecScan SpecOutline SpecLine SpecEnd SpecValue SpecSpelling SpecJournal SpecAccountNames.
From Verif Require Import BaseFacts LineReadProofs AccountNamesProofs DemoScan.
Import ListNotations.
Open Scope list_scope.
Open Scope nat_scope.

(** ** C90: accounts with other names give the same journal with the other names *)
Theorem C90_reading :
  forall g depth cwd fs fs' src src' j, account_renaming g -> files_moved g fs fs' -> source_moved g src src' ->
  same_outcome (fun j1 j2 => j2 = journal_moved g j1)
    (read_into_journal depth cwd fs src j) (read_into_journal depth cwd fs' src' (journal_moved g j)).
Proof. intros g depth cwd fs fs' src src' j R. exact (reading_mov g R depth cwd fs fs' src src' j). Qed.
Print Assumptions C90_reading.
(** If the other names of siblings are in the same order, the reports show the same with the other names. *)
Theorem C90_report :
  forall g j, account_renaming g -> keeps_order g -> wf_tree (j_master j) ->
  same_outcome (Forall2 (shown_moved g)) (balance_report j) (balance_report (journal_moved g j))
  /\ report_accounts (journal_moved g j) = map g (report_accounts j).
Proof. intros g j R O. exact (report_mov g R O j). Qed.
Print Assumptions C90_report.
Theorem C90_run :
  forall g depth cwd fs fs' args, account_renaming g -> keeps_order g -> files_moved g fs fs' ->
  same_outcome (fun out out' => out' = map g out \/ Forall2 (shown_moved g) out out') (run depth cwd fs args) (run depth cwd fs' args).
Proof. intros g depth cwd fs fs' args R O. exact (run_mov g R O depth cwd fs fs' args). Qed.
Print Assumptions C90_run.

(** Every character after the colon is replaced by the next one. *)
Definition upward (c : N) : N := if (c <=? 58)%N then c else (c + 1)%N.
Definition shifted (s : str) : str := map upward s.
Lemma shifted_renaming : account_renaming shifted.
Proof.
  repeat split.
  - intros s. induction s as [|c s IH]; intros [|d t] E; try discriminate; [reflexivity|]. cbn in E. injection E as E1 E2. f_equal; [|apply IH, E2].
    unfold upward in E1. destruct (N.leb_spec c 58), (N.leb_spec d 58); lia.
  - intros s t. unfold shifted. rewrite map_app. reflexivity.
  - intros s N H. apply N. apply in_map_iff in H as (c & E & I). unfold upward, colon in *. destruct (N.leb_spec c 58); [subst; exact I|lia].
Qed.
Lemma shifted_order : keeps_order shifted.
Proof.
  intros s t _ _. revert t. induction s as [|c s IH]; intros [|d t]; try reflexivity. cbn [shifted map str_leb]. change (map upward s) with (shifted s). change (map upward t) with (shifted t). rewrite IH.
  unfold upward. destruct (N.leb_spec c 58), (N.leb_spec d 58).
  - reflexivity.
  - assert (E : (c <? d + 1)%N = true) by (apply N.ltb_lt; lia). assert (E' : (c <? d)%N = true) by (apply N.ltb_lt; lia). rewrite E, E'. reflexivity.
  - assert (E : (c + 1 <? d)%N = false) by (apply N.ltb_ge; lia). assert (E' : (c <? d)%N = false) by (apply N.ltb_ge; lia). rewrite E, E'.
    assert (X : (c + 1 =? d)%N = false) by (apply N.eqb_neq; lia). assert (X' : (c =? d)%N = false) by (apply N.eqb_neq; lia). rewrite X, X'. reflexivity.
  - assert (E : (c + 1 <? d + 1)%N = (c <? d)%N) by (destruct (N.ltb_spec c d), (N.ltb_spec (c + 1) (d + 1)); try reflexivity; lia).
    assert (X : (c + 1 =? d + 1)%N = (c =? d)%N) by (destruct (N.eqb_spec c d), (N.eqb_spec (c + 1) (d + 1)); try reflexivity; lia). rewrite E, X. reflexivity.
Qed.
Definition house_file : list str := [lit "2023-05-03 Shop" ++ nl; lit "  Food:Bread  2.50 EUR ; Food" ++ nl; lit "  Food:Apples  1 EUR" ++ nl; lit "  ; Food" ++ nl; lit "  Assets:Cash"].
Definition other_file : list str := [lit "2023-05-03 Shop" ++ nl; lit "  Gppe:Csfbe  2.50 EUR" ++ nl; lit "  Gppe:Bqqmft  EUR 1" ++ nl; lit "  ; Food" ++ nl; lit "  Bttfut:Dbti"].
Definition house_fs (l : list str) : filesystem := fun p => if str_eqb p (lit "j") then Some (text_source (concat l)) else None.
Lemma two_houses : source_moved shifted (map Some house_file) (map Some other_file).
Proof.
  unfold house_file, other_file. cbn [map]. repeat apply Forall2_cons; try apply Forall2_nil.
  - apply mv_other. discriminate.
  - eapply mv_posting; apply post_iff; vm_compute; reflexivity.
  - eapply mv_posting; apply post_iff; vm_compute; reflexivity.
  - apply mv_note. exists sp, (lit " Food" ++ nl). repeat split.
  - eapply mv_posting; apply post_iff; vm_compute; reflexivity.
Qed.
Example C90_shifted : files_moved shifted (house_fs house_file) (house_fs other_file)
  /\ run 1 [] (house_fs house_file) [lit "-f"; lit "j"; lit "b"] = Ok [lit "Account  has balance 0.00 EUR"; lit "Account Assets has balance -3.50 EUR";
       lit "Account Assets:Cash has balance -3.50 EUR"; lit "Account Food has balance 3.50 EUR"; lit "Account Food:Apples has balance 1 EUR"; lit "Account Food:Bread has balance 2.50 EUR"]
  /\ run 1 [] (house_fs other_file) [lit "-f"; lit "j"; lit "b"] = Ok [lit "Account  has balance 0.00 EUR"; lit "Account Bttfut has balance -3.50 EUR";
       lit "Account Bttfut:Dbti has balance -3.50 EUR"; lit "Account Gppe has balance 3.50 EUR"; lit "Account Gppe:Bqqmft has balance 1 EUR"; lit "Account Gppe:Csfbe has balance 2.50 EUR"].
Proof.
  split; [|split; vm_compute; reflexivity]. intros p. unfold house_fs. destruct (str_eqb p (lit "j")); [|exact I]. exact two_houses.
Qed.
