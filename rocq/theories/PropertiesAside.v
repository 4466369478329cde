(** C87: dates, payees, notes, comments and prices do not change accounts and balances. *)
From Coq Require Import String List NArith ZArith Bool Lia.
From Verif Require Import Base Decimal Dates Amount Balance Scanner History Pool Account Journal Xact Parser Report Options Lib.
From Verif Require Import SpecText SpecReading SpecDates SpecScan SpecOutline SpecLine SpecValue SpecRefused SpecSpelling SpecAside.
From Verif Require Import BaseFacts DatesFacts LineReadProofs LiteralProofs ScanFacts RefusedProofs AsideProofs DemoScan.
Import ListNotations.
Open Scope list_scope.
Open Scope nat_scope.

(** ** C87: what is said beside the amounts does not change them *)
Theorem C87_reading :
  forall depth cwd fs fs' src src' j j', files_beside fs fs' -> source_beside src src' -> journal_beside j j' ->
  same_outcome journal_beside (read_into_journal depth cwd fs src j) (read_into_journal depth cwd fs' src' j').
Proof. exact reading_aside. Qed.
Print Assumptions C87_reading.
Theorem C87_report :
  forall j j', journal_beside j j' -> balance_report j = balance_report j' /\ report_accounts j = report_accounts j'.
Proof. exact report_aside. Qed.
Print Assumptions C87_report.
(** The commands end in the same way and show the same text. *)
Theorem C87_run : forall depth cwd fs fs' args, files_beside fs fs' -> run depth cwd fs args = run depth cwd fs' args.
Proof. exact run_aside. Qed.
Print Assumptions C87_run.

Definition plain_story : list str := [lit "2023-05-03 Broker" ++ nl; lit "  ; first" ++ nl; lit "  Assets:Stock  2 VTI {3 EUR} @ 2.50 EUR" ++ nl; lit "  Assets:Cash" ++ nl; nl;
  lit "; prices" ++ nl; lit "i 2023-05-04 12:30:00 VTI 2.60 EUR"].
Definition other_story : list str := [lit "1999-12-31=2000-01-02 Someone else  ; a note" ++ nl; lit " ;" ++ nl; lit "  Assets:Stock  2 VTI {3 EUR} [2001-02-03] @ 2.50 EUR" ++ nl; lit "  Assets:Cash" ++ nl; nl;
  lit "* heading" ++ nl; lit "i 1990-01-01 VTI -7 EUR"].
Definition story_fs (l : list str) : filesystem := fun p => if str_eqb p (lit "j") then Some (text_source (concat l)) else None.
Lemma good_header c r x : is_digit c = true -> create_xact journal_new (c :: r) = Ok x -> ~ header_refused (c :: r).
Proof. intros D E. assert (H := header_cases journal_new c r D). rewrite E in H. exact H. Qed.
Lemma good_price_check w x r s t d tm q e : let l := w ++ x ++ r in
  scan_price_directive l = Ok (d, tm, s, q, t) ->
  hd 0%N l = 105%N -> w = [] -> x = [105%N] -> (exists r', r = 32%N :: r') ->
  parse_date_opt d = Some e -> (tm = [] \/ exists v, parse_time_opt tm = Some v) -> (exists v, d_from_str q = Some v) -> good_price l s t.
Proof.
  intros l S H Ew Ex (r' & Er) D T Q. split; [exact H|]. split.
  - exists w, x, r. split; [reflexivity|]. subst w x r. split; [reflexivity|]. split; [split; [discriminate|repeat constructor]|]. split; [right; exists 32%N, r'; auto|]. repeat split; discriminate.
  - apply quantity_text_iff in Q as (neg & wh & fr & Q). exists d, tm, q, neg, wh, fr. split; [apply price_iff, S|]. split; [exists e; apply parse_date_iff, D|]. split; [|exact Q].
    destruct T as [->|[v T]]; [left; reflexivity|]. right. exists v. apply parse_time_iff, T.
Qed.
Lemma two_stories : source_beside (map Some plain_story) (map Some other_story).
Proof.
  unfold plain_story, other_story. cbn [map]. repeat apply Forall2_cons; try apply Forall2_nil.
  - apply bs_header; try reflexivity; (eapply good_header; [reflexivity|vm_compute; reflexivity]).
  - apply bs_note; [exists sp, (lit " first" ++ nl)|exists [], nl]; repeat split.
  - eapply bs_posting; [apply post_iff; vm_compute; reflexivity|apply post_iff; vm_compute; reflexivity|repeat split|left; reflexivity|].
    right. exists (mkDate 2001 2 3). apply parse_date_iff. vm_compute. reflexivity.
  - constructor.
  - constructor.
  - apply bs_comment; eexists _, _; split; reflexivity.
  - apply (bs_price _ _ (lit "VTI") (lit "EUR")).
    + eapply (good_price_check [] [105%N] (lit " 2023-05-04 12:30:00 VTI 2.60 EUR")); try (vm_compute; reflexivity); [eexists; reflexivity|right; eexists; vm_compute; reflexivity|eexists; vm_compute; reflexivity].
    + eapply (good_price_check [] [105%N] (lit " 1990-01-01 VTI -7 EUR")); try (vm_compute; reflexivity); [eexists; reflexivity|left; reflexivity|eexists; vm_compute; reflexivity].
Qed.
Example C87_stories : files_beside (story_fs plain_story) (story_fs other_story)
  /\ run 1 [] (story_fs other_story) [lit "-f"; lit "j"; lit "b"] = Ok [lit "Account  has balance -5.00 EUR2 VTI"; lit "Account Assets has balance -5.00 EUR2 VTI";
       lit "Account Assets:Cash has balance -5.00 EUR"; lit "Account Assets:Stock has balance 2 VTI"].
Proof.
  split; [|vm_compute; reflexivity]. intros p. unfold story_fs. destruct (str_eqb p (lit "j")); [|exact I]. exact two_stories.
Qed.
