(** Examples and refutations for the smaller properties. *)
From Coq Require Import String List NArith ZArith Bool Lia.
From Verif Require Import Base Decimal Dates Amount Balance Scanner History Pool Account Journal Xact Parser Report OldReport.
From Verif Require Import SpecDecimal SpecAmount SpecPool SpecAccount SpecJournal SpecText SpecReading SpecScan SpecWhole SpecReport SpecMore.
From Verif Require Import ArithProofs DemoXact DemoJournal DemoScan.
From Verif Require ModelTests.
Import ListNotations.
Open Scope list_scope.
Open Scope nat_scope.

Definition eur (m : Z) (s : nat) : amount := mkAmt (mkDec (m <? 0)%Z (Z.abs m) s) (Some (lit "EUR")).
Definition usd (m : Z) (s : nat) : amount := mkAmt (mkDec (m <? 0)%Z (Z.abs m) s) (Some (lit "USD")).
Lemma amounts_ok l : forallb wf_check l = true -> Forall wf_amt l.
Proof. intros H. apply Forall_forall. intros a Ha. rewrite forallb_forall in H. apply wf_check_ok, H, Ha. Qed.
Definition holdings : balance := [eur 1000 2; usd 5 0].

(** Taking -5 EUR from an empty balance leaves -5 EUR instead of 5 EUR. *)
Lemma sub_refuted :
  ~ (forall b a, NoDup (map a_c b) -> Forall wf_amt b -> wf_amt a -> representable (holds b (a_c a) - aunits a) ->
       exists b', bal_sub b a = Ok b' /\ NoDup (map a_c b') /\ Forall wf_amt b' /\ forall c, holds b' c = less b a c).
Proof.
  intros H. destruct (H [] (eur (-5) 0)) as (b' & E & _ & _ & L).
  - constructor.
  - constructor.
  - apply wf_check_ok. reflexivity.
  - exists (mkDec false 5 0). split; [wf_lit|vm_compute; reflexivity].
  - cbn [bal_sub] in E. injection E as <-. specialize (L (Some (lit "EUR"))). revert L. vm_compute. discriminate.
Qed.

(** The second file has one transaction, but [read] returns three. *)
Definition journal2 : journal * nat := from_ok (journal_new, 0) (journal_read 3 [] ModelTests.no_files (text_source text2) j1).
Lemma read_again : journal_read 3 [] ModelTests.no_files (text_source text2) j1 = Ok journal2.
Proof. vm_compute. reflexivity. Qed.
Lemma count_refuted :
  ~ (forall depth cwd fs src j j' n new, reachable_journal j -> journal_read depth cwd fs src j = Ok (j', n) ->
       j_xacts j' = j_xacts j ++ new -> n = length new).
Proof.
  intros H. specialize (H 3 [] ModelTests.no_files (text_source text2) j1 (fst journal2) (snd journal2) (skipn 2 (j_xacts (fst journal2))) j1_reachable).
  assert (E : snd journal2 = length (skipn 2 (j_xacts (fst journal2)))).
  { apply H; [rewrite <- surjective_pairing; exact read_again|]. vm_compute. reflexivity. }
  revert E. vm_compute. discriminate.
Qed.

Definition old_balances : list (str * balance) := from_ok [] (get_account_balances j2).
Definition one_word_check (a : amount) : bool :=
  match a_c a with Some s => negb (is_empty s) && forallb (fun c => negb (c =? 32)%N) s | None => true end.
Lemma one_word_ok a : one_word_check a = true -> one_word a.
Proof.
  unfold one_word_check. intros H s E. rewrite E in H. apply andb_prop in H as [H1 H2]. split; [destruct s; discriminate|].
  rewrite forallb_forall in H2. intros X. apply H2 in X. discriminate.
Qed.
