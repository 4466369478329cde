(** Files with prices that can be read in either order, and some that cannot. *)
From Coq Require Import String List NArith ZArith Bool Lia.
From Verif Require Import Base Decimal Dates Amount Balance Scanner History Pool Account Journal Xact Parser Lib.
From Verif Require Import SpecDecimal SpecAmount SpecDates SpecText SpecPool SpecJournal SpecTogether SpecQuote.
From Verif Require Import BaseFacts PoolFacts PriceFacts PriceProofs JournalFacts TogetherProofs QuoteProofs DemoPrices.
Import ListNotations.
Open Scope list_scope.
Open Scope nat_scope.

Definition quote_files : filesystem := fun p =>
  if str_eqb p (lit "/w/q1") then Some (text_source (lit "2024-01-01 x
  A  1 EUR @ 1.1 USD
  B
"))
  else if str_eqb p (lit "/w/q2") then Some (text_source (lit "2024-01-02 x
  A  1 USD @ 1.5 AUD
  B
"))
  else if str_eqb p (lit "/w/q3") then Some (text_source (lit "2024-01-03 x
  A  1 EUR @ 0.9 BAM
  B

2024-01-03 x
  A  1 BAM @ 2 AUD
  B
"))
  else if str_eqb p (lit "/w/q4") then Some (text_source (lit "2024-01-01 x
  A  1 EUR @ 1.2 USD
  B
"))
  else None.
Definition q1 : list str := [lit "/w/q1"].
Definition q2 : list str := [lit "/w/q2"].
Definition q3 : list str := [lit "/w/q3"].
Definition q4 : list str := [lit "/w/q4"].
Definition quote_read (files : list str) : outcome journal := read_journal_files 2 (lit "/w") quote_files files.
Definition quoted (files : list str) : journal := match quote_read files with Ok j => j | _ => journal_new end.
Definition look (files : list str) := pool_find_price bfs (j_pool (quoted files)) (Some sEUR) (Some sAUD) (day 2025 1 1) (day 2025 1 1) (day 2000 1 1).

Lemma quoted_ok files j : quote_read files = Ok j -> reachable_pool (j_pool j).
Proof. intros H. assert (R : reachable_journal j) by (revert H; apply files_reachable, rj_new). apply reachable_inv in R. apply R. Qed.
Lemma disjoint_agree p1 p2 : wf_pool p1 -> wf_pool p2 ->
  forallb (fun e => negb (existsb (fun e' => str_eqb (fst e) (fst e') && str_eqb (snd e) (snd e')) (pairs p2))) (pairs p1) = true -> prices_agree p1 p2.
Proof.
  intros W1 W2 H s t w v1 v2 P1 P2. exfalso. rewrite forallb_forall in H.
  specialize (H _ (priced_pair p1 s t W1 (ex_intro _ w (ex_intro _ v1 P1)))). apply negb_true_iff in H.
  assert (X : existsb (fun e' => str_eqb (fst (s, t)) (fst e') && str_eqb (snd (s, t)) (snd e')) (pairs p2) = true).
  { apply existsb_exists. exists (s, t). split; [apply priced_pair; [exact W2|exists w, v2; exact P2]|]. cbn [fst snd].
    apply andb_true_iff. split; apply str_eqb_eq; reflexivity. }
  rewrite X in H. discriminate H.
Qed.
Lemma q_wf files : quote_read files = Ok (quoted files) -> wf_pool (j_pool (quoted files)).
Proof. intros H. apply reachable_wf. eapply quoted_ok, H. Qed.
Lemma demo_agree : prices_agree (j_pool (quoted q1)) (j_pool (quoted q2)).
Proof. apply disjoint_agree; [apply q_wf; vm_compute; reflexivity|apply q_wf; vm_compute; reflexivity|vm_compute; reflexivity]. Qed.
Lemma demo_one_way : one_way (j_pool (quoted (q1 ++ q2))) sEUR sAUD.
Proof.
  pose (p := j_pool (quoted (q1 ++ q2))). fold p.
  assert (W : wf_pool p) by (apply q_wf; vm_compute; reflexivity).
  assert (E : pairs p = [(sEUR, sUSD); (sUSD, sAUD)]) by (vm_compute; reflexivity).
  assert (I : forall s t, priced p s t -> s = sEUR /\ t = sUSD \/ s = sUSD /\ t = sAUD).
  { intros s t H. apply (priced_pair p s t W) in H. rewrite E in H. destruct H as [H|[H|[]]]; injection H as <- <-; auto. }
  assert (N1 : sEUR <> sUSD) by (vm_compute; discriminate). assert (N2 : sEUR <> sAUD) by (vm_compute; discriminate).
  assert (N3 : sUSD <> sAUD) by (vm_compute; discriminate).
  assert (H : forall x, price_chain p sEUR x sAUD -> x = [sUSD; sAUD]).
  { intros x H. destruct x as [|u x]; [exfalso; exact (N2 H)|]. destruct H as [H C]. destruct (I _ _ H) as [[_ ->]|[A _]]; [|exfalso; exact (N1 A)].
    destruct x as [|u x]; [exfalso; exact (N3 C)|]. destruct C as [H' C]. destruct (I _ _ H') as [[A _]|[_ ->]]; [exfalso; apply N1; symmetry; exact A|].
    destruct x as [|u x]; [reflexivity|]. destruct C as [H2 _]. exfalso. destruct (I _ _ H2) as [[A _]|[A _]]; [apply N2; symmetry; exact A|apply N3; symmetry; exact A]. }
  intros x y [Hx _] [Hy _]. rewrite (H x Hx), (H y Hy). reflexivity.
Qed.
Lemma demo_ties : let a := q1 ++ q2 in reachable_pool (j_pool (quoted (a ++ q3))) /\ reachable_pool (j_pool (quoted (q3 ++ a)))
  /\ same_quotes (j_pool (quoted (a ++ q3))) (j_pool (quoted (q3 ++ a))).
Proof.
  apply (files_quotes 2 (lit "/w") quote_files (q1 ++ q2) q3 (quoted (q1 ++ q2)) (quoted q3)); try (vm_compute; reflexivity).
  apply disjoint_agree; [apply q_wf; vm_compute; reflexivity|apply q_wf; vm_compute; reflexivity|vm_compute; reflexivity].
Qed.

Definition quote_records : list record :=
  [(sEUR, sUSD, day 2023 2 1, dq 109 2); (sUSD, sAUD, day 2023 1 1, dq 15 1); (sEUR, sUSD, day 2023 1 1, dq 108 2); (sEUR, sUSD, day 2023 3 1, dq 12 1)].
Definition quote_pool : pool := match record_all demo_empty quote_records with Ok p => p | _ => pool_new end.
Lemma quote_records_valid : valid_records quote_records.
Proof.
  pose proof demo_records_valid as V. unfold valid_records in *. rewrite Forall_forall in *. intros r I. apply V.
  unfold quote_records, demo_records in *. cbn [In] in *. tauto.
Qed.
Lemma quote_records_agree : records_agree quote_records.
Proof.
  intros s t w v1 v2 A B. unfold quote_records in *. cbn [In] in *.
  destruct A as [A|[A|[A|[A|[]]]]]; destruct B as [B|[B|[B|[B|[]]]]];
  pose proof (eq_trans (f_equal fst A) (eq_sym (f_equal fst B))) as C; cbn [fst] in C;
  try (exfalso; revert C; vm_compute; discriminate);
  apply (f_equal snd) in A; apply (f_equal snd) in B; cbn [snd] in A, B; congruence.
Qed.
