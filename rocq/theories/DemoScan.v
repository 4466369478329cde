(** Lines used by the examples and refutations about the syntax of postings. *)
From Coq Require Import String List NArith ZArith Bool Lia.
From Verif Require Import Base Decimal Dates Amount Balance Scanner History Pool Account Journal Xact Parser.
From Verif Require Import SpecDecimal SpecAmount SpecDates SpecPool SpecJournal SpecText SpecReading SpecScan.
From Verif Require Import ScanFacts ScanProofs DemoJournal.
From Verif Require DatesFacts.
Import ListNotations.
Open Scope list_scope.
Open Scope nat_scope.

Definition check_account (a : str) : bool :=
  match a with c :: _ => negb (is_ws c) && negb (c =? 59)%N | [] => false end
  && match find_sub (lit "  ") (a ++ sp) with None => true | Some _ => false end.
Lemma check_account_ok a : check_account a = true -> account_text a.
Proof.
  unfold check_account. intros H. apply andb_prop in H as [H1 H2]. split.
  - destruct a as [|c r]; [discriminate|]. apply andb_prop in H1 as [A B]. exists c, r. split; [reflexivity|].
    apply negb_true_iff in A, B. split; [exact A|]. apply N.eqb_neq, B.
  - apply find_sub_not. destruct (find_sub _ _); [discriminate|reflexivity].
Qed.
Definition cash : str := lit "Assets:Cash".
Lemma cash_account : account_text cash.
Proof. apply check_account_ok. reflexivity. Qed.
Lemma quantity_check q : negb (is_empty q) && forallb (fun c => is_digit c || one_of "-.," c) q = true -> quantity_text q.
Proof. intros H. apply andb_prop in H as [H1 H2]. split; [destruct q; [discriminate|discriminate]|exact H2]. Qed.
Lemma symbol_check s : negb (is_empty s) && forallb (fun c => negb (is_ws c || is_digit c || one_of "@-" c)) s = true -> symbol_text s.
Proof. intros H. apply andb_prop in H as [H1 H2]. split; [destruct s; [discriminate|discriminate]|exact H2]. Qed.
Lemma starts_check chars s : match s with c :: _ => one_of chars c | [] => false end = false -> ~ starts_with_one_of chars s.
Proof. intros H (c & r & -> & X). congruence. Qed.
Lemma space_one : space sp. Proof. split; [discriminate|reflexivity]. Qed.

Lemma after_eur q : negb (is_empty q) && forallb (fun c => is_digit c || one_of "-.," c) q = true ->
  written_amount (q ++ sp ++ lit "EUR") q (lit "EUR").
Proof. intros H. apply wa_after; [apply quantity_check, H|reflexivity|apply symbol_check; reflexivity|discriminate]. Qed.
Lemma after_vti q : negb (is_empty q) && forallb (fun c => is_digit c || one_of "-.," c) q = true ->
  written_amount (q ++ sp ++ lit "VTI") q (lit "VTI").
Proof. intros H. apply wa_after; [apply quantity_check, H|reflexivity|apply symbol_check; reflexivity|discriminate]. Qed.
Lemma before_usd q : negb (is_empty q) && forallb (fun c => is_digit c || one_of "-.," c) q = true ->
  match q with c :: _ => one_of ".," c | [] => false end = false -> written_amount (lit "$" ++ [] ++ q) q (lit "$").
Proof. intros H S. apply wa_before; [apply quantity_check, H|reflexivity|apply symbol_check; reflexivity|apply starts_check; reflexivity|intros _; apply starts_check, S]. Qed.

(** A line with everything in it. *)
Definition full_line : str := lit "    Assets:Stocks  -10 VTI {12.34 EUR} [2023-04-05] @ $25
".
Definition full_tokens : post_tokens :=
  mkPT (lit "Assets:Stocks") (lit "-10") (lit "VTI") (lit "12.34") (lit "EUR") (lit "2023-04-05") (lit "25") (lit "$") true.
Lemma full_posting : posting_line full_line full_tokens.
Proof.
  apply (pl_amount (lit "    ") (lit "Assets:Stocks") [] (lit "-10" ++ sp ++ lit "VTI") (lit "-10") (lit "VTI")
           (sp ++ lit "{" ++ [] ++ (lit "12.34" ++ sp ++ lit "EUR") ++ [] ++ lit "}") (lit "12.34") (lit "EUR")
           (sp ++ lit "[" ++ lit "2023-04-05" ++ lit "]") (lit "2023-04-05")
           (sp ++ lit "@ " ++ [] ++ (lit "$" ++ [] ++ lit "25")) (lit "25") (lit "$") true nl); try reflexivity.
  - apply check_account_ok. reflexivity.
  - apply after_vti. reflexivity.
  - apply lp_some; try reflexivity; [apply space_one|apply after_eur; reflexivity|].
    intros H. repeat (destruct H as [H|H]; [discriminate|]). destruct H.
  - apply ld_some; [apply space_one|discriminate|reflexivity].
  - apply c_unit; [apply space_one|reflexivity|apply before_usd; reflexivity].
  - discriminate.
Qed.
Lemma denotes_check sign neg whole pt frac u :
  (sign = [] /\ neg = false \/ sign = [minus_c] /\ neg = true) ->
  forallb is_digit whole && forallb is_digit frac && negb (is_empty (whole ++ frac)) && (length frac <=? 28) && (number (whole ++ frac) <? 2 ^ 96)%Z = true ->
  (pt = [] /\ frac = [] \/ pt = [point_c]) ->
  ((if neg then - number (whole ++ frac) else number (whole ++ frac)) * 10 ^ Z.of_nat (28 - length frac) = u)%Z ->
  denotes (sign ++ whole ++ pt ++ frac) u (length frac).
Proof.
  intros Sg H P <-. rewrite !andb_true_iff in H. destruct H as [[[[A B] C] D] E].
  exists sign, neg, whole, pt, frac. repeat split; auto; try (apply Nat.leb_le; assumption); try (apply Z.ltb_lt; assumption).
  intros X. rewrite X in C. discriminate.
Qed.
Lemma denotes_m10 : denotes (lit "-10") (-10 * unit1) 0.
Proof. apply (denotes_check [minus_c] true (lit "10") [] []); auto. Qed.
Lemma denotes_25 : denotes (lit "25") (25 * unit1) 0.
Proof. apply (denotes_check [] false (lit "25") [] []); auto. Qed.
Lemma denotes_1234 : denotes (lit "12.34") (1234 * (unit1 / 100)) 2.
Proof. apply (denotes_check [] false (lit "12") [point_c] (lit "34")); auto. Qed.
Lemma denotes_half : denotes (lit ".50") (50 * (unit1 / 100)) 2.
Proof. apply (denotes_check [] false [] [point_c] (lit "50")); auto. Qed.

Definition j3 : journal := from_ok journal_new (parse_post j1 1 full_line).
Lemma j3_ok : parse_post j1 1 full_line = Ok j3.
Proof. vm_compute. reflexivity. Qed.

(** A header. *)
Definition demo_header : str := lit "2023-04-05=2023-04-06  The; Shop  ;  a note
".
Lemma trimmed_check s : match s with c :: _ => negb (is_ws c) | [] => false end && match rev s with c :: _ => negb (is_ws c) | [] => false end = true -> trimmed s.
Proof.
  intros H. apply andb_prop in H as [A B]. destruct s as [|c r]; [discriminate|]. destruct (rev (c :: r)) as [|e q] eqn:E; [discriminate|].
  exists c, r, e, (rev q). split; [reflexivity|]. split; [rewrite <- (rev_involutive (c :: r)), E; reflexivity|].
  split; apply negb_true_iff; assumption.
Qed.
Lemma demo_header_line : header_line demo_header (lit "2023-04-05") (lit "2023-04-06") (lit "The; Shop") (lit "a note").
Proof.
  apply (hl_payee (lit "2023-04-05") (lit "=" ++ lit "2023-04-06") (lit "2023-04-06") sp (lit "The; Shop") (lit "  ;" ++ (sp ++ sp) ++ lit "a note" ++ nl) (lit "a note")).
  - split; [discriminate|reflexivity].
  - apply ax_some. split; [discriminate|reflexivity].
  - reflexivity.
  - apply trimmed_check. reflexivity.
  - apply he_note; [reflexivity|reflexivity|apply trimmed_check; reflexivity].
  - apply find_sub_not. reflexivity.
  - discriminate.
Qed.
Lemma date_check y m n : forallb is_digit (y ++ m ++ n) = true -> length y = 4 -> length m = 2 -> length n = 2 ->
  from_ymd (number y) (number m) (number n) = Some (mkDate (number y) (number m) (number n)) ->
  date_written (y ++ lit "-" ++ m ++ lit "-" ++ n) (mkDate (number y) (number m) (number n)).
Proof. intros F A B C V. exists y, m, n. repeat (split; [solve [auto]|]). apply DatesFacts.from_ymd_spec in V. apply V. Qed.
Lemma date_0405 : date_written (lit "2023-04-05") (mkDate 2023 4 5).
Proof. apply (date_check (lit "2023") (lit "04") (lit "05")); reflexivity. Qed.
Lemma date_0406 : date_written (lit "2023-04-06") (mkDate 2023 4 6).
Proof. apply (date_check (lit "2023") (lit "04") (lit "06")); reflexivity. Qed.

(** ** Refutations *)
(** C23: after a bare quantity, the lot is read as the symbol. *)
Lemma bare_lot_refuted :
  ~ (forall a t q s lot lq ls date d,
       account_text a -> written_amount t q s -> lot_price lot lq ls -> lot_date date d ->
       scan_post (a ++ lit "  " ++ t ++ lot ++ date) = Ok (mkPT a q s lq ls d [] [] false)).
Proof.
  intros H.
  assert (W : written_amount (lit "10") (lit "10") []) by (apply wa_bare, quantity_check; reflexivity).
  assert (L : lot_price (sp ++ lit "{" ++ [] ++ (lit "5" ++ sp ++ lit "EUR") ++ [] ++ lit "}") (lit "5") (lit "EUR")).
  { apply lp_some; try reflexivity; [apply space_one|apply after_eur; reflexivity|].
    intros X. repeat (destruct X as [X|X]; [discriminate|]). destruct X. }
  specialize (H cash _ _ _ _ _ _ [] [] cash_account W L ld_none). vm_compute in H. discriminate H.
Qed.
(** C25 *)
Definition glued : str := lit "Assets:Cash  10 VTI @25 EUR".
Lemma glued_cost_refuted :
  ~ (forall a t q s t' q' s',
       account_text a -> written_amount t q s -> s <> [] -> written_amount t' q' s' ->
       scan_post (a ++ lit "  " ++ t ++ lit " @" ++ t') = scan_post (a ++ lit "  " ++ t ++ lit " @ " ++ t')).
Proof.
  intros H. specialize (H cash _ _ _ _ _ _ cash_account (after_vti (lit "10") eq_refl) ltac:(discriminate) (after_eur (lit "25") eq_refl)).
  vm_compute in H. discriminate H.
Qed.
(** C26 *)
Definition thousand : str := cash ++ lit "  " ++ [] ++ (lit "1,000" ++ sp ++ lit "EUR") ++ [] ++ [] ++ [] ++ [].
Definition thousand_tokens : post_tokens := mkPT cash (lit "1,000") (lit "EUR") [] [] [] [] [] false.
Lemma thousand_posting : posting_line thousand thousand_tokens.
Proof.
  apply (pl_amount [] cash [] (lit "1,000" ++ sp ++ lit "EUR") (lit "1,000") (lit "EUR") [] [] [] [] [] [] [] [] false []); try reflexivity; try exact cash_account; try exact lp_none; try exact ld_none; try exact c_none; try discriminate.
  - apply after_eur. reflexivity.
Qed.
(** The amount of the last posting of the second transaction. *)
Definition last_amount (j : journal) : option amount :=
  match nth_error (j_xacts j) 1 with Some x => match rev (x_posts x) with p :: _ => po_amount p | [] => None end | None => None end.
Lemma adds_last j p j' : adds_posting j 1 p j' -> last_amount j' = po_amount p.
Proof. intros [(x & _ & E) _]. unfold last_amount. rewrite E. cbn [x_posts]. rewrite rev_app_distr. reflexivity. Qed.
Definition after (l : str) : journal := from_ok journal_new (parse_post j1 1 l).
Lemma after_thousand : parse_post j1 1 thousand = Ok (after thousand) /\ last_amount (after thousand) = None.
Proof. split; vm_compute; reflexivity. Qed.
Lemma ignored_refuted :
  ~ (forall j xi l tok j', reachable_journal j ->
       posting_line l tok -> t_quantity tok <> [] -> parse_post j xi l = Ok j' ->
       exists p a, adds_posting j xi p j' /\ po_amount p = Some a).
Proof.
  intros H. destruct (H j1 1 thousand thousand_tokens (after thousand) j1_reachable thousand_posting ltac:(discriminate) (proj1 after_thousand)) as (p & a & A & E).
  pose proof (adds_last _ _ _ A) as K. rewrite (proj2 after_thousand) in K. congruence.
Qed.
Definition half_dollar : str := cash ++ lit "  " ++ lit "$" ++ lit ".50".
Lemma after_half : parse_post j1 1 half_dollar = Ok (after half_dollar)
  /\ last_amount (after half_dollar) = Some (mkAmt (mkDec false 50 0) (Some (lit "$."))).
Proof. split; vm_compute; reflexivity. Qed.
Lemma other_number_refuted :
  ~ (forall j xi a s q u k j', reachable_journal j ->
       account_text a -> symbol_text s -> denotes q u k -> parse_post j xi (a ++ lit "  " ++ s ++ q) = Ok j' ->
       exists p am, adds_posting j xi p j' /\ po_amount p = Some am /\ aunits am = u).
Proof.
  intros H. destruct (H j1 1 cash (lit "$") (lit ".50") _ 2 (after half_dollar) j1_reachable cash_account
                        ltac:(apply symbol_check; reflexivity) denotes_half (proj1 after_half)) as (p & am & A & E & U).
  pose proof (adds_last _ _ _ A) as K. rewrite (proj2 after_half) in K. rewrite E in K. injection K as <-. vm_compute in U. discriminate U.
Qed.
Definition tabbed : str := cash ++ [9%N] ++ lit "10" ++ sp ++ lit "EUR".
Lemma after_tabbed : parse_post j1 1 tabbed = Ok (after tabbed) /\ last_amount (after tabbed) = None.
Proof. split; vm_compute; reflexivity. Qed.
Lemma tab_refuted :
  ~ (forall j xi a t q s j', reachable_journal j ->
       account_text a -> written_amount t q s -> parse_post j xi (a ++ [9%N] ++ t) = Ok j' ->
       exists p am, adds_posting j xi p j' /\ po_amount p = Some am).
Proof.
  intros H. destruct (H j1 1 cash _ _ _ (after tabbed) j1_reachable cash_account (after_eur (lit "10") eq_refl) (proj1 after_tabbed)) as (p & a & A & E).
  pose proof (adds_last _ _ _ A) as K. rewrite (proj2 after_tabbed) in K. congruence.
Qed.
(** C48 *)
Definition lot_line : str := [] ++ cash ++ lit "  " ++ [] ++ (lit "7" ++ sp ++ lit "EUR") ++ (sp ++ lit "{" ++ [] ++ (lit "2" ++ sp ++ lit "VTI") ++ [] ++ lit "}") ++ [] ++ [] ++ [].
Definition lot_tokens : post_tokens := mkPT cash (lit "7") (lit "EUR") (lit "2") (lit "VTI") [] [] [] false.
Lemma lot_posting : posting_line lot_line lot_tokens.
Proof.
  apply (pl_amount [] cash [] (lit "7" ++ sp ++ lit "EUR") (lit "7") (lit "EUR") (sp ++ lit "{" ++ [] ++ (lit "2" ++ sp ++ lit "VTI") ++ [] ++ lit "}") (lit "2") (lit "VTI") [] [] [] [] [] false []); try reflexivity; try exact cash_account; try exact lp_none; try exact ld_none; try exact c_none; try discriminate.
  - apply after_eur. reflexivity.
  - apply lp_some; try reflexivity; [apply space_one|apply after_vti; reflexivity|].
    intros X. repeat (destruct X as [X|X]; [discriminate|]). destruct X.
Qed.
Lemma after_lot : parse_post j1 1 lot_line = Ok (after lot_line)
  /\ lookup (lit "EUR") (p_ann (j_pool (after lot_line))) = Some (mkAnn None None).
Proof. split; vm_compute; reflexivity. Qed.
Lemma lot_refuted :
  ~ (forall j xi l a q s lq ls d cq cs unit j' u k, reachable_journal j ->
       posting_line l (mkPT a q s lq ls d cq cs unit) -> s <> [] -> denotes lq u k -> parse_post j xi l = Ok j' ->
       exists an pr, lookup s (p_ann (j_pool j')) = Some an /\ an_price an = Some pr /\ amount_is pr u k ls).
Proof.
  intros H. assert (D : denotes (lit "2") (2 * unit1) 0) by (apply (denotes_check [] false (lit "2") [] []); auto).
  destruct (H j1 1 lot_line cash (lit "7") (lit "EUR") (lit "2") (lit "VTI") [] [] [] false (after lot_line) _ _ j1_reachable lot_posting
              ltac:(discriminate) D (proj1 after_lot)) as (an & pr & E & P & _).
  rewrite (proj2 after_lot) in E. injection E as <-. discriminate P.
Qed.
