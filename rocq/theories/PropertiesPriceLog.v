(** C77: the prices known after reading. *)
From Coq Require Import String List NArith ZArith Bool Lia.
From Verif Require Import Base Decimal Dates Amount Balance Scanner History Pool Account Journal Xact Parser.
From Verif Require Import SpecDecimal SpecDates SpecPool SpecText SpecReading SpecXact SpecJournal SpecFull SpecOutline SpecPriceLog.
From Verif Require Import OutlineProofs DemoPrices.
Import ListNotations.
Open Scope nat_scope.

(** ** C77: every price comes from a transaction or a price line of the source, and the last one for a moment counts *)
Theorem C77_prices :
  forall depth cwd fs src j j', reachable_journal j -> read_into_journal depth cwd fs src j = Ok j' ->
  exists its new rs, outline cwd fs None src its /\ j_xacts j' = j_xacts j ++ new
    /\ recorded its new rs /\ prices_after (j_pool j) rs (j_pool j').
Proof. exact read_prices. Qed.
Print Assumptions C77_prices.

(** The commodity of a price should be the one written last in its line; the line end becomes part of it. *)
Theorem C77_line_end_refuted :
  ~ (forall date s q t d v j, word date -> word s -> word q -> word t -> starts_digit s = false -> denotes_date date d -> d_from_str q = Some v -> s <> t ->
       parse_text 1 [] (fun _ => None) (lit "i " ++ date ++ sp ++ s ++ sp ++ q ++ sp ++ t ++ nl) journal_new = Ok j ->
       price_on (j_pool j) s t (mkDT d (mkTime 0 0 0)) v).
Proof.
  intros H. destruct (parse_text 1 [] (fun _ => None) (lit "i 2023-05-03 VTI 2.6 EUR" ++ nl) journal_new) as [j| |] eqn:E; [|vm_compute in E; discriminate|vm_compute in E; discriminate].
  specialize (H (lit "2023-05-03") (lit "VTI") (lit "2.6") (lit "EUR") (mkDate 2023 5 3) (mkDec false 26 1) j).
  assert (P : price_on (j_pool j) (lit "VTI") (lit "EUR") (mkDT (mkDate 2023 5 3) (mkTime 0 0 0)) (mkDec false 26 1)).
  { apply H; try (split; [discriminate|reflexivity]); try reflexivity; try discriminate; [|exact E].
    apply DatesFacts.parse_date_iff. vm_compute. reflexivity. }
  clear H. vm_compute in E. injection E as <-. destruct P as (a & b & _ & B & _). vm_compute in B. discriminate.
Qed.
Print Assumptions C77_line_end_refuted.

(** A transaction and two price lines; the first of them replaces the price of the transaction. *)
Definition log_text : str :=
  lit "2023-05-03 Broker" ++ nl ++ lit " Assets:Stock  2 VTI @@ 5 EUR" ++ nl ++ lit " Assets:Cash" ++ nl ++ nl
  ++ lit "i 2023-05-03 VTI 2.6 EUR " ++ nl ++ lit "i 2023-05-04 12:30:00 VTI 2.75 EUR " ++ nl.
Definition line1 : str := lit "i 2023-05-03 VTI 2.6 EUR " ++ nl.
Definition line2 : str := lit "i 2023-05-04 12:30:00 VTI 2.75 EUR " ++ nl.
Definition log_items : list item :=
  [Lines (lit "2023-05-03 Broker" ++ nl, [lit "Assets:Stock  2 VTI @@ 5 EUR" ++ nl; lit "Assets:Cash" ++ nl]); Price_line line1; Price_line line2].
Example C77_case :
  outline [] (fun _ => None) None (text_source log_text) log_items
  /\ price_said line1 (lit "VTI", lit "EUR", day 2023 5 3, mkDec false 26 1)
  /\ price_said line2 (lit "VTI", lit "EUR", mkDT (mkDate 2023 5 4) (mkTime 12 30 0), mkDec false 275 2)
  /\ exists j, read_into_journal 1 [] (fun _ => None) (text_source log_text) journal_new = Ok j
     /\ (exists x, j_xacts j = [x] /\ price_records (day 2023 5 3) (x_posts x) [(lit "VTI", lit "EUR", day 2023 5 3, mkDec false 25 1)])
     /\ price_on (j_pool j) (lit "VTI") (lit "EUR") (day 2023 5 3) (mkDec false 26 1)
     /\ ~ price_on (j_pool j) (lit "VTI") (lit "EUR") (day 2023 5 3) (mkDec false 25 1)
     /\ price_on (j_pool j) (lit "VTI") (lit "EUR") (mkDT (mkDate 2023 5 4) (mkTime 12 30 0)) (mkDec false 275 2).
Proof.
  assert (E : text_source log_text = [Some (50%N :: lit "023-05-03 Broker" ++ nl); Some (32%N :: lit "Assets:Stock  2 VTI @@ 5 EUR" ++ nl); Some (32%N :: lit "Assets:Cash" ++ nl); Some nl; Some line1; Some line2])
    by (vm_compute; reflexivity).
  assert (El : forall c x, is_ws c = false -> forallb (fun c => negb ((c =? 32) || (c =? 9))%N) (c :: x) = true -> element (c :: x)).
  { intros c x C F. split; [eauto|]. apply Forall_forall. intros d Hd. rewrite forallb_forall in F. apply F in Hd. apply negb_true_iff, orb_false_iff in Hd as [A B]. apply N.eqb_neq in A, B. auto. }
  assert (Gp : gap sp) by (split; [reflexivity|exists 32%N, []; auto]).
  assert (Nu : forall q v, d_from_str q = Some v -> number_said q v) by (intros q v; apply ArithProofs.read_exactly).
  split; [|split; [|split]].
  - rewrite E. apply (ol_header _ _ 50%N (lit "023-05-03 Broker" ++ nl)); [reflexivity|].
    apply (ol_posting _ _ _ [] _ 65%N); [exists [], (lit "ssets:Stock  2 VTI @@ 5 EUR" ++ nl); repeat split|discriminate|].
    apply (ol_posting _ _ _ _ _ 65%N); [exists [], (lit "ssets:Cash" ++ nl); repeat split|discriminate|].
    apply ol_return; [right; reflexivity|].
    assert (P : forall r, read_as_price (105%N :: 32%N :: r)).
    { intros r. exists [], (lit "i"), (32%N :: r). split; [reflexivity|]. split; [reflexivity|]. split; [split; [discriminate|reflexivity]|]. split; [right; exists 32%N, r; auto|]. split; [reflexivity|]. split; discriminate. }
    apply ol_price; [apply P|]. apply ol_price; [apply P|]. constructor.
  - exists 105%N, sp, (lit "2023-05-03"), sp, [], (lit "VTI"), sp, (lit "2.6"), sp, (lit "EUR"), (sp ++ nl), (mkDate 2023 5 3), (mkTime 0 0 0), (mkDec false 26 1).
    split; [reflexivity|]. split; [reflexivity|]. split; [reflexivity|]. do 3 (split; [exact Gp|]). do 4 (split; [apply El; reflexivity|]). split; [right; exists 32%N, nl; auto|].
    split; [apply DatesFacts.parse_date_iff; vm_compute; reflexivity|]. split; [left; auto|]. split; [apply Nu; vm_compute; reflexivity|]. split; [discriminate|reflexivity].
  - exists 105%N, sp, (lit "2023-05-04"), sp, (lit "12:30:00" ++ sp), (lit "VTI"), sp, (lit "2.75"), sp, (lit "EUR"), (sp ++ nl), (mkDate 2023 5 4), (mkTime 12 30 0), (mkDec false 275 2).
    split; [reflexivity|]. split; [reflexivity|]. split; [reflexivity|]. do 3 (split; [exact Gp|]). do 4 (split; [apply El; reflexivity|]). split; [right; exists 32%N, nl; auto|].
    split; [apply DatesFacts.parse_date_iff; vm_compute; reflexivity|]. split; [right; exists (lit "12:30:00"), sp; split; [reflexivity|]; split; [apply El; reflexivity|]; split; [reflexivity|]; split; [exact Gp|]; apply DatesFacts.parse_time_iff; vm_compute; reflexivity|].
    split; [apply Nu; vm_compute; reflexivity|]. split; [discriminate|reflexivity].
  - destruct (read_into_journal 1 [] (fun _ => None) (text_source log_text) journal_new) as [j| |] eqn:Ej; [|vm_compute in Ej; discriminate|vm_compute in Ej; discriminate].
    exists j. split; [reflexivity|]. vm_compute in Ej. injection Ej as <-. split; [|split; [|split]].
    + eexists. split; [reflexivity|]. eapply pr_priced; try reflexivity.
      * split; [intros [X|X]; [discriminate X|vm_compute in X; discriminate X]|]. intros _ _. exists (mkDec false 25 1). split; [|vm_compute; reflexivity].
        split; [vm_compute; discriminate|]. split; [split; [split; [vm_compute; discriminate|vm_compute; reflexivity]|cbn [d_s]; lia]|]. left. vm_compute. reflexivity.
      * discriminate.
      * split; [split; [vm_compute; discriminate|vm_compute; reflexivity]|cbn [d_s]; lia].
      * apply pr_plain; [reflexivity|constructor].
    + do 2 eexists. split; [vm_compute; reflexivity|]. split; [vm_compute; reflexivity|]. vm_compute. tauto.
    + intros (a & b & A & B & P). vm_compute in A, B. injection A as <-. injection B as <-. vm_compute in P. repeat (destruct P as [P|P]; [discriminate|]). exact P.
    + do 2 eexists. split; [vm_compute; reflexivity|]. split; [vm_compute; reflexivity|]. vm_compute. tauto.
Qed.
