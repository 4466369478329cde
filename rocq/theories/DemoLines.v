(** Texts used by the examples and refutations about the layout of lines. *)
From Coq Require Import String List NArith ZArith Bool Lia.
From Verif Require Import Base BaseFacts Decimal Dates Amount Balance Scanner History Pool Account Journal Xact Parser.
From Verif Require Import SpecText SpecReading SpecScan SpecDates SpecWhole SpecLines SpecOutline ReadingFacts WholeProofs LinesProofs OutlineProofs DemoReading.
From Verif Require ModelTests.
Import ListNotations.
Open Scope list_scope.
Open Scope nat_scope.

Definition no_price_check (l : str) : bool :=
  let x := first_word l in negb (hd 0%N x =? 105)%N || str_eqb x (lit "include") || str_eqb x (lit "import").
Lemma no_price_ok l : no_price_check l = true -> no_price l.
Proof.
  intros H w x r -> S W R Hx. unfold no_price_check, first_word in H. rewrite take_word_app in H by assumption. cbn [fst] in H. rewrite Hx in H. cbn [N.eqb Pos.eqb negb orb] in H.
  apply orb_prop in H as [H|H]; apply str_eqb_eq in H; auto.
Qed.
Definition convertible_check (t : str) : bool :=
  forallb (fun c => negb (c =? 13)%N) t && forallb (fun l => no_price_check (removelast l)) (filter (fun l => (last l 0 =? 10)%N) (split_lines t)).
Lemma convertible_ok t : convertible_check t = true -> convertible t.
Proof.
  intros H. apply andb_prop in H as [H1 H2]. rewrite forallb_forall in H1, H2. split; [intros I; discriminate (H1 _ I)|].
  intros a l b -> C N. apply no_price_ok. rewrite <- (removelast_last l 10%N). apply H2. apply filter_In. split; [|rewrite last_last; reflexivity].
  rewrite split_lines_app by exact C. apply in_or_app. right. rewrite app_assoc. rewrite split_lines_app by (right; exists l; reflexivity). apply in_or_app. left.
  unfold split_lines. rewrite split_lines_acc_line by exact N. left. reflexivity.
Qed.

(** A journal with an include, and the included file. *)
Definition lines_text : str := lit "; shopping
2023-05-01=2023-05-02 Shop  ; weekly
    Expenses:Food  3.20 EUR @@ 3.50 USD
    ; paid in cash
    Assets:Cash  -3.50 USD

include food.ledger
2023-05-03 Bank
    Assets:Bank  20 EUR
    Assets:Cash".
Definition lines_files (p : str) : option str := if str_eqb p inc_path then Some xact_text else None.
Definition lines_files_crlf (p : str) : option str := if str_eqb p inc_path then Some (crlf xact_text) else None.
Lemma lines_converted : files_converted lines_files lines_files_crlf.
Proof.
  intros p. unfold lines_files, lines_files_crlf. destruct (str_eqb p inc_path); [right|left; reflexivity]. exists xact_text. split; [reflexivity|]. split; [|reflexivity].
  apply convertible_ok. vm_compute. reflexivity.
Qed.

(** C70 fails for a line that is read as a price. *)
Definition i_line : str := lit "i 2023-01-01 EUR 1.2 USD" ++ nl.
Lemma crlf_refuted :
  ~ (forall depth cwd fs t j, ~ In 13%N t -> parse_text depth cwd fs (crlf t) j = parse_text depth cwd fs t j).
Proof.
  intros H. specialize (H 1 [] (fun _ => None) i_line journal_new).
  assert (N : ~ In 13%N i_line).
  { intros I. assert (K : forallb (fun c => negb (c =? 13)%N) i_line = true) by (vm_compute; reflexivity). rewrite forallb_forall in K. discriminate (K _ I). }
  specialize (H N). vm_compute in H. discriminate H.
Qed.

(** C71 fails after an account without amount, and after a date without payee. *)
Definition cash_line : str := lit "    Assets:Cash".
Lemma trailing_refuted :
  ~ (forall depth cwd fs t1 r w w' t2 j, complete_lines t1 -> one_line (r ++ w) -> one_line (r ++ w') -> tail w -> tail w' ->
       r <> [] -> no_price r -> parse_text depth cwd fs (t1 ++ (r ++ w) ++ t2) j = parse_text depth cwd fs (t1 ++ (r ++ w') ++ t2) j).
Proof.
  intros H. specialize (H 1 [] (fun _ => None) (lit "2023-05-03 Bank" ++ nl ++ lit "    Assets:Bank  20 EUR" ++ nl) cash_line nl (lit "  " ++ nl) [] journal_new).
  assert (N : forall s, forallb (fun c => negb (c =? 10)%N) s = true -> ~ In 10%N s).
  { intros s K I. rewrite forallb_forall in K. discriminate (K _ I). }
  specialize (H ltac:(right; exists (lit "2023-05-03 Bank" ++ nl ++ lit "    Assets:Bank  20 EUR"); reflexivity)).
  specialize (H ltac:(exists cash_line; split; [reflexivity|apply N; reflexivity])).
  specialize (H ltac:(exists (cash_line ++ lit "  "); split; [reflexivity|apply N; reflexivity])).
  specialize (H tail_nl). specialize (H ltac:(split; [discriminate|]; repeat (constructor; [unfold tail_char; auto|]); constructor)).
  specialize (H ltac:(discriminate) ltac:(apply no_price_ok; reflexivity)). vm_compute in H. discriminate H.
Qed.
Lemma header_trailing_refuted :
  ~ (forall depth cwd fs r w w' t2 j, one_line (r ++ w) -> one_line (r ++ w') -> tail w -> tail w' -> (exists d, denotes_date r d) ->
       parse_text depth cwd fs ((r ++ w) ++ t2) j = parse_text depth cwd fs ((r ++ w') ++ t2) j).
Proof.
  intros H. specialize (H 1 [] (fun _ => None) (lit "2023-05-03") nl (lit " " ++ nl) (lit "    Assets:Bank  20 EUR" ++ nl ++ lit "    Assets:Cash" ++ nl) journal_new).
  assert (N : forall s, forallb (fun c => negb (c =? 10)%N) s = true -> ~ In 10%N s).
  { intros s K I. rewrite forallb_forall in K. discriminate (K _ I). }
  specialize (H ltac:(exists (lit "2023-05-03"); split; [reflexivity|apply N; reflexivity])).
  specialize (H ltac:(exists (lit "2023-05-03 "); split; [reflexivity|apply N; reflexivity])).
  specialize (H tail_nl). specialize (H ltac:(split; [discriminate|]; repeat (constructor; [unfold tail_char; auto|]); constructor)).
  specialize (H ltac:(exists (mkDate 2023 5 3); apply DatesFacts.parse_date_iff; vm_compute; reflexivity)). vm_compute in H. discriminate H.
Qed.

(** C72 fails for a tab. *)
Lemma indent_refuted :
  ~ (forall depth cwd fs t1 w w' r t2 j, complete_lines t1 -> spaces w -> spaces w' -> w <> [] -> w' <> [] -> one_line (w ++ r) -> one_line (w' ++ r) ->
       parse_text depth cwd fs (t1 ++ (w ++ r) ++ t2) j = parse_text depth cwd fs (t1 ++ (w' ++ r) ++ t2) j).
Proof.
  intros H. specialize (H 1 [] (fun _ => None) (lit "2023-05-03 Bank" ++ nl ++ lit "    Assets:Bank  20 EUR" ++ nl) [32%N] [9%N] (lit "Assets:Cash" ++ nl) [] journal_new).
  assert (N : forall s, forallb (fun c => negb (c =? 10)%N) s = true -> ~ In 10%N s).
  { intros s K I. rewrite forallb_forall in K. discriminate (K _ I). }
  specialize (H ltac:(right; exists (lit "2023-05-03 Bank" ++ nl ++ lit "    Assets:Bank  20 EUR"); reflexivity) eq_refl eq_refl ltac:(discriminate) ltac:(discriminate)).
  specialize (H ltac:(exists (32%N :: lit "Assets:Cash"); split; [reflexivity|apply N; reflexivity])).
  specialize (H ltac:(exists (9%N :: lit "Assets:Cash"); split; [reflexivity|apply N; reflexivity])). vm_compute in H. discriminate H.
Qed.

Lemma posting_unindent r tok : posting_line (32%N :: r) tok -> posting_line r tok.
Proof.
  intros H. inversion H as [w0 a w1 S0 S1 A L C E|w0 a w1 t q s lot lq ls date d c cq cs unit w2 S0 S1 S2 A W Lp Ld Co N E]; subst.
  - destruct w0 as [|x w0].
    + exfalso. destruct A as [(y & z & -> & Y & _) _]. cbn in E. injection E as -> _. discriminate.
    + cbn in E. injection E as _ <-. unfold spaces in S0. cbn in S0. apply andb_prop in S0 as [_ S0]. constructor; assumption.
  - destruct w0 as [|x w0].
    + exfalso. destruct A as [(y & z & -> & Y & _) _]. cbn in E. injection E as -> _. discriminate.
    + cbn in E. injection E as _ <-. unfold spaces in S0. cbn in S0. apply andb_prop in S0 as [_ S0]. apply (pl_amount w0 a w1 t q s lot lq ls date d c cq cs unit w2); assumption.
Qed.
