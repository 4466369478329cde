(** C70-C73, C75: the layout of lines, and which lines make up the journal. *)
From Coq Require Import String List NArith ZArith Bool Lia.
From Verif Require Import Base Decimal Dates Amount Balance Scanner History Pool Account Journal Xact Parser.
From Verif Require Import SpecDecimal SpecText SpecReading SpecScan SpecDates SpecAccount SpecJournal SpecWhole SpecLines SpecOutline SpecPriceLog.
From Verif Require Import ReadingFacts LinesProofs OutlineProofs DemoReading DemoScan DemoWhole DemoFull DemoLines.
Import ListNotations.
Open Scope list_scope.
Open Scope nat_scope.

(** ** C70: line ends *)
(** Proved, with the files included, for all texts without lines that are read as prices.  Missing: those
    lines, see [C70_price_line_refuted]. *)
Theorem C70_windows_line_ends_partial :
  forall depth cwd files files' t j, files_converted files files' -> convertible t ->
  parse_text depth cwd (fun p => option_map text_source (files' p)) (crlf t) j
  = parse_text depth cwd (fun p => option_map text_source (files p)) t j.
Proof. exact crlf_read. Qed.
Print Assumptions C70_windows_line_ends_partial.
Theorem C70_price_line_refuted :
  ~ (forall depth cwd fs t j, ~ In 13%N t -> parse_text depth cwd fs (crlf t) j = parse_text depth cwd fs t j).
Proof. exact crlf_refuted. Qed.
Print Assumptions C70_price_line_refuted.
Example C70_case :
  files_converted lines_files lines_files_crlf /\ convertible lines_text /\ crlf lines_text <> lines_text
  /\ exists j, parse_text 2 (lit "/w") (fun p => option_map text_source (lines_files_crlf p)) (crlf lines_text) journal_new = Ok j
     /\ map (fun x => length (x_posts x)) (j_xacts j) = [2; 2; 2].
Proof.
  split; [exact lines_converted|]. split; [apply convertible_ok; vm_compute; reflexivity|]. split; [intros E; apply (f_equal (@length N)) in E; vm_compute in E; discriminate|].
  eexists. split; [vm_compute; reflexivity|]. reflexivity.
Qed.

(** ** C71: white space at the end of a line *)
(** Proved for tabs and carriage returns, and for spaces where nothing can be taken for a separator.
    Missing: spaces after an account without amount and after a date without payee, which are refuted. *)
Theorem C71_trailing_space_partial :
  forall depth cwd fs t1 c r w w' t2 j, complete_lines t1 -> one_line ((c :: r) ++ w) -> one_line ((c :: r) ++ w') ->
  tail w -> tail w' -> c <> 13%N -> no_price (c :: r) -> (~ In 32%N w /\ ~ In 32%N w') \/ settled (c :: r) ->
  parse_text depth cwd fs (t1 ++ ((c :: r) ++ w) ++ t2) j = parse_text depth cwd fs (t1 ++ ((c :: r) ++ w') ++ t2) j.
Proof. exact trailing_read. Qed.
Print Assumptions C71_trailing_space_partial.
Theorem C71_after_account_refuted :
  ~ (forall depth cwd fs t1 r w w' t2 j, complete_lines t1 -> one_line (r ++ w) -> one_line (r ++ w') -> tail w -> tail w' ->
       r <> [] -> no_price r -> parse_text depth cwd fs (t1 ++ (r ++ w) ++ t2) j = parse_text depth cwd fs (t1 ++ (r ++ w') ++ t2) j).
Proof. exact trailing_refuted. Qed.
Print Assumptions C71_after_account_refuted.
Theorem C71_after_date_refuted :
  ~ (forall depth cwd fs r w w' t2 j, one_line (r ++ w) -> one_line (r ++ w') -> tail w -> tail w' -> (exists d, denotes_date r d) ->
       parse_text depth cwd fs ((r ++ w) ++ t2) j = parse_text depth cwd fs ((r ++ w') ++ t2) j).
Proof. exact header_trailing_refuted. Qed.
Print Assumptions C71_after_date_refuted.
Example C71_case :
  settled (lit "    Assets:Bank  20 EUR") /\ settled (lit "2023-05-03 Bank") /\ settled (lit "    ; a note") /\ settled (lit "; a comment")
  /\ tail (lit "   " ++ nl) /\ tail nl
  /\ exists j, parse_text 1 [] (fun _ => None) (lit "2023-05-03 Bank  " ++ nl ++ lit "  Assets:Bank  20 EUR   " ++ nl ++ lit "  Assets:Cash" ++ nl) journal_new = Ok j
     /\ parse_text 1 [] (fun _ => None) (lit "2023-05-03 Bank" ++ nl ++ lit "  Assets:Bank  20 EUR" ++ nl ++ lit "  Assets:Cash" ++ nl) journal_new = Ok j.
Proof.
  split; [apply (st_posting (lit "   ") (lit "Assets:Bank") (lit "20 EUR")); [reflexivity|constructor; reflexivity]|].
  split; [apply (st_header 50%N); [reflexivity|vm_compute; auto 20]|]. split; [apply (st_note (lit "   ")); reflexivity|].
  split; [apply (st_other 59%N); [reflexivity|discriminate]|].
  split; [split; [discriminate|]; repeat (constructor; [unfold tail_char; auto|]); constructor|]. split; [apply tail_nl|].
  eexists. split; vm_compute; reflexivity.
Qed.

(** ** C72: indentation *)
(** Proved for indentation that starts with a space.  Missing: indentation by a tab, which is refuted. *)
Theorem C72_indentation_partial :
  forall depth cwd fs t1 w r t2 j, complete_lines t1 -> spaces w -> one_line (32%N :: w ++ r) -> one_line (32%N :: r) ->
  parse_text depth cwd fs (t1 ++ (32%N :: w ++ r) ++ t2) j = parse_text depth cwd fs (t1 ++ (32%N :: r) ++ t2) j.
Proof. exact indent_read. Qed.
Print Assumptions C72_indentation_partial.
Theorem C72_tab_refuted :
  ~ (forall depth cwd fs t1 w w' r t2 j, complete_lines t1 -> spaces w -> spaces w' -> w <> [] -> w' <> [] -> one_line (w ++ r) -> one_line (w' ++ r) ->
       parse_text depth cwd fs (t1 ++ (w ++ r) ++ t2) j = parse_text depth cwd fs (t1 ++ (w' ++ r) ++ t2) j).
Proof. exact indent_refuted. Qed.
Print Assumptions C72_tab_refuted.
Example C72_case :
  spaces [32%N; 9%N; 32%N]
  /\ exists j, parse_text 1 [] (fun _ => None) (lit "2023-05-03 Bank" ++ nl ++ 32%N :: [32%N; 9%N; 32%N] ++ lit "Assets:Bank  20 EUR" ++ nl ++ lit " Assets:Cash" ++ nl) journal_new = Ok j
     /\ parse_text 1 [] (fun _ => None) (lit "2023-05-03 Bank" ++ nl ++ 32%N :: lit "Assets:Bank  20 EUR" ++ nl ++ lit " Assets:Cash" ++ nl) journal_new = Ok j.
Proof. split; [reflexivity|]. eexists. split; vm_compute; reflexivity. Qed.

(** The white space that these properties speak of. *)
Theorem C72_white_space : forall c, is_ws c = true <-> In c white_space.
Proof. exact white_space_is. Qed.
Print Assumptions C72_white_space.

(** ** C73: the lines of the source and the transactions of the journal *)
Theorem C73_every_line_counts :
  forall depth cwd fs src j j', reachable_journal j -> read_into_journal depth cwd fs src j = Ok j' ->
  exists its new, outline cwd fs None src its /\ j_xacts j' = j_xacts j ++ new /\ Forall2 read_from (xact_lines its) new.
Proof. exact read_outline. Qed.
Print Assumptions C73_every_line_counts.
(** The accounts are those of the journal before and those named in posting lines, with their parents. *)
Theorem C73_accounts :
  forall depth cwd fs src j j', reachable_journal j -> read_into_journal depth cwd fs src j = Ok j' ->
  exists its, outline cwd fs None src its
    /\ forall q, exists_at (j_master j') q <->
         exists_at (j_master j) q \/ exists l a, In l (posting_lines its) /\ account_written l a /\ prefix_of q (components a) = true.
Proof. exact read_account_names. Qed.
Print Assumptions C73_accounts.
(** The outline is determined by the lines. *)
Theorem C73_outline_unique :
  forall cwd fs, (forall p, fs p <> None -> file_path p) -> forall cur src its, outline cwd fs cur src its ->
  forall its', outline cwd fs cur src its' -> its' = its.
Proof. exact outline_unique. Qed.
Print Assumptions C73_outline_unique.
(** The lines of a text end with a line feed, but perhaps the last. *)
Theorem C73_lines : forall t ls, text_source t = map Some ls <-> lines_of t ls.
Proof. exact text_lines_iff. Qed.
Print Assumptions C73_lines.
Definition small_outline : list item :=
  [Lines (lit "2023-03-01 Shop" ++ nl, [lit "   Expenses:Food  3.20 EUR" ++ nl; lit "   Assets:Cash" ++ nl])].
Example C73_case :
  (forall p, demo_fs p <> None -> file_path p) /\ lines_of (lit "a" ++ nl ++ nl ++ lit "b") [lit "a" ++ nl; nl; lit "b"]
  /\ outline (lit "/w") demo_fs None [Some include_food] small_outline
  /\ exists j, read_into_journal 2 (lit "/w") demo_fs [Some include_food] journal_new = Ok j
     /\ Forall2 read_from (xact_lines small_outline) (j_xacts j)
     /\ exists_at (j_master j) [lit "Expenses"; lit "Food"] /\ exists_at (j_master j) [lit "Assets"].
Proof.
  assert (P : forall p, demo_fs p <> None -> file_path p).
  { intros p. unfold demo_fs. destruct (str_eqb p inc_path) eqn:E; [|congruence]. apply BaseFacts.str_eqb_eq in E. subst p. intros _. exact inc_file_path. }
  assert (O : outline (lit "/w") demo_fs None [Some include_food] small_outline).
  { change small_outline with (small_outline ++ []). eapply ol_include; [apply plain_include_line, food_word|exact inc_named|reflexivity| |constructor].
    assert (E : text_source xact_text = [Some (50%N :: lit "023-03-01 Shop" ++ nl); Some (32%N :: lit "   Expenses:Food  3.20 EUR" ++ nl); Some (32%N :: lit "   Assets:Cash" ++ nl)])
      by (vm_compute; reflexivity).
    rewrite E. clear E. unfold small_outline. change (lit "2023-03-01 Shop" ++ nl) with (50%N :: lit "023-03-01 Shop" ++ nl).
    apply ol_header; [reflexivity|]. apply (ol_posting _ _ _ [] _ 69%N); [exists (lit "   "), (lit "xpenses:Food  3.20 EUR" ++ nl); repeat split|discriminate|].
    apply (ol_posting _ _ _ _ _ 65%N); [exists (lit "   "), (lit "ssets:Cash" ++ nl); repeat split|discriminate|]. constructor. }
  split; [exact P|]. split; [apply text_lines_iff; reflexivity|]. split; [exact O|].
  destruct (read_into_journal 2 (lit "/w") demo_fs [Some include_food] journal_new) as [j| |] eqn:E; [|vm_compute in E; discriminate|vm_compute in E; discriminate].
  exists j. split; [reflexivity|]. split.
  - destruct (read_outline _ _ _ _ _ _ rj_new E) as (its & new & O' & -> & F). rewrite <- (outline_unique _ _ P _ _ _ O _ O'). exact F.
  - vm_compute in E. injection E as <-. split; eexists; vm_compute; reflexivity.
Qed.

(** ** C75: the commodities known are those that are written *)
Theorem C75_commodities :
  forall depth cwd fs src j j', reachable_journal j -> read_into_journal depth cwd fs src j = Ok j' ->
  exists its, outline cwd fs None src its
    /\ (Forall (fun l => exists tok, clear_posting l tok) (posting_lines its) ->
        forall s, pool_find (j_pool j') s <> None <->
          pool_find (j_pool j) s <> None
          \/ (exists l tok, In l (posting_lines its) /\ clear_posting l tok /\ written_symbol tok s)
          \/ exists l a b w v, In l (price_lines its) /\ price_said l (a, b, w, v) /\ (s = a \/ s = b)).
Proof. exact read_commodities. Qed.
Print Assumptions C75_commodities.
Example C75_case :
  outline [] (fun _ => None) None (map Some [demo_header; fpost1; fpost2; fpost3]) [Lines (demo_header, [tl fpost1; tl fpost2; tl fpost3])]
  /\ Forall (fun l => exists tok, clear_posting l tok) [tl fpost1; tl fpost2; tl fpost3]
  /\ exists j, read_into_journal 1 [] (fun _ => None) (map Some [demo_header; fpost1; fpost2; fpost3]) journal_new = Ok j
     /\ map fst (p_comms (j_pool j)) = [lit "VTI"; lit "EUR"; lit "IVV"].
Proof.
  split; [|split].
  - cbn [map]. apply (ol_header _ _ 50%N (tl demo_header)); [reflexivity|].
    apply (ol_posting _ _ _ [] (tl fpost1) 65%N); [exists (lit "   "), (skipn 5 fpost1); repeat split|discriminate|].
    apply (ol_posting _ _ _ _ (tl fpost2) 65%N); [exists (lit "   "), (skipn 5 fpost2); repeat split|discriminate|].
    apply (ol_posting _ _ _ _ (tl fpost3) 65%N); [exists (lit "   "), (skipn 5 fpost3); repeat split|discriminate|]. constructor.
  - repeat constructor.
    + eexists. split; [apply posting_unindent; exact fpost1_line|]. right. exists (10 * unit1)%Z, 0. apply denotes_int. vm_compute. reflexivity.
    + eexists. split; [apply posting_unindent; exact fpost2_line|]. right. exists (5 * unit1)%Z, 0. apply denotes_int. vm_compute. reflexivity.
    + eexists. split; [apply posting_unindent; exact (amount_line _ _ _ (after_eur (lit "-305") eq_refl))|]. left. reflexivity.
  - eexists. split; vm_compute; reflexivity.
Qed.
