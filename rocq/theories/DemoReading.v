(** Texts and file systems used by the examples and refutations about reading. *)
From Coq Require Import String List NArith ZArith Bool Lia Relations.
From Verif Require Import Base BaseFacts Decimal Dates Amount Balance Scanner History Pool Account Journal Xact Parser.
From Verif Require Import SpecText SpecReading ReadingFacts ReadingProofs DemoJournal.
From Verif Require ModelTests.
Import ListNotations.
Open Scope list_scope.
Open Scope nat_scope.

(** A transaction, and comments that can stand behind it. *)
Definition xact_text : str := lit "2023-03-01 Shop
    Expenses:Food  3.20 EUR
    Assets:Cash
".
Definition comments : str := lit "; one
# two

* three
| four
--strict
".
Definition comment_line : str := lit "; a comment
".
Lemma comments_inert : Forall inert (text_source comments).
Proof.
  assert (E : forall l, In l (split_lines comments) -> inert (Some l)); [|apply Forall_map, Forall_forall; exact E].
  intros l H. exists l. split; [reflexivity|]. vm_compute in H.
  destruct H as [<-|[<-|[<-|[<-|[<-|[<-|[]]]]]]]; try (left; reflexivity); right; right; eexists; eexists; (split; [reflexivity|]); vm_compute; auto 10.
Qed.
Lemma comment_line_inert : Forall inert (text_source comment_line).
Proof. constructor; [|constructor]. eexists. split; [reflexivity|]. right. right. eexists. eexists. split; [reflexivity|]. left. reflexivity. Qed.

(** C27 fails before the empty line that ends a transaction. *)
Lemma comment_refuted :
  ~ (forall depth cwd fs t1 c t2 j,
       complete_lines t1 -> complete_lines c -> Forall inert (text_source c) -> (exists r, t2 = nl ++ r) ->
       parse_text depth cwd fs (t1 ++ c ++ t2) j = parse_text depth cwd fs (t1 ++ t2) j).
Proof.
  intros H. specialize (H 3 [] ModelTests.no_files xact_text comment_line nl journal_new).
  assert (C1 : complete_lines xact_text).
  { right. exists (removelast xact_text). vm_compute. reflexivity. }
  assert (C2 : complete_lines comment_line) by (right; exists (removelast comment_line); vm_compute; reflexivity).
  specialize (H C1 C2 comment_line_inert). specialize (H (ex_intro _ [] eq_refl)).
  match type of H with ?a = ?b => assert (E : a = Panic PExplicit) by (vm_compute; reflexivity); rewrite E in H; clear E end.
  vm_compute in H. discriminate H.
Qed.

(** *** Includes *)
Definition main_path : str := lit "/main.ledger".
Definition inc_path : str := lit "/w/food.ledger".
Definition demo_fs (p : str) : option source := if str_eqb p inc_path then Some (text_source xact_text) else None.
Definition include_food : str := plain_include (lit "food.ledger").
Lemma food_word : word (lit "food.ledger").
Proof. split; [discriminate|reflexivity]. Qed.

Lemma no_slash n : forallb (fun c => negb (c =? 47)%N) n = true -> ~ In 47%N n.
Proof. intros H I. rewrite forallb_forall in H. discriminate (H _ I). Qed.
Lemma inc_named : names_file (lit "/w") (lit "food.ledger") inc_path.
Proof. apply names_resolve. reflexivity. Qed.
Lemma inc_file_path : file_path inc_path.
Proof. exists (lit "/w"), (lit "food.ledger"). split; [reflexivity|]. split; [discriminate|]. split; [discriminate|]. apply no_slash. reflexivity. Qed.
Lemma include_missing_refuted :
  ~ (forall depth cwd fs s1 s2 arg p l j,
       inside s1 = false -> include_line l arg -> hd_error l = Some 105%N -> names_file cwd arg p -> file_path p -> fs p = None ->
       forall j', read_into_journal depth cwd fs (s1 ++ Some l :: s2) j <> Ok j').
Proof.
  intros H. specialize (H 3 (lit "/w") ModelTests.no_files [] [] (lit "food.ledger") inc_path include_food journal_new).
  apply (H eq_refl (plain_include_line _ food_word) eq_refl inc_named inc_file_path eq_refl journal_new). vm_compute. reflexivity.
Qed.
(** A file in the working directory whose name starts with a tilde. *)
Definition tilde : str := lit "~food".
Definition tilde_fs (p : str) : option source := if str_eqb p tilde then Some (text_source xact_text) else None.
Lemma tilde_word : word tilde.
Proof. split; [discriminate|reflexivity]. Qed.
Lemma tilde_refuted :
  ~ (forall depth cwd fs src1 src2 j l arg path contents e,
       inside src1 = false -> include_line l arg -> hd_error l = Some 105%N ->
       names_file cwd arg path -> fs path = Some contents -> decodable contents -> empty_line e ->
       read_into_journal depth cwd fs (src1 ++ contents ++ e :: src2) j <> Diverge ->
       read_into_journal (S depth) cwd fs (src1 ++ Some l :: src2) j = read_into_journal depth cwd fs (src1 ++ contents ++ e :: src2) j).
Proof.
  intros H. specialize (H 3 (lit "/w") tilde_fs [] [] journal_new _ tilde tilde (text_source xact_text) (Some nl) eq_refl (plain_include_line tilde tilde_word) eq_refl).
  assert (N : names_file (lit "/w") tilde tilde) by (apply names_resolve; reflexivity). specialize (H N eq_refl).
  assert (D : decodable (text_source xact_text)) by (apply Forall_map, Forall_forall; discriminate). specialize (H D (or_introl eq_refl)).
  match type of H with _ -> ?a = ?b => assert (E : a = Ok journal_new) by (vm_compute; reflexivity); rewrite E in H; clear E;
    assert (X : option_map (fun j => length (j_xacts j)) (match b with Ok j => Some j | _ => None end) = Some 1) by (vm_compute; reflexivity);
    destruct b as [j| |]; [|discriminate X|discriminate X] end.
  assert (Y : Ok journal_new = Ok j) by (apply H; discriminate). injection Y as <-. discriminate X.
Qed.

(** A file that includes itself. *)
Definition loop_fs (p : str) : option source :=
  if str_eqb p inc_path then Some (text_source comments ++ Some include_food :: []) else None.
Lemma in_text l t : In (Some l) (text_source t) -> In l (split_lines t).
Proof. unfold text_source. intros H. apply in_map_iff in H as (k & E & Hk). congruence. Qed.
Lemma no_include_lines t : forallb (fun k => negb (str_eqb (fst (take_word k)) (lit "include"))) (split_lines t) = true ->
  forall l arg, In (Some l) (text_source t) -> ~ include_line l arg.
Proof.
  intros B l arg H Hl. apply in_text in H. rewrite forallb_forall in B. specialize (B l H).
  destruct (include_line_arg l arg Hl) as [E _]. rewrite E, str_eqb_refl in B. discriminate B.
Qed.
Lemma xact_text_plain : forallb (fun k => negb (str_eqb (fst (take_word k)) (lit "include"))) (split_lines xact_text) = true.
Proof. vm_compute. reflexivity. Qed.
Lemma demo_fs_src p src : demo_fs p = Some src -> src = text_source xact_text.
Proof. unfold demo_fs. generalize (text_source xact_text). destruct (str_eqb p inc_path); congruence. Qed.
Lemma demo_acyclic : acyclic (lit "/w") demo_fs.
Proof.
  assert (N : forall p q, ~ includes (lit "/w") demo_fs p q).
  { intros p q (src & l & arg & Fs & Il & Hl & _). apply demo_fs_src in Fs. rewrite Fs in Il.
    exact (no_include_lines _ xact_text_plain l arg Il Hl). }
  intros p H. apply clos_trans_t1n in H. destruct H as [q H|q r H _]; exact (N _ _ H).
Qed.
Lemma demo_only : only_files demo_fs [inc_path].
Proof. intros p H. unfold demo_fs in H. destruct (str_eqb p inc_path) eqn:E; [|congruence]. apply str_eqb_eq in E. left. congruence. Qed.

(** *** Notes *)
Definition note_text : source := text_source (lit "2023-03-01 Shop
    Expenses:Food  3.20 EUR
    Assets:Cash
").
Definition note1 : str := lit "    ; first note
".
Definition note2 : str := lit "    ;second note
".
Lemma note1_line : note_line note1 (lit "first note").
Proof.
  exists (lit "   "), (lit " "), [10%N]. split; [reflexivity|]. repeat (split; [reflexivity|]).
  exists 102%N, (lit "irst note"), 101%N, (lit "first not"). repeat split.
Qed.
Lemma note2_line : note_line note2 (lit "second note").
Proof.
  exists (lit "   "), [], [10%N]. split; [reflexivity|]. repeat (split; [reflexivity|]).
  exists 115%N, (lit "econd note"), 101%N, (lit "second not"). repeat split.
Qed.
(** An earlier note on the same posting is gone. *)
Definition mentions (note : str) (p : post) : Prop := exists n, po_note p = Some n /\ find_sub note n <> None.
Lemma earlier_note_refuted :
  ~ (forall depth cwd fs s1 l1 n1 l2 n2 j j',
       decodable s1 -> inside s1 = true -> note_line l1 n1 -> note_line l2 n2 ->
       read_into_journal depth cwd fs (s1 ++ [Some l1] ++ [Some l2]) j = Ok j' ->
       Exists (mentions n1) (all_posts j') \/ Exists (fun x => exists n, x_note x = Some n /\ find_sub n1 n <> None) (j_xacts j')).
Proof.
  intros H. specialize (H 3 [] ModelTests.no_files note_text note1 (lit "first note") note2 (lit "second note") journal_new
    (from_ok journal_new (read_into_journal 3 [] ModelTests.no_files (note_text ++ [Some note1] ++ [Some note2]) journal_new))).
  assert (D : decodable note_text) by apply text_decodable. specialize (H D eq_refl note1_line note2_line).
  match type of H with ?P -> _ => assert (K : P) by (vm_compute; reflexivity); specialize (H K); clear K end.
  match type of H with Exists _ ?l \/ Exists _ ?xs => let l' := eval vm_compute in l in let xs' := eval vm_compute in xs in
    assert (E1 : l = l') by (vm_compute; reflexivity); assert (E2 : xs = xs') by (vm_compute; reflexivity); rewrite E1, E2 in H; clear E1 E2 end.
  destruct H as [H|H].
  - inversion H as [? ? (n & E & _)|? ? H']; subst; [discriminate E|]. inversion H' as [? ? (n & E & K)|? ? H'']; subst; [|inversion H''].
    injection E as <-. vm_compute in K. congruence.
  - inversion H as [? ? (n & E & _)|? ? H']; subst; [discriminate E|]. inversion H'.
Qed.

(** *** Undecodable lines *)
Lemma undecodable_refuted :
  ~ (forall depth cwd fs s1 s2 j j', read_into_journal depth cwd fs (s1 ++ None :: s2) j <> Ok j').
Proof.
  intros H. apply (H 3 [] ModelTests.no_files [] (text_source xact_text) journal_new journal_new). vm_compute. reflexivity.
Qed.
