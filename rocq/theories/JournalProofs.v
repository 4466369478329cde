(** Consequences of the journal invariant. *)
From Coq Require Import List NArith ZArith Bool Lia Sorted.
From Verif Require Import Base Decimal Dates Amount Balance Scanner History Pool Account Journal Xact Parser.
From Verif Require Import SpecDecimal SpecAmount SpecDates SpecPool SpecAccount SpecXact SpecJournal.
From Verif Require Import BaseFacts AccountFacts AccountProofs PoolFacts XactFacts XactProofs JournalFacts.
Import ListNotations.
Open Scope nat_scope.

(** ** Every transaction is finalised *)
Lemma reachable_finished j : reachable_journal j -> Forall finished (j_xacts j).
Proof. intros H. apply reachable_inv in H as [_ _ _ _ (xs & E & F)]. cbn in E. rewrite E. exact F. Qed.

Lemma no_posting_incomplete j :
  reachable_journal j ->
  Forall (fun x => length (x_posts x) <> 1
     /\ Forall (fun p => exists a, po_amount p = Some a /\ forall c, po_cost p = Some c -> a_c a <> a_c c) (x_posts x))
    (j_xacts j).
Proof.
  intros H. eapply Forall_impl; [|apply reachable_finished, H].
  intros x (d & pool & pool' & ps & _ & _ & _ & _ & F). eapply finalize_complete, F.
Qed.
Lemma postings_wf j : reachable_journal j -> Forall (fun p => wf_post p /\ post_known (j_pool j) p) (all_posts j).
Proof. intros H. apply reachable_inv in H as [_ _ _ Q _]. exact Q. Qed.

(** ** The accounts list their own postings *)
Lemma accounts_agree j : reachable_journal j -> lists_own_postings j.
Proof. intros H. apply reachable_inv in H. apply H. Qed.

(** ** Reading only appends *)
Definition later (j0 : journal) (m : mode) (j : journal) : Prop :=
  inv m j /\ appends j0 j /\ match m with Top => True | InXact xi => length (j_xacts j0) <= xi end.

Lemma appends_refl j : appends j j.
Proof.
  split; [exists []; rewrite app_nil_r; reflexivity|]. split; [apply keeps_refl|].
  intros q l H. exists []. rewrite app_nil_r. split; [exact H|constructor].
Qed.
Lemma appends_trans a b c : appends a b -> appends b c -> appends a c.
Proof.
  intros ((n1 & E1) & K1 & P1) ((n2 & E2) & K2 & P2). split; [exists (n1 ++ n2); rewrite E2, E1, app_assoc; reflexivity|].
  split; [eapply keeps_trans; eassumption|]. intros q l H. apply P1 in H as (l1 & H & F1). apply P2 in H as (l2 & H & F2).
  exists (l1 ++ l2). rewrite app_assoc. split; [exact H|]. apply Forall_app. split; [exact F1|].
  eapply Forall_impl; [|exact F2]. cbn. intros r. rewrite E1, app_length. lia.
Qed.

Lemma appends_pool j0 j p : inv Top j -> appends j0 j -> reachable_from (j_pool j) p -> appends j0 (set_pool j p).
Proof.
  intros I A R. eapply appends_trans; [exact A|]. split; [exists []; rewrite app_nil_r; reflexivity|].
  split; [|intros q l H; exists []; rewrite app_nil_r; split; [exact H|constructor]].
  apply reachable_keeps; [apply reachable_wf, I|exact R].
Qed.

Lemma last_split {A} (l0 new l : list A) x :
  l0 ++ new = l ++ [x] -> length l0 <= length l -> exists mid, l = l0 ++ mid.
Proof.
  revert l. induction l0 as [|a l0 IH]; intros l E L; [exists l; reflexivity|].
  destruct l as [|b l]; cbn in *; [lia|]. injection E as -> E. destruct (IH l E) as (mid & ->); [lia|]. exists mid. reflexivity.
Qed.

Lemma later_create j0 j c r j' :
  later j0 Top j -> is_digit c = true -> create_xact j (c :: r) = Ok j' -> later j0 (InXact (length (j_xacts j))) j'.
Proof.
  intros (I & A & _) D H. split; [eapply inv_create; eassumption|]. destruct A as ((new & E) & A).
  split; [|rewrite E, app_length; lia].
  apply create_xact_inv in H as (x & d & -> & _); [|exact D]. split; [|exact A].
  exists (new ++ [x]). cbn. rewrite E, app_assoc. reflexivity.
Qed.
Lemma later_last j0 xi j : later j0 (InXact xi) j -> exists mid x, j_xacts j = (j_xacts j0 ++ mid) ++ [x] /\ length (j_xacts j0 ++ mid) = xi.
Proof.
  intros (I & ((new & E) & _) & L). destruct I as [_ _ _ _ (xs & (Lx & x & d & Ej & _) & _)].
  rewrite Ej in E. symmetry in E. destruct (last_split _ _ _ _ E) as (mid & ->); [lia|]. exists mid, x. auto.
Qed.
Lemma later_post j0 j xi s j' : later j0 (InXact xi) j -> parse_post j xi s = Ok j' -> later j0 (InXact xi) j'.
Proof.
  intros La H. split; [eapply inv_post; [apply La|exact H]|]. split; [|apply La].
  destruct (later_last _ _ _ La) as (mid & x0 & Ej & Lx). destruct La as (I & ((new & E) & K & P) & L).
  destruct (parse_post_inv _ _ _ _ (i_tree _ _ I) H) as (x & acct & amt & cost & m1 & Ex & E' & R & _ & _ & W1 & X1 & P1 & Hp).
  split.
  - rewrite E'. unfold add_post. rewrite Ej, <- Lx.
    rewrite (update_nth_mid (fun x => set_posts x (x_posts x ++ [mkPost acct amt cost None])) _ x0 []), <- app_assoc. eexists. reflexivity.
  - split; [eapply keeps_trans; [exact K|]; apply reachable_keeps; [apply reachable_wf, I|exact R]|].
    intros q l Hl. apply P in Hl as (n1 & Hl & F1).
    destruct (push_post_spec m1 acct (xi, length (x_posts x)) W1 X1) as (m2 & Hp' & _ & _ & P2).
    rewrite Hp in Hp'. injection Hp' as <-.
    rewrite P2, P1, Hl. destruct (list_eq_dec str_eq_dec q acct).
    + cbn. exists (n1 ++ [(xi, length (x_posts x))]). rewrite app_assoc. split; [reflexivity|].
      apply Forall_app. split; [exact F1|]. constructor; [exact L|constructor].
    + exists n1. auto.
Qed.
Lemma later_note j0 j xi s j' : later j0 (InXact xi) j -> parse_trailing_note j xi s = Ok j' -> later j0 (InXact xi) j'.
Proof.
  intros La H. split; [eapply inv_note; [apply La|exact H]|]. split; [|apply La].
  destruct (later_last _ _ _ La) as (mid & x0 & Ej & Lx). destruct La as (I & ((new & E) & K & P) & L).
  rewrite (journal_eta j), Ej, <- Lx in H. apply note_inv in H as (x' & -> & _). split; [|split; assumption].
  cbn. rewrite <- app_assoc. eexists. reflexivity.
Qed.
Lemma later_final j0 j xi j' : later j0 (InXact xi) j -> finalize j xi = Ok j' -> later j0 Top j'.
Proof.
  intros La H. split; [eapply inv_final; [apply La|exact H]|]. split; [|exact Logic.I].
  destruct (later_last _ _ _ La) as (mid & x0 & Ej & Lx). destruct La as (I & ((new & E) & K & P) & L).
  destruct I as [T Pl Li Q D]. destruct D as (xs & (Lx' & x & d & Ej' & Xd & Vd) & F).
  assert (x = x0 /\ xs = j_xacts j0 ++ mid) as [-> ->].
  { rewrite Ej in Ej'. apply app_inj_tail in Ej'. intuition congruence. }
  unfold finalize in H. rewrite Ej, nth_error_app2, <- Lx, Nat.sub_diag in H by lia. cbn [nth_error] in H.
  inv_bind H. destruct v as [pool' posts']. injection H as <-.
  rewrite (update_nth_mid (fun x => set_posts x posts') _ x0 []), <- app_assoc.
  split; [eexists; reflexivity|]. split; [|exact P]. cbn [j_pool].
  eapply keeps_trans; [exact K|]. apply reachable_keeps; [apply reachable_wf, Pl|].
  assert (Q2 : Forall (fun p => wf_post p /\ post_known (j_pool j) p) (x_posts x0)).
  { rewrite (journal_eta j), Ej, all_posts_snoc in Q. apply Forall_app in Q. apply Q. }
  rewrite Xd in EQ. eapply finalize_pool; [exact Pl|exact Vd| | |exact EQ]; (eapply Forall_impl; [|exact Q2]; intros ? [? ?]; assumption).
Qed.
Lemma later_price j0 j line p : later j0 Top j -> parse_price_directive (j_pool j) line = Ok p -> later j0 Top (set_pool j p).
Proof.
  intros (I & A & _) H. split; [eapply inv_price; eassumption|]. split; [|exact Logic.I].
  apply appends_pool; [exact I|exact A|]. eapply rp_directive; [constructor|exact H].
Qed.

Lemma read_appends depth cwd fs src j j' :
  reachable_journal j -> read_into_journal depth cwd fs src j = Ok j' -> appends j j'.
Proof.
  intros R H. assert (L : later j Top j).
  { split; [apply reachable_inv, R|]. split; [apply appends_refl|exact Logic.I]. }
  eapply (read_preserves (later j) (later_create j) (later_post j) (later_note j) (later_final j) (later_price j)) in H; [|exact L].
  apply H.
Qed.
