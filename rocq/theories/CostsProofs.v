(** Proofs for C103. *)
From Coq Require Import String List NArith ZArith Bool Lia Sorted Permutation.
From Verif Require Import Base Decimal Dates Amount Balance Scanner History Pool Account Journal Xact Parser Report Options Lib.
From Verif Require Import SpecDecimal SpecAmount SpecAccount SpecJournal SpecText SpecReading SpecScan SpecWhole SpecReport SpecCommand SpecFull SpecEnd SpecFullEnd SpecOrder SpecOutline SpecShown SpecLocal SpecCosts.
From Verif Require Import BaseFacts XactFacts AccountFacts JournalFacts ReportFacts ReportProofs JournalProofs CommandProofs EndProofs FullEndProofs OrderProofs ShownProofs LocalProofs.
Import ListNotations.
Open Scope list_scope.
Open Scope nat_scope.

(** ** The report depends on the amounts in each account *)
Lemma report_of_amounts j j' out : reachable_journal j -> reachable_journal j' -> same_below [] j j' -> balance_report j = Ok out -> balance_report j' = Ok out.
Proof.
  intros R R' S B. destruct (report_shape j out R B) as (ps & O & F).
  pose proof (i_tree _ _ (reachable_inv _ R)) as W. pose proof (i_tree _ _ (reachable_inv _ R')) as W'.
  assert (X : forall p, exists_at (j_master j) p <-> exists_at (j_master j') p) by (intros p; apply (S p eq_refl)).
  assert (Sq : forall q, same_below q j j') by (intros q p _; apply (S p eq_refl)).
  assert (T : forall q b', get_account (j_master j') q = Some b' -> exists t, account_total (j_xacts j') b' = Ok t).
  { intros q b' G'. destruct (proj2 (X q) (ex_intro _ b' G')) as [b G]. rewrite <- (same_total j j' q b b' R R' (Sq q) G G').
    pose proof (proj2 (proj2 O q) (ex_intro _ b G)) as I. clear - F I G. induction F as [|p l ps out (a & t & Ga & Ta & _) F IH]; [destruct I|].
    destruct I as [->|I]; [|exact (IH I)]. rewrite G in Ga. injection Ga as ->. eauto. }
  destruct (children_lines_total (j_xacts j') (j_master j') W' T []) as (out' & B'). fold (balance_report j') in B'. rewrite B'. f_equal.
  destruct (report_shape j' out' R' B') as (ps' & O' & F').
  assert (E : ps' = ps).
  { destruct O as [So I], O' as [So' I']. apply (sorted_unique path_lt); [|exact So'|exact So|].
    - intros a b H H'. elim (path_lt_asym _ _ H H').
    - apply NoDup_Permutation; [apply sorted_nodup, So'|apply sorted_nodup, So|]. intros p. rewrite I, I'. symmetry. apply X. }
  subst ps'. clear O O' T B B'. revert out F out' F'. induction ps as [|p ps IH]; intros out F out' F'; inversion F as [|? la ? ? (a & t & G & Ta & ->) Fr]; inversion F' as [|? lb ? ? (a' & t' & G' & Ta' & ->) Fr']; subst; [reflexivity|].
  f_equal; [|eapply IH; eassumption]. pose proof (same_total j j' p a a' R R' (Sq p) G G') as E. rewrite Ta, Ta' in E. injection E as ->. reflexivity.
Qed.

(** ** Amounts *)
Lemma amount_determined a a' w : amount_of a w -> plain a -> amount_of a' w -> plain a' -> a = a'.
Proof.
  intros (W & U & S & C) P (W' & U' & S' & C') P'. destruct a as [[n m k] c], a' as [[n' m' k'] c']. unfold plain in P, P'. cbn [a_q a_c d_s d_m d_neg] in *. subst k k' c c'.
  assert (M : (0 <= m)%Z) by apply W. assert (M' : (0 <= m')%Z) by apply W'. clear W W'.
  unfold aunits, units in U, U'. cbn [a_q d_s d_m d_neg] in U, U'. rewrite <- U in U'. clear U.
  assert (G : (0 < 10 ^ Z.of_nat (28 - wa_decimals w))%Z) by (apply Z.pow_pos_nonneg; [reflexivity|apply Nat2Z.is_nonneg]).
  revert U' G. generalize (10 ^ Z.of_nat (28 - wa_decimals w))%Z. intros g U G. apply Z.mul_reg_r in U; [|lia].
  destruct n, n'; cbn in *.
  - replace m' with m by lia. reflexivity.
  - assert (m = 0)%Z by lia. discriminate (P H).
  - assert (m' = 0)%Z by lia. discriminate (P' H).
  - replace m' with m by lia. reflexivity.
Qed.
Lemma amounts_same_posts ws ws' xs xs' : Forall2 fxact_is ws xs -> Forall2 fxact_is ws' xs' -> Forall2 same_amount_written (postings_of ws) (postings_of ws') ->
  Forall2 (fun p p' => po_account p = po_account p' /\ po_amount p = po_amount p') (flat_map x_posts xs) (flat_map x_posts xs').
Proof.
  assert (Y : forall ws xs, Forall2 fxact_is ws xs -> Forall2 (fun fp p => po_account p = components (fp_account fp) /\ forall v, fp_value fp = Some v -> exists a, po_amount p = Some a /\ amount_of a (wv_amount v) /\ plain a) (postings_of ws) (flat_map x_posts xs)).
  { clear. induction 1 as [|w x ws xs (_ & _ & _ & _ & P) F IH]; [constructor|]. unfold postings_of. cbn [flat_map]. apply Forall2_app; [|exact IH].
    induction P as [|fp p fps ps (A & _ & a & E & V) P IHp]; constructor; [|exact IHp]. split; [exact A|]. intros v Ev. rewrite Ev in V. exists a. split; [exact E|]. exact (proj1 V). }
  intros F F' S. apply Y in F. apply Y in F'. clear Y. revert F F'. generalize (flat_map x_posts xs), (flat_map x_posts xs').
  induction S as [|p p' ps ps' (A & v & v' & E & E' & Ev) S IH]; intros l l' F F'; inversion F as [|? q ? qs [Ap H] Fr]; inversion F' as [|? q' ? qs' [Ap' H'] Fr']; subst; constructor; [|apply IH; assumption].
  split; [congruence|]. destruct (H v E) as (a & Qa & Wa & Pa). destruct (H' v' E') as (a' & Qa' & Wa' & Pa'). rewrite Qa, Qa'. rewrite <- Ev in Wa'. f_equal. eapply amount_determined; eassumption.
Qed.
Lemma same_posts_below j j' :
  (forall q, exists_at (j_master j) q <-> q = [] \/ exists p, In p (all_posts j) /\ prefix_of q (po_account p) = true) ->
  (forall q, exists_at (j_master j') q <-> q = [] \/ exists p, In p (all_posts j') /\ prefix_of q (po_account p) = true) ->
  Forall2 (fun p p' => po_account p = po_account p' /\ po_amount p = po_amount p') (all_posts j) (all_posts j') -> same_below [] j j'.
Proof.
  intros X X' F p _. split.
  - rewrite X, X'. split; (intros [H|(u & H & P)]; [left; exact H|right]).
    + clear -F H P. induction F as [|a b l m [E _] F IH]; [destruct H|]. destruct H as [->|H]; [exists b; split; [left; reflexivity|rewrite <- E; exact P]|]. destruct (IH H) as (c & Hc & Pc). exists c. split; [right; exact Hc|exact Pc].
    + clear -F H P. induction F as [|a b l m [E _] F IH]; [destruct H|]. destruct H as [->|H]; [exists a; split; [left; reflexivity|rewrite E; exact P]|]. destruct (IH H) as (c & Hc & Pc). exists c. split; [right; exact Hc|exact Pc].
  - unfold posts_in. clear -F. induction F as [|a b l m [E A] F IH]; [reflexivity|]. cbn [filter]. assert (Q : in_account po_account p a = in_account po_account p b) by (unfold in_account; rewrite E; reflexivity). rewrite Q. destruct (in_account po_account p b); cbn [map]; [rewrite A, IH; reflexivity|exact IH].
Qed.
Lemma same_below_sym q j j' : same_below q j j' -> same_below q j' j.
Proof. intros S p P. destruct (S p P) as [A B]. split; [symmetry; exact A|symmetry; exact B]. Qed.
Theorem same_reports j j' : reachable_journal j -> reachable_journal j' -> same_below [] j j' -> forall out, balance_report j = Ok out <-> balance_report j' = Ok out.
Proof. intros R R' S out. split; apply report_of_amounts; auto. apply same_below_sym, S. Qed.
Theorem costs_aside d c f args files verb ws d' c' f' args' files' verb' ws' :
  said_run d c f args files verb ws -> balance_verb verb -> said_run d' c' f' args' files' verb' ws' -> balance_verb verb' ->
  Forall xact_ok ws -> lots_ok (j_pool journal_new) ws -> Forall xact_ok ws' -> lots_ok (j_pool journal_new) ws' ->
  Forall2 same_amount_written (postings_of ws) (postings_of ws') ->
  forall out, run d c f args = Ok out <-> run d' c' f' args' = Ok out.
Proof.
  intros (cm & wss & A & F & ->) V (cm' & wss' & A' & F' & ->) V' K L K' L' S out.
  destruct (full_files_read _ _ _ _ _ F K L) as (srcs & j & Fa & Rd & R & X & Ex).
  destruct (full_files_read _ _ _ _ _ F' K' L') as (srcs' & j' & Fa' & Rd' & R' & X' & Ex').
  rewrite (run_balance d c f _ _ _ _ _ A Fa V), Rd, (run_balance d' c' f' _ _ _ _ _ A' Fa' V'), Rd'. cbn [bind].
  apply same_reports; [exact R|exact R'|]. apply same_posts_below; [exact Ex|exact Ex'|]. exact (amounts_same_posts _ _ _ _ X X' S).
Qed.
