(** Reports on the same entries in another order. *)
From Coq Require Import String List NArith ZArith Bool Lia Sorted Permutation.
From Verif Require Import Base Decimal Dates Amount Balance Scanner History Pool Account Journal Xact Parser Report Options Lib.
From Verif Require Import SpecDecimal SpecAmount SpecAccount SpecScan SpecWhole SpecReport SpecCommand SpecFull SpecEnd SpecFullEnd SpecOrder.
From Verif Require Import BaseFacts BalanceFacts ReportFacts FullEndProofs.
Import ListNotations.
Open Scope list_scope.
Open Scope nat_scope.

(** ** Sorted lists *)
Lemma sorted_unique {A} (R : A -> A -> Prop) : (forall a b, R a b -> R b a -> a = b) ->
  forall l l', StronglySorted R l -> StronglySorted R l' -> Permutation l l' -> l = l'.
Proof.
  intros An l. induction l as [|a l IH]; intros [|b l'] S S' P; [reflexivity|apply Permutation_nil in P; discriminate|symmetry in P; apply Permutation_nil in P; discriminate|].
  inversion S; inversion S'; subst. assert (E : a = b).
  { assert (I : In a (b :: l')) by (eapply Permutation_in; [exact P|left; reflexivity]). assert (J : In b (a :: l)) by (eapply Permutation_in; [symmetry; exact P|left; reflexivity]).
    destruct I as [I|I]; [auto|]. destruct J as [J|J]; [auto|]. rewrite Forall_forall in *. auto. }
  subst b. f_equal. apply IH; auto. eapply Permutation_cons_inv, P.
Qed.
Lemma path_lt_asym p : forall q, path_lt p q -> path_lt q p -> False.
Proof.
  induction p as [|x p IH]; intros [|y q] H H'; cbn in *; try contradiction. destruct H as [H|[E H]], H' as [H'|[E' H']]; subst.
  - exact (str_lt_irrefl _ (str_lt_trans _ _ _ H H')).
  - exact (str_lt_irrefl _ H).
  - exact (str_lt_irrefl _ H').
  - eauto.
Qed.
Lemma sorted_nodup ps : StronglySorted path_lt ps -> NoDup ps.
Proof.
  induction 1 as [|p ps S IH F]; constructor; [|exact IH]. intros I. rewrite Forall_forall in F. exact (path_lt_irrefl p (F p I)).
Qed.
Lemma accounts_unique es es' ps ps' : Permutation es es' -> accounts_of_entries es ps -> accounts_of_entries es' ps' -> ps = ps'.
Proof.
  intros P [S I] [S' I']. apply (sorted_unique path_lt); [|exact S|exact S'|].
  - intros a b H H'. elim (path_lt_asym _ _ H H').
  - apply NoDup_Permutation; [apply sorted_nodup, S|apply sorted_nodup, S'|]. intros p. rewrite I, I'. split; (intros [H|(e & H & Hp)]; [left; exact H|right; exists e; split; [|exact Hp]]).
    + eapply Permutation_in, H. exact P.
    + eapply Permutation_in, H. symmetry. exact P.
Qed.

(** ** Totals *)
Lemma below_perm p es es' : Permutation es es' -> Permutation (below p es) (below p es').
Proof. apply filter_perm. Qed.
Lemma sum_in_perm c es es' : Permutation es es' -> sum_in c es = sum_in c es'.
Proof. intros P. apply sumZ_perm, Permutation_map, filter_perm, P. Qed.
Lemma totals_same es es' b b' : Permutation es es' -> totals_said es b -> totals_said es' b' -> same_amounts b b'.
Proof.
  intros P (N & I & _ & V) (N' & I' & _ & V'). split; [exact N|]. split; [exact N'|].
  assert (D : forall l : balance, NoDup (map a_c l) -> NoDup (map (fun a => (a_c a, aunits a)) l)).
  { intros l H. apply (NoDup_map_inv fst). rewrite map_map. exact H. }
  apply NoDup_Permutation; [apply D, N|apply D, N'|].
  assert (X : forall es es' (b b' : balance), Permutation es es' -> (forall c, In c (map a_c b) <-> exists e, In e es /\ snd (fst e) = c) -> (forall a, In a b -> aunits a = sum_in (a_c a) es) ->
    (forall c, In c (map a_c b') <-> exists e, In e es' /\ snd (fst e) = c) -> (forall a, In a b' -> aunits a = sum_in (a_c a) es') ->
    forall x, In x (map (fun a => (a_c a, aunits a)) b) -> In x (map (fun a => (a_c a, aunits a)) b')).
  { clear. intros es es' b b' P I V I' V' x H. apply in_map_iff in H as (a & <- & Ha).
    assert (C : In (a_c a) (map a_c b')).
    { apply I'. assert (C : In (a_c a) (map a_c b)) by (apply in_map, Ha). apply I in C as (e & He & Ec). exists e. split; [eapply Permutation_in, He; exact P|exact Ec]. }
    apply in_map_iff in C as (a' & Ec & Ha'). apply in_map_iff. exists a'. split; [|exact Ha']. rewrite (V a Ha), (V' a' Ha'), Ec, (sum_in_perm _ _ _ P). reflexivity. }
  intros x. split; [apply (X es es')|apply (X es' es)]; auto. symmetry. exact P.
Qed.

(** ** Reports *)
Lemma report_same es es' ps out out' : Permutation es es' ->
  Forall2 (fun p line => exists b, totals_said (below p es) b /\ line = lit "Account " ++ shown_name p ++ lit " has balance " ++ shown_amounts b) ps out ->
  Forall2 (fun p line => exists b, totals_said (below p es') b /\ line = lit "Account " ++ shown_name p ++ lit " has balance " ++ shown_amounts b) ps out' ->
  same_report out out'.
Proof.
  intros P F. revert out'. induction F as [|p l ps out (b & T & E) F IH]; intros out' F'; inversion F' as [|? l' ? ? (b' & T' & E') F'']; subst.
  - exists []. repeat constructor.
  - destruct (IH _ F'') as (rows & A & -> & ->). exists ((p, b, b') :: rows). split; [|split; reflexivity].
    constructor; [|exact A]. eapply totals_same; [apply below_perm, P|exact T|exact T'].
Qed.
Lemma same_entries_balance d c f args files verb ws d' c' f' args' files' verb' ws' :
  said_run d c f args files verb ws -> balance_verb verb -> said_run d' c' f' args' files' verb' ws' -> balance_verb verb' ->
  Forall xact_ok ws -> lots_ok (j_pool journal_new) ws -> full_sums_fit ws ->
  Forall xact_ok ws' -> lots_ok (j_pool journal_new) ws' -> full_sums_fit ws' -> Permutation (full_entries ws) (full_entries ws') ->
  exists out out', run d c f args = Ok out /\ run d' c' f' args' = Ok out' /\ same_report out out'.
Proof.
  intros (cm & wss & A & F & ->) V (cm' & wss' & A' & F' & ->) V' K L S K' L' S' P.
  destruct (full_balance _ _ _ _ _ _ _ _ A V F K L S) as (out & ps & R & Ac & O).
  destruct (full_balance _ _ _ _ _ _ _ _ A' V' F' K' L' S') as (out' & ps' & R' & Ac' & O').
  exists out, out'. split; [exact R|]. split; [exact R'|]. rewrite (accounts_unique _ _ _ _ P Ac Ac') in O. eapply report_same; eassumption.
Qed.
Lemma same_entries_accounts d c f args files verb ws d' c' f' args' files' verb' ws' :
  said_run d c f args files verb ws -> accounts_verb verb -> said_run d' c' f' args' files' verb' ws' -> accounts_verb verb' ->
  Forall xact_ok ws -> lots_ok (j_pool journal_new) ws -> Forall xact_ok ws' -> lots_ok (j_pool journal_new) ws' ->
  Permutation (full_entries ws) (full_entries ws') ->
  exists out, run d c f args = Ok out /\ run d' c' f' args' = Ok out.
Proof.
  intros (cm & wss & A & F & ->) V (cm' & wss' & A' & F' & ->) V' K L K' L' P.
  destruct (full_accounts _ _ _ _ _ _ _ _ A V F K L) as (out & ps & R & Ac & Pe & So).
  destruct (full_accounts _ _ _ _ _ _ _ _ A' V' F' K' L') as (out' & ps' & R' & Ac' & Pe' & So').
  exists out. split; [exact R|]. rewrite R'. f_equal. apply (sorted_unique (fun a b => str_lt a b \/ a = b)); [|exact So'|exact So|].
  - intros a b [H|H] [H'|H']; auto. elim (str_lt_irrefl _ (str_lt_trans _ _ _ H H')).
  - rewrite Pe, Pe', (accounts_unique _ _ _ _ P Ac Ac'). reflexivity.
Qed.

(** ** The same transactions in another order *)
Lemma xacts_perm ws ws' : Permutation ws ws' -> Forall xact_ok ws -> Forall xact_ok ws'.
Proof. intros P H. rewrite Forall_forall in *. intros x Hx. apply H. eapply Permutation_in; [symmetry; exact P|exact Hx]. Qed.
Lemma lots_perm pl ws ws' : Permutation ws ws' -> lots_ok pl ws -> lots_ok pl ws'.
Proof.
  intros P H w v u Hw Hv Hc Hl. apply (H w v u); auto; [eapply Permutation_in; [symmetry; exact P|exact Hw]|].
  destruct Hl as [Hl|(w' & v' & lot & A & B)]; [left; exact Hl|right]. exists w', v', lot. split; [eapply Permutation_in; [symmetry; exact P|exact A]|exact B].
Qed.
Lemma entries_perm ws ws' : Permutation ws ws' -> Permutation (full_entries ws) (full_entries ws').
Proof. intros P. unfold full_entries. apply Permutation_flat_map, P. Qed.
Lemma fit_perm ws ws' : Permutation ws ws' -> full_sums_fit ws -> full_sums_fit ws'.
Proof.
  intros P (s & L & F & S). exists s. split; [exact L|]. split.
  - rewrite Forall_forall in *. intros x Hx. apply F. eapply Permutation_in; [symmetry; exact P|exact Hx].
  - rewrite <- (sumZ_perm _ _ (Permutation_map (fun e => Z.abs (snd e)) (entries_perm _ _ P))). exact S.
Qed.
Lemma order_balance d c f args files verb ws d' c' f' args' files' verb' ws' :
  said_run d c f args files verb ws -> balance_verb verb -> said_run d' c' f' args' files' verb' ws' -> balance_verb verb' ->
  Forall xact_ok ws -> lots_ok (j_pool journal_new) ws -> full_sums_fit ws -> Permutation ws ws' ->
  exists out out', run d c f args = Ok out /\ run d' c' f' args' = Ok out' /\ same_report out out'.
Proof.
  intros A V A' V' K L S P. eapply same_entries_balance; eauto using xacts_perm, lots_perm, fit_perm, entries_perm.
Qed.
Lemma order_accounts d c f args files verb ws d' c' f' args' files' verb' ws' :
  said_run d c f args files verb ws -> accounts_verb verb -> said_run d' c' f' args' files' verb' ws' -> accounts_verb verb' ->
  Forall xact_ok ws -> lots_ok (j_pool journal_new) ws -> Permutation ws ws' ->
  exists out, run d c f args = Ok out /\ run d' c' f' args' = Ok out.
Proof.
  intros A V A' V' K L P. eapply same_entries_accounts; eauto using xacts_perm, lots_perm, entries_perm.
Qed.
