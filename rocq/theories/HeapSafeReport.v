(** When the program with pointers has defined behaviour: the reports and the command. *)
From Coq Require Import String List NArith ZArith Bool Lia.
From Verif Require Import Base BaseFacts Decimal Dates Amount Balance Scanner History Pool Account Journal Xact Parser Report Options Lib Memory Heap.
From Verif Require Import SpecHeap AccountFacts MemoryFacts ReportFacts HeapFacts HeapTree HeapRead SpecAccount SpecJournal JournalFacts.
From Verif Require Import SpecMemory HeapReport HeapSafe HeapSafeTree HeapSafeRead.
Import ListNotations.
Open Scope nat_scope.

Section Program.
Variable pol : policy.
Hypothesis GR : grows pol.

(** ** Subtrees *)
Lemma tgood_sub pb t : tgood pol pb [] is_master t -> forall p s, get_hacct t p = Some s -> exists here, tgood pol pb p here s
  /\ (p = [] /\ here = is_master \/ exists q n s0, p = q ++ [n] /\ get_hacct t q = Some s0 /\ here = had pol q (length (hc_children s0)) n).
Proof.
  intros T p. induction p as [|n q IH] using rev_ind; intros s G.
  - injection G as <-. exists is_master. auto.
  - rewrite get_snoc in G. destruct (get_hacct t q) as [s0|] eqn:E; [|discriminate]. destruct (IH s0 eq_refl) as (here & T0 & _).
    inversion T0 as [m par al cs ps A P H C]; subst. cbn [hc_children] in G. pose proof (hfind_name _ _ _ G) as N. pose proof (hfind_in' _ _ _ G) as X.
    exists (had pol q (length cs) n). split; [rewrite <- N; apply C, X|]. right. exists q, n, (HAcct m par (after (map_next pol) (length cs)) cs ps). auto.
Qed.
Lemma tgood_parent pb t q n c : tgood pol pb [] is_master t -> get_hacct t (q ++ [n]) = Some c -> exists b, hc_parent c = Some b
  /\ (q = [] /\ b = AMaster \/ exists q0 n0 s0, q = q0 ++ [n0] /\ get_hacct t q0 = Some s0 /\ had pol q0 (length (hc_children s0)) n0 b).
Proof.
  intros T G. rewrite get_snoc in G. destruct (get_hacct t q) as [s|] eqn:E; [|discriminate]. destruct (tgood_sub _ _ T _ _ E) as (here & T0 & HH).
  inversion T0 as [m par al cs ps A P H C]; subst. destruct (H c (hfind_in' _ _ _ G)) as (b & EB & HB). exists b. split; [exact EB|].
  destruct HH as [[-> ->]|(q0 & n0 & s0 & -> & G0 & ->)]; [left; auto|right]. exists q0, n0, s0. auto.
Qed.

Section Heap.
Variable h : heap.
Hypothesis G : good pol HTop h.
Hypothesis SP : forall x, In x (h_xacts h) -> length (hx_posts x) <= vec_next pol 0.
(** The parent pointers are valid. *)
Hypothesis parent_valid : forall q n c, get_hacct (h_master h) (q ++ [n]) = Some c -> exists b, hc_parent c = Some b /\ h_account (h_master h) b = Ok q /\ exists s, get_hacct (h_master h) q = Some s.

Lemma up_fine q : forall fuel a full, h_account (h_master h) a = Ok q -> length q < fuel -> fine any (h_up fuel (h_master h) (Some a) full).
Proof.
  pose proof (g_ainv _ _ _ G) as [K (R1 & R2 & R3)].
  induction q as [|n q IH] using rev_ind; intros fuel a full EA L; (destruct fuel as [|f]; [lia|]); cbn [h_up]; rewrite EA; cbn [bind].
  - cbn [get_hacct]. rewrite R2. destruct f; exact I.
  - destruct (account_found _ _ _ EA) as (c & E). rewrite E. destruct (parent_valid _ _ _ E) as (b & -> & EB & _). apply IH; [exact EB|]. rewrite app_length in L. cbn in L. lia.
Qed.
Lemma fullname_fine p a : get_hacct (h_master h) p = Some a -> fine any (h_fullname (length p) (h_master h) a).
Proof.
  intros E. unfold h_fullname. destruct (path_snoc p) as [->|(q & n & ->)].
  - cbn in E. injection E as <-. pose proof (g_ainv _ _ _ G) as [_ (_ & -> & _)]. exact I.
  - destruct (parent_valid _ _ _ E) as (b & -> & EB & _). apply (up_fine q); [exact EB|]. rewrite app_length. cbn. lia.
Qed.
Lemma post_fine a : pborn pol (h_xacts h) a -> fine (vpost (h_pool h)) (h_post (h_xacts h) a).
Proof.
  intros (xi & x & k & -> & N & K). cbn [h_post]. rewrite N. pose proof (g_xacts _ _ _ G) as GX. rewrite Forall_forall in GX. destruct (GX x (nth_error_In _ _ N)) as [P ->].
  rewrite (small_same (vec_next pol) (proj1 GR) (S k) (length (hx_posts x))); [|lia|apply SP, (nth_error_In _ _ N)]. rewrite Nat.eqb_refl.
  destruct (nth_error (hx_posts x) k) as [p|] eqn:E; [|apply nth_error_None in E; lia]. rewrite Forall_forall in P. apply P, (nth_error_In _ _ E).
Qed.
Lemma fold_fine {A S} (P : A -> Prop) (Q : S -> Prop) step l : Forall P l -> (forall s a, P a -> Q s -> fine Q (step s a)) -> forall s, Q s -> fine Q (fold_outcome step l s).
Proof. intros F H. induction F as [|a l PA F IH]; intros s QS; cbn [fold_outcome]; [exact QS|]. eapply fine_bind; [apply H; assumption|]. intros s' _. apply IH. Qed.
Lemma amount_fine refs : Forall (pborn pol (h_xacts h)) refs -> fine (vbal (h_pool h)) (h_account_amount (h_pool h) (h_xacts h) refs).
Proof.
  intros F. unfold h_account_amount. apply (fold_fine _ _ _ _ F); [|constructor]. intros b r R B. eapply fine_bind; [apply post_fine, R|].
  intros p _ [VA _]. destruct (ho_amount p) as [a|]; [|exact B]. eapply fine_weaken; [|apply badd_fine; [exact B|exact VA]]. intros b' _ [B' _]. exact B'.
Qed.
Lemma insert_forall {A} (P : str * A -> Prop) x l : P x -> Forall P l -> Forall P (insert_key x l).
Proof. intros X F. induction F as [|y l Y F IH]; cbn [insert_key]; [auto|]. destruct (str_leb _ _); auto. Qed.
Lemma sort_forall {A} (P : str * A -> Prop) l : Forall P l -> Forall P (sort_key l).
Proof. intros F. induction F as [|x l X F IH]; cbn; [constructor|]. apply insert_forall; assumption. Qed.
Lemma kids_forall {A} (P : A -> Prop) (f : hacct -> A) cs : (forall c, In c cs -> P (f c)) -> Forall (fun u => P (snd u)) (sort_key (map (fun c => (hc_name c, f c)) cs)).
Proof. intros H. apply sort_forall. rewrite Forall_map, Forall_forall. exact H. Qed.
Lemma total_fine a : forall p here, tgood pol (pborn pol (h_xacts h)) p here a -> fine (vbal (h_pool h)) (h_total (h_pool h) (h_xacts h) a).
Proof.
  induction a as [n par al cs ps IH] using hacct_ind'. intros p here T. inversion T as [? ? ? ? ? A P H C]; subst. cbn [h_total hc_children hc_posts].
  eapply (fine_bind (vbal (h_pool h))); [eapply (fold_fine (fun u => fine (vbal (h_pool h)) (snd u))); [apply kids_forall| |constructor]|].
  - intros c X. rewrite Forall_forall in IH. eapply IH; [exact X|apply C, X].
  - intros t u U B. eapply fine_bind; [exact U|]. intros b _ B'. apply baddbal_fine; assumption.
  - intros t _ B. eapply fine_bind; [apply amount_fine, P|]. intros own _ B'. apply baddbal_fine; assumption.
Qed.
Lemma text_fine b : vbal (h_pool h) b -> fine any (h_balance_text (h_pool h) b).
Proof.
  intros V. unfold h_balance_text. apply (fold_fine _ any _ _ V); [|exact I]. intros s a A _. unfold h_amount_text. destruct (vptr_get _ _ A) as (c & ->). exact I.
Qed.
Lemma lines_fine a : forall p, wf_tree (v_account a) -> get_hacct (h_master h) p = Some a -> fine any (h_children_lines h (length p) a).
Proof.
  induction a as [n par al cs ps IH] using hacct_ind'. intros p W E. cbn [h_children_lines hc_children].
  assert (N : NoDup (map hc_name cs)) by (cbn [v_account] in W; inversion W as [? ? ? N _ _]; subst; rewrite names_view in N; exact N).
  assert (WC : forall c, In c cs -> wf_tree (v_account c)).
  { cbn [v_account] in W. inversion W as [? ? ? _ _ WC]; subst. intros c X. apply WC, in_map, X. }
  destruct (tgood_sub _ _ (g_tree _ _ _ G) _ _ E) as (here & T & _).
  eapply fine_bind; [eapply total_fine, T|]. intros b _ B. eapply fine_bind; [apply text_fine, B|]. intros t _ _.
  eapply fine_bind; [apply fullname_fine, E|]. intros nm _ _.
  eapply (fold_fine (fun u => fine any (snd u)) any); [apply (kids_forall (fine any))| |exact I].
  - intros c X. rewrite Forall_forall in IH. replace (S (length p)) with (length (p ++ [hc_name c])) by (rewrite app_length; cbn; lia).
    apply IH; [exact X|apply WC, X|]. rewrite get_snoc, E. cbn [hc_children]. apply hfind_in; assumption.
  - intros ls u U _. eapply fine_bind; [exact U|]. intros l _ _. exact I.
Qed.
End Heap.

(** With few accounts beside each other, they are. *)
Lemma small_parents h : good pol HTop h -> (forall p s, get_hacct (h_master h) p = Some s -> length (hc_children s) <= map_next pol 0) ->
  forall q n c, get_hacct (h_master h) (q ++ [n]) = Some c -> exists b, hc_parent c = Some b /\ h_account (h_master h) b = Ok q /\ exists s, get_hacct (h_master h) q = Some s.
Proof.
  intros G SC q n c E. destruct (tgood_parent _ _ _ _ _ (g_tree _ _ _ G) E) as (b & EB & HB). exists b. split; [exact EB|].
  assert (X : exists s, get_hacct (h_master h) q = Some s) by (rewrite get_snoc in E; destruct (get_hacct (h_master h) q); [eauto|discriminate]).
  split; [|exact X]. destruct HB as [[-> ->]|(q0 & n0 & s0 & -> & G0 & k & K & ->)]; [reflexivity|]. cbn [h_account]. rewrite G0.
  destruct X as (s & X). rewrite get_snoc, G0 in X. rewrite X. destruct (tgood_sub _ _ (g_tree _ _ _ G) _ _ G0) as (here & T0 & _).
  inversion T0 as [m par al cs ps A P H C]; subst. cbn [hc_alloc hc_children] in *.
  rewrite (small_same (map_next pol) (proj2 GR) k (length cs)); [rewrite Nat.eqb_refl; reflexivity|exact K|apply (SC _ _ G0)].
Qed.

(** ** The command *)
Lemma unpriced_all j : all_priced j -> ~ unpriced j.
Proof. intros H (p & a & X & E & N). exact (H p a X E N). Qed.
Lemma read_defined strict depth cwd fs files j : read_journal_files depth cwd fs files = Ok j -> few_commodities pol j -> (strict = true -> all_priced j) ->
  exists h, h_read_files pol strict depth cwd fs files = Ok h /\ view h = j.
Proof.
  intros R F S. destruct (files_good pol strict GR depth cwd fs files j R) as (h & E & V & _); [|eauto]. split; [exact F|]. intros T. apply unpriced_all, S, T.
Qed.
Lemma run_defined strict depth cwd fs args cmds files j : process_arguments args = Ok (cmds, files) -> read_journal_files depth cwd fs files = Ok j ->
  few_commodities pol j -> few_postings pol j -> few_children pol j -> (strict = true -> all_priced j) ->
  h_run pol strict depth cwd fs args = run depth cwd fs args.
Proof.
  intros A R F1 F2 F3 S. destruct (agree_or _ _ (run_agree pol strict depth cwd fs args)) as [E|E]; [|exact E]. exfalso. revert E.
  destruct (files_good pol strict GR depth cwd fs files j R) as (h & E & V & G); [split; [exact F1|intros T; apply unpriced_all, S, T]|].
  pose proof R as R'. apply files_reachable, reachable_inv in R'. destruct R' as [W _ _ _ _]. subst j.
  unfold h_run. rewrite A. cbn [bind]. unfold h_execute_command. destruct (nth_error cmds 0) as [verb|]; [|discriminate]. cbn [unwrap bind]. rewrite E. cbn [bind].
  assert (B : h_balance_report h <> Panic PNull).
  { apply (fine_not any). apply (lines_fine h G) with (p := []); [|apply (small_parents h G)|exact W|reflexivity].
    - intros x X. unfold few_postings in F2. specialize (F2 (v_xact x)). cbn [view j_xacts v_xact x_posts] in F2. rewrite map_length in F2. apply F2, in_map, X.
    - intros p s X. specialize (F3 p (v_account s)). cbn [view j_master] in F3. rewrite v_get, X in F3. specialize (F3 eq_refl). rewrite v_children, map_length in F3. exact F3. }
  destruct verb as [|c verb]; [discriminate|]. destruct (N.eq_dec c 97) as [->|N1]; [discriminate|]. destruct (N.eq_dec c 98) as [->|N2]; [destruct (_ || _); [exact B|discriminate]|].
  assert (X : forall (T : Type) (x y z : T), match c with 97%N => x | 98%N => y | _ => z end = z).
  { intros. destruct c as [|c]; [reflexivity|]. repeat (destruct c as [c|c|]; try reflexivity); congruence. }
  rewrite !X. discriminate.
Qed.
End Program.
