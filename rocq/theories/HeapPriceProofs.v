(** Proofs about price lookups with raw pointers. *)
From Coq Require Import String List NArith ZArith Bool Lia.
From Verif Require Import Base BaseFacts Decimal Dates Amount Balance Scanner History Pool Account Journal Xact Parser Report Options Lib Memory Heap HeapPrices.
From Verif Require Import SpecHeap SpecMemory SpecExact SpecHeapPrices PoolFacts MemoryFacts HeapFacts HeapTree HeapRead HeapReport HeapSafe HeapExactProofs.
Import ListNotations.
Open Scope nat_scope.

(** ** What holds of the pool throughout *)
Section Invariant.
Variable pol : policy.
Variable Q : hpool -> Prop.
Hypothesis Qfoc : forall p s ann, Q p -> Q (fst (hp_find_or_create pol p s ann)).
Hypothesis Qprice : forall p c w x p', Q p -> hp_add_price p c w x = Ok p' -> Q p'.
Lemma q_parts p q s : Q p -> Q (fst (h_amount_parts pol p q s)).
Proof. intros H. unfold h_amount_parts. pose proof (Qfoc p s None H) as X. destruct (hp_find_or_create pol p s None). exact X. Qed.
Lemma q_directive p line p' : Q p -> h_price_directive pol p line = Ok p' -> Q p'.
Proof.
  intros H E. unfold h_price_directive in E. inv_bind E. destruct v as [[[[d t] c] q] pc]. inv_bind E. inv_bind E. pose proof (Qfoc p c None H) as X. destruct (hp_find_or_create pol p c None) as [p1 c1]. inv_bind E.
  pose proof (Qfoc p1 pc None X) as Y. destruct (hp_find_or_create pol p1 pc None) as [p2 c2]. eapply Qprice; [exact Y|exact E].
Qed.
Lemma q_annotation p d q s r : Q p -> h_annotation_parse pol p d q s = Ok r -> Q (fst r).
Proof.
  intros H E. unfold h_annotation_parse in E. pose proof (Qfoc p s None H) as X. destruct (hp_find_or_create pol p s None) as [p1 c1]. inv_bind E. injection E as <-. exact X.
Qed.
Lemma q_cost p t amt r : Q p -> h_parse_cost pol p t amt = Ok r -> Q (fst r).
Proof.
  intros H E. unfold h_parse_cost in E. destruct amt as [a|]; [|injection E as <-; exact H]. destruct (is_empty _); [injection E as <-; exact H|].
  pose proof (q_parts p (t_cost_quantity t) (t_cost_symbol t) H) as X. destruct (h_amount_parts pol p (t_cost_quantity t) (t_cost_symbol t)) as [p1 cost]. destruct cost as [c|]; [|injection E as <-; exact X].
  destruct (t_is_per_unit t); [inv_bind E|]; injection E as <-; exact X.
Qed.
Lemma q_price_loop strict d posts : forall pool r, Q pool -> h_price_loop strict d pool posts = Ok r -> Q (fst r).
Proof.
  induction posts as [|p posts IH]; intros pool r H E; cbn [h_price_loop] in E; [injection E as <-; exact H|]. inv_bind E. destruct v as [pool' p'].
  assert (H' : Q pool').
  { destruct (ho_cost p) as [cost|]; [|injection EQ as <- _; exact H]. destruct (ho_amount p) as [amt|]; [|discriminate]. inv_bind EQ. inv_bind EQ. destruct (ocomm_eqb _ _); [discriminate|].
    inv_bind EQ. inv_bind EQ. destruct v2 as [bd np]. inv_bind EQ. injection EQ as <- _. destruct np as [pr|]; [eapply Qprice; eassumption|]. injection EQ4 as <-. exact H. }
  inv_bind E. destruct v as [pool'' ps]. injection E as <-. apply (IH _ _ H' EQ0).
Qed.
Lemma q_finalize_posts strict d pool posts r : Q pool -> h_finalize_posts strict d pool posts = Ok r -> Q (fst r).
Proof.
  intros H E. unfold h_finalize_posts in E. inv_bind E. destruct v as [b n]. destruct (_ =? _); [discriminate|]. inv_bind E. destruct v as [posts1 b1]. inv_bind E. destruct v as [pool' posts2].
  pose proof (q_price_loop _ _ _ _ _ H EQ1) as X. destruct n as [i|]; [|injection E as <-; exact X]. destruct b1 as [|b0 [|b2 b1]]; try discriminate. inv_bind E. injection E as <-. exact X.
Qed.
Lemma q_finalize strict h a h' : Q (h_pool h) -> h_finalize strict h a = Ok h' -> Q (h_pool h').
Proof.
  intros H E. unfold h_finalize in E. inv_bind E. destruct v as [xi x]. inv_bind E. destruct v as [pool posts]. injection E as <-. apply (q_finalize_posts _ _ _ _ _ H EQ0).
Qed.
Lemma q_note h a line h' : Q (h_pool h) -> h_note h a line = Ok h' -> Q (h_pool h').
Proof. intros H E. unfold h_note in E. destruct (is_empty _); [injection E as <-; exact H|]. inv_bind E. destruct v as [xi x]. injection E as <-. exact H. Qed.
Lemma q_create h line r : Q (h_pool h) -> h_create_xact pol h line = Ok r -> Q (h_pool (fst r)).
Proof. intros H E. unfold h_create_xact in E. inv_bind E. destruct v as [[[d aux] payee] note]. inv_bind E. injection E as <-. exact H. Qed.
Lemma q_post h a s h' : Q (h_pool h) -> h_parse_post pol h a s = Ok h' -> Q (h_pool h').
Proof.
  intros H E. unfold h_parse_post in E. inv_bind E. rename v into t. inv_bind E. destruct v as [m1 acct].
  pose proof (q_parts _ (t_quantity t) (t_symbol t) H) as H1. destruct (h_amount_parts pol (h_pool h) (t_quantity t) (t_symbol t)) as [p1 amt]. inv_bind E. destruct v as [p2 ann].
  pose proof (q_annotation _ _ _ _ _ H1 EQ1) as H2. pose proof (Qfoc p2 (t_symbol t) (Some ann) H2) as H3. destruct (hp_find_or_create pol p2 (t_symbol t) (Some ann)) as [p3 c3].
  inv_bind E. destruct v as [p4 cost]. pose proof (q_cost _ _ _ _ H3 EQ2) as H4. inv_bind E. destruct v as [xi x]. inv_bind E. inv_bind E. injection E as <-. exact H4.
Qed.
Definition nq (n : hnext) : Prop := match n with HContinue m h => Q (h_pool h) | HStop h => Q (h_pool h) end.
Lemma q_xact_line strict h a line n : Q (h_pool h) -> h_xact_line pol strict h a line = Ok n -> nq n.
Proof.
  intros K E. unfold h_xact_line in E.
  assert (F : forall n, (let* h' := h_finalize strict h a in Ok (HContinue HTop h')) = Ok n -> nq n) by (intros n0 X; inv_bind X; injection X as <-; eapply q_finalize; eassumption).
  assert (P : forall s n, (let* h' := h_parse_post pol h a s in Ok (HContinue (HIn a) h')) = Ok n -> nq n) by (intros s n0 X; inv_bind X; injection X as <-; eapply q_post; eassumption).
  assert (O : forall s n, (let* h' := h_note h a s in Ok (HContinue (HIn a) h')) = Ok n -> nq n) by (intros s n0 X; inv_bind X; injection X as <-; eapply q_note; eassumption).
  destruct line as [|c r]; [discriminate|].
  repeat match type of E with
  | context [match ?x with _ => _ end] => is_var x; destruct x; try discriminate; eauto
  | context [match trim_start ?l with _ => _ end] => destruct (trim_start l); eauto
  end.
Qed.
Definition inc_q (inc : str -> heap -> outcome heap) : Prop := forall s h h', Q (h_pool h) -> inc s h = Ok h' -> Q (h_pool h').
Lemma q_general inc h line h' : inc_q inc -> Q (h_pool h) -> h_general_directive pol inc h line = Ok h' -> Q (h_pool h').
Proof.
  intros IK K E. unfold h_general_directive in E. destruct (take_word line) as [d rest].
  assert (P : (let* p := h_price_directive pol (h_pool h) line in Ok (mkHeap (h_master h) p (h_xalloc h) (h_xacts h))) = Ok h' -> Q (h_pool h')) by (intros X; inv_bind X; injection X as <-; eapply q_directive; eassumption).
  destruct d as [|c r]; [discriminate|]. destruct (str_eqb (c :: r) (lit "include")), (str_eqb (c :: r) (lit "import")); destruct (fst (take_word rest));
  repeat match type of E with context [match ?x with _ => _ end] => is_var x; destruct x; try discriminate; eauto end.
Qed.
Lemma q_top_line inc h line n : inc_q inc -> Q (h_pool h) -> h_top_line pol inc h line = Ok n -> nq n.
Proof.
  intros IK K E. unfold h_top_line in E. destruct (_ || _); [injection E as <-; exact K|]. destruct line as [|c r]; [discriminate|]. destruct (_ || _); [injection E as <-; exact K|].
  destruct (_ =? _)%N; [injection E as <-; exact K|]. destruct (is_digit c).
  - inv_bind E. destruct v as [h1 ptr]. injection E as <-. apply (q_create _ _ _ K EQ).
  - destruct (_ || _); [discriminate|]. inv_bind E. injection E as <-. eapply q_general; eassumption.
Qed.
Lemma q_lines strict inc lines : inc_q inc -> forall m h h', Q (h_pool h) -> h_parse_lines pol strict inc m h lines = Ok h' -> Q (h_pool h').
Proof.
  intros IK. induction lines as [|l lines IH]; intros m h h' K E; cbn [h_parse_lines] in E.
  - destruct m as [|a]; [injection E as <-; exact K|eapply q_finalize; eassumption].
  - inv_bind E. assert (N : nq v).
    { unfold h_step in EQ. destruct m as [|a], l as [l|].
      - eapply q_top_line; eassumption.
      - injection EQ as <-. exact K.
      - eapply q_xact_line; eassumption.
      - inv_bind EQ. injection EQ as <-. eapply q_finalize; eassumption. }
    destruct v as [m' h1|h1]; [eapply IH; eassumption|injection E as <-; exact N].
Qed.
Lemma q_include strict depth cwd fs : inc_q (h_include_file pol strict depth cwd fs).
Proof.
  induction depth as [|d IH]; intros s h h' K E; cbn [h_include_file] in E; [discriminate|]. inv_bind E. destruct v as [src|]; [|injection E as <-; exact K].
  eapply q_lines; eassumption.
Qed.
Lemma q_files strict depth cwd fs files : forall h h', Q (h_pool h) -> fold_outcome (fun h f => h_parse_file pol strict depth cwd fs f h) files h = Ok h' -> Q (h_pool h').
Proof.
  induction files as [|f files IH]; intros h h' K E; cbn [fold_outcome] in E; [injection E as <-; exact K|]. inv_bind E. eapply IH; [|exact E].
  unfold h_parse_file in EQ. destruct (fs f) as [src|]; [|discriminate]. eapply q_lines; [apply q_include|exact K|exact EQ].
Qed.
End Invariant.

Section Program.
Variable pol : policy.
Hypothesis GR : grows pol.
Notation aft := (after (map_next pol)).
(** The commodities in the order in which they were made, and the pointers that were made with them. *)
Definition ordered (p : hpool) : Prop :=
  hp_alloc p = aft (length (hp_comms p)) /\ (length (hp_nodes p) = length (hp_comms p) /\ NoDup (map fst (hp_comms p)))
  /\ (forall s c, lookup s (hp_comms p) = Some c -> nth_error (hp_comms p) (c_index c) = Some (s, c))
  /\ forall i s c, nth_error (hp_comms p) i = Some (s, c) -> nth_error (hp_nodes p) i = Some (AComm (al_gen (aft (S i))) s).
Lemma lookup_snoc {A} k (m : list (str * A)) s a : lookup k m = None -> lookup s (m ++ [(k, a)]) = if str_eqb s k then Some a else lookup s m.
Proof. intros H. rewrite <- insert_keys_new by exact H. apply lookup_insert. Qed.
Lemma lookup_none_in {A} s (m : list (str * A)) : lookup s m = None -> ~ In s (map fst m).
Proof.
  induction m as [|[k x] m IH]; cbn; [tauto|]. destruct (str_eqb s k) eqn:E; [discriminate|]. intros L [X|X]; [subst k; rewrite str_eqb_refl in E; discriminate|exact (IH L X)].
Qed.
Lemma ordered_foc p s ann : ordered p -> ordered (fst (hp_find_or_create pol p s ann)).
Proof.
  intros (A & (L & ND) & I1 & I2). unfold hp_find_or_create. destruct s as [|x s]; [repeat split; assumption|]. set (k := x :: s). destruct (lookup k (hp_comms p)) as [d|] eqn:E.
  - destruct ann as [an|]; [destruct (lookup k (hp_ann p))|]; repeat split; assumption.
  - unfold hp_create. cbn [fst]. unfold ordered. cbn [hp_alloc hp_comms hp_nodes]. rewrite insert_keys_new by exact E. rewrite !app_length. cbn [length]. rewrite !Nat.add_1_r.
    split; [rewrite A; reflexivity|]. split; [split; [congruence|rewrite map_app; apply nodup_snoc; [exact ND|apply lookup_none_in, E]]|]. split.
    + intros s' c. rewrite lookup_snoc by exact E. destruct (str_eqb s' k) eqn:K.
      * intros X. injection X as <-. apply str_eqb_eq in K. subst s'. cbn [c_index]. rewrite nth_error_app2 by lia. rewrite L, Nat.sub_diag. reflexivity.
      * intros X. apply I1 in X. rewrite nth_error_app1; [exact X|]. apply nth_error_Some. congruence.
    + intros i s' c X. destruct (Nat.lt_ge_cases i (length (hp_comms p))) as [Y|Y].
      * rewrite nth_error_app1 in X by exact Y. rewrite nth_error_app1 by lia. eapply I2, X.
      * rewrite nth_error_app2 in X by exact Y. assert (i = length (hp_comms p)). { destruct (i - length (hp_comms p)) as [|j] eqn:J; [lia|]. destruct j; discriminate X. }
        subst i. rewrite Nat.sub_diag in X. injection X as <- <-. rewrite nth_error_app2 by lia. rewrite L, Nat.sub_diag. cbn [nth_error]. rewrite A. reflexivity.
Qed.
Lemma price_same p c w x p' : hp_add_price p c w x = Ok p' -> hp_alloc p' = hp_alloc p /\ hp_comms p' = hp_comms p /\ hp_nodes p' = hp_nodes p.
Proof. intros E. unfold hp_add_price in E. inv_bind E. inv_bind E. destruct (ocomm_eqb _ _); [discriminate|]. inv_bind E. injection E as <-. auto. Qed.
Lemma ordered_price p c w x p' : ordered p -> hp_add_price p c w x = Ok p' -> ordered p'.
Proof. intros O E. destruct (price_same _ _ _ _ _ E) as (A & B & C). unfold ordered. rewrite A, B, C. exact O. Qed.
(** Commodities stay. *)
Definition since (p0 p : hpool) : Prop := exists l, hp_comms p = hp_comms p0 ++ l.
Lemma since_foc p0 p s ann : since p0 p -> since p0 (fst (hp_find_or_create pol p s ann)).
Proof.
  intros (l & E). unfold hp_find_or_create. destruct s as [|x s]; [exists l; exact E|]. set (k := x :: s). destruct (lookup k (hp_comms p)) as [d|] eqn:F.
  - destruct ann as [an|]; [destruct (lookup k (hp_ann p))|]; exists l; exact E.
  - unfold hp_create. cbn [fst]. unfold since. cbn [hp_comms]. rewrite insert_keys_new by exact F. rewrite E, <- app_assoc. eauto.
Qed.
Lemma since_price p0 p c w x p' : since p0 p -> hp_add_price p c w x = Ok p' -> since p0 p'.
Proof. intros O E. destruct (price_same _ _ _ _ _ E) as (_ & B & _). unfold since. rewrite B. exact O. Qed.
Lemma files_ordered strict depth cwd fs files h : h_read_files pol strict depth cwd fs files = Ok h -> ordered (h_pool h).
Proof.
  intros E. eapply (q_files pol ordered ordered_foc ordered_price); [|exact E]. split; [reflexivity|]. split; [split; [reflexivity|constructor]|]. split; [discriminate|]. intros [|i] s c X; discriminate X.
Qed.
Lemma files_since strict depth cwd fs files h h' : fold_outcome (fun h f => h_parse_file pol strict depth cwd fs f h) files h = Ok h' -> since (h_pool h) (h_pool h').
Proof. intros E. eapply (q_files pol (since (h_pool h)) (since_foc _) (since_price _)); [|exact E]. exists []. symmetry. apply app_nil_r. Qed.
Lemma fold_app_ok {A S} (step : S -> A -> outcome S) l1 l2 s s' : fold_outcome step (l1 ++ l2) s = Ok s' -> exists s1, fold_outcome step l1 s = Ok s1 /\ fold_outcome step l2 s1 = Ok s'.
Proof. revert s. induction l1 as [|a l1 IH]; intros s E; cbn [app fold_outcome] in E |- *; [eauto|]. inv_bind E. apply IH in E as (s1 & E1 & E2). exists s1. rewrite EQ. cbn [bind]. auto. Qed.
Lemma lookup_app_some {A} s (m l : list (str * A)) a : lookup s m = Some a -> lookup s (m ++ l) = Some a.
Proof. induction m as [|[k b] m IH]; cbn; [discriminate|]. destruct (str_eqb s k); [auto|exact IH]. Qed.
Lemma lookup_pos {A} s (m : list (str * A)) a : lookup s m = Some a -> 1 <= length m.
Proof. destruct m; [discriminate|cbn; lia]. Qed.

(** A pointer got from the pool at an earlier time. *)
Lemma kept_pointer p0 p s a : ordered p0 -> ordered p -> since p0 p -> hp_find p0 s = Some a ->
  exists c, lookup s (hp_comms p) = Some c /\
  (~ moved (map_next pol) (length (hp_comms p0)) (length (hp_comms p)) -> hp_find p s = Some a /\ h_from_ptr p (Some a) = Ok c)
  /\ (moved (map_next pol) (length (hp_comms p0)) (length (hp_comms p)) -> h_from_ptr p (Some a) = Panic PNull).
Proof.
  intros (A0 & _) (A & _) (l & E) F. unfold hp_find in F. destruct (lookup s (hp_comms p0)) as [c|] eqn:L0; [|discriminate]. injection F as <-.
  assert (L : lookup s (hp_comms p) = Some c) by (rewrite E; apply lookup_app_some, L0). exists c. split; [exact L|].
  assert (N : 1 <= length (hp_comms p0) <= length (hp_comms p)) by (split; [eapply lookup_pos, L0|rewrite E, app_length; lia]).
  pose proof (same_alloc (map_next pol) (proj2 GR) _ _ N) as SA. unfold hp_find. rewrite L. cbn [h_from_ptr h_commodity]. rewrite A0, A, L. split.
  - intros M. apply SA in M. rewrite M, Nat.eqb_refl. auto.
  - intros M. destruct (Nat.eqb_spec (al_gen (aft (length (hp_comms p0)))) (al_gen (aft (length (hp_comms p))))) as [X|X]; [|reflexivity]. apply SA in X. contradiction.
Qed.
Lemma node_pointer p s c : ordered p -> lookup s (hp_comms p) = Some c ->
  (~ moved (map_next pol) (S (c_index c)) (length (hp_comms p)) -> h_by_symbol p s = Ok c)
  /\ (moved (map_next pol) (S (c_index c)) (length (hp_comms p)) -> h_by_symbol p s = Panic PNull).
Proof.
  intros (A & _ & I1 & I2) L. pose proof (I1 _ _ L) as N. pose proof (I2 _ _ _ N) as N2. unfold h_by_symbol. rewrite L. cbn [unwrap bind]. unfold hp_get_by_index. rewrite N2. cbn [unwrap bind h_commodity]. rewrite A, L.
  assert (B : 1 <= S (c_index c) <= length (hp_comms p)) by (split; [lia|]; apply nth_error_Some; congruence).
  pose proof (same_alloc (map_next pol) (proj2 GR) _ _ B) as SA. split.
  - intros M. apply SA in M. rewrite M, Nat.eqb_refl. reflexivity.
  - intros M. destruct (Nat.eqb_spec (al_gen (aft (S (c_index c)))) (al_gen (aft (length (hp_comms p))))) as [X|X]; [|reflexivity]. apply SA in X. contradiction.
Qed.
End Program.

(** ** Lookups *)
Lemma find_fresh p s a : hp_find p s = Some a -> a = AComm (al_gen (hp_alloc p)) s /\ exists c, lookup s (hp_comms p) = Some c /\ h_from_ptr p (Some a) = Ok c.
Proof.
  unfold hp_find. destruct (lookup s (hp_comms p)) as [c|] eqn:L; [|discriminate]. intros E. injection E as <-. split; [reflexivity|]. exists c. split; [reflexivity|].
  cbn [h_from_ptr h_commodity]. rewrite Nat.eqb_refl, L. reflexivity.
Qed.
Lemma fresh_lookup astar p s t a b now moment oldest : hp_find p s = Some a -> hp_find p t = Some b ->
  h_find_price astar p (Some a) (Some b) now moment oldest
  = let* r := pool_find_price astar (v_pool p) (Some s) (Some t) now moment oldest in Ok (with_pointer b r).
Proof.
  intros Fs Ft. destruct (find_fresh _ _ _ Fs) as (-> & c & Lc & Dc). destruct (find_fresh _ _ _ Ft) as (-> & d & Ld & Dd).
  unfold h_find_price, pool_find_price. cbn [ptr_eqb addr_eqb comm_eqb]. rewrite Nat.eqb_refl. cbn [andb]. destruct (str_eqb s t); [reflexivity|].
  rewrite Dc, Dd. unfold deref, pool_find. cbn [v_pool p_comms p_hist]. rewrite Lc, Ld. cbn [bind]. unfold find_price. destruct (astar _ _ _) as [[dist path]|]; [|reflexivity].
  match goal with |- bind ?x _ = _ => destruct x as [[dd q]|e|] end; reflexivity.
Qed.
Section Files.
Variable pol : policy.
Hypothesis GR : grows pol.
Lemma read_view strict depth cwd fs files h : h_read_files pol strict depth cwd fs files = Ok h -> read_journal_files depth cwd fs files = Ok (view h).
Proof. intros E. pose proof (files_agree pol strict depth cwd fs files) as A. rewrite E in A. exact (proj1 A). Qed.
Lemma read_more strict depth cwd fs files1 files2 h1 h2 : h_read_files pol strict depth cwd fs files1 = Ok h1 -> h_read_files pol strict depth cwd fs (files1 ++ files2) = Ok h2 -> since (h_pool h1) (h_pool h2).
Proof. intros E1 E2. unfold h_read_files in *. apply fold_app_ok in E2 as (h1' & X & Y). rewrite E1 in X. injection X as <-. eapply files_since, Y. Qed.
Lemma fresh_files strict depth cwd fs files h j : h_read_files pol strict depth cwd fs files = Ok h -> read_journal_files depth cwd fs files = Ok j ->
  forall astar s t a b now moment oldest, hp_find (h_pool h) s = Some a -> hp_find (h_pool h) t = Some b ->
  h_find_price astar (h_pool h) (Some a) (Some b) now moment oldest = let* r := pool_find_price astar (j_pool j) (Some s) (Some t) now moment oldest in Ok (with_pointer b r).
Proof. intros E J astar s t a b now moment oldest Fs Ft. apply read_view in E. rewrite J in E. injection E as ->. apply fresh_lookup; assumption. Qed.
Lemma found_files strict depth cwd fs files h j : h_read_files pol strict depth cwd fs files = Ok h -> read_journal_files depth cwd fs files = Ok j ->
  forall s, (exists a, hp_find (h_pool h) s = Some a) <-> exists c, In (s, c) (p_comms (j_pool j)).
Proof.
  intros E J s. pose proof (read_view _ _ _ _ _ _ E) as V. rewrite J in V. injection V as ->. cbn [view j_pool v_pool p_comms]. unfold hp_find. split.
  - intros (a & F). destruct (lookup s (hp_comms (h_pool h))) as [c|] eqn:L; [|discriminate]. exists c. destruct (files_ordered pol _ _ _ _ _ _ E) as (_ & _ & I1 & _). eapply nth_error_In, I1, L.
  - intros (c & I). destruct (lookup s (hp_comms (h_pool h))) as [d|] eqn:L; [eauto|]. exfalso. revert I L. generalize (hp_comms (h_pool h)). clear. intros m. induction m as [|[k x] m IH]; [intros []|]. intros [X|X] L; cbn in L.
    + injection X as -> ->. rewrite str_eqb_refl in L. discriminate.
    + destruct (str_eqb s k); [discriminate|]. exact (IH X L).
Qed.
Lemma kept_files strict depth cwd fs files1 files2 h1 h2 j1 j2 : h_read_files pol strict depth cwd fs files1 = Ok h1 -> h_read_files pol strict depth cwd fs (files1 ++ files2) = Ok h2 ->
  read_journal_files depth cwd fs files1 = Ok j1 -> read_journal_files depth cwd fs (files1 ++ files2) = Ok j2 ->
  forall astar s t a b now moment oldest, hp_find (h_pool h1) s = Some a -> hp_find (h_pool h1) t = Some b -> s <> t ->
  let r := h_find_price astar (h_pool h2) (Some a) (Some b) now moment oldest in
  (~ moved (map_next pol) (commodities j1) (commodities j2) -> r = let* r := pool_find_price astar (j_pool j2) (Some s) (Some t) now moment oldest in Ok (with_pointer b r))
  /\ (moved (map_next pol) (commodities j1) (commodities j2) -> r = Panic PNull).
Proof.
  intros E1 E2 J1 J2 astar s t a b now moment oldest Fs Ft N r.
  pose proof (read_view _ _ _ _ _ _ E1) as V1. rewrite J1 in V1. injection V1 as ->. pose proof (read_view _ _ _ _ _ _ E2) as V2. rewrite J2 in V2. injection V2 as ->.
  unfold commodities. cbn [view j_pool v_pool p_comms]. pose proof (files_ordered pol _ _ _ _ _ _ E1) as O1. pose proof (files_ordered pol _ _ _ _ _ _ E2) as O2. pose proof (read_more _ _ _ _ _ _ _ _ E1 E2) as S.
  destruct (kept_pointer pol GR _ _ _ _ O1 O2 S Fs) as (c & _ & A1 & A2). destruct (kept_pointer pol GR _ _ _ _ O1 O2 S Ft) as (d & _ & B1 & B2). split; intros M.
  - apply (fresh_lookup astar (h_pool h2)); [apply A1, M|apply B1, M].
  - unfold r, h_find_price. destruct (find_fresh _ _ _ Fs) as (Ea & _). destruct (find_fresh _ _ _ Ft) as (Eb & _). assert (X : ptr_eqb (Some a) (Some b) = false).
    { rewrite Ea, Eb. cbn. rewrite Nat.eqb_refl. cbn. destruct (str_eqb s t) eqn:Y; [|reflexivity]. apply str_eqb_eq in Y. contradiction. }
    rewrite X, (A2 M). reflexivity.
Qed.
Lemma mixed_files strict depth cwd fs files1 files2 h1 h2 j1 j2 : h_read_files pol strict depth cwd fs files1 = Ok h1 -> h_read_files pol strict depth cwd fs (files1 ++ files2) = Ok h2 ->
  read_journal_files depth cwd fs files1 = Ok j1 -> read_journal_files depth cwd fs (files1 ++ files2) = Ok j2 ->
  forall astar s t a b now moment oldest, hp_find (h_pool h1) s = Some a -> hp_find (h_pool h2) t = Some b -> moved (map_next pol) (commodities j1) (commodities j2) ->
  h_find_price astar (h_pool h2) (Some a) (Some b) now moment oldest = Panic PNull /\ h_find_price astar (h_pool h2) (Some b) (Some a) now moment oldest = Panic PNull.
Proof.
  intros E1 E2 J1 J2 astar s t a b now moment oldest Fs Ft M.
  pose proof (read_view _ _ _ _ _ _ E1) as V1. rewrite J1 in V1. injection V1 as ->. pose proof (read_view _ _ _ _ _ _ E2) as V2. rewrite J2 in V2. injection V2 as ->.
  unfold commodities in M. cbn [view j_pool v_pool p_comms] in M. pose proof (files_ordered pol _ _ _ _ _ _ E1) as O1. pose proof (files_ordered pol _ _ _ _ _ _ E2) as O2. pose proof (read_more _ _ _ _ _ _ _ _ E1 E2) as S.
  destruct (kept_pointer pol GR _ _ _ _ O1 O2 S Fs) as (c & _ & _ & A2). specialize (A2 M). destruct (find_fresh _ _ _ Ft) as (Eb & d & _ & Db).
  assert (X : addr_eqb a b = false /\ addr_eqb b a = false).
  { destruct (find_fresh _ _ _ Fs) as (Ea & _). subst a b. destruct (Nat.eq_dec (al_gen (hp_alloc (h_pool h1))) (al_gen (hp_alloc (h_pool h2)))) as [Y|Y].
    - exfalso. cbn [h_from_ptr h_commodity] in A2. rewrite Y, Nat.eqb_refl in A2. destruct (kept_pointer pol GR _ _ _ _ O1 O2 S Fs) as (c' & L & _). rewrite L in A2. discriminate.
    - cbn. split; [apply Nat.eqb_neq in Y; rewrite Y; reflexivity|]. apply Nat.neq_sym, Nat.eqb_neq in Y. rewrite Y. reflexivity. }
  unfold h_find_price. cbn [ptr_eqb]. rewrite (proj1 X), (proj2 X), A2, Db. auto.
Qed.
Lemma node_files strict depth cwd fs files h j : h_read_files pol strict depth cwd fs files = Ok h -> read_journal_files depth cwd fs files = Ok j ->
  forall s i, made_as j s i -> (~ moved (map_next pol) (S i) (commodities j) -> exists c, h_by_symbol (h_pool h) s = Ok c /\ c_symbol c = s)
  /\ (moved (map_next pol) (S i) (commodities j) -> h_by_symbol (h_pool h) s = Panic PNull).
Proof.
  intros E J s i (c & N). pose proof (files_agree pol strict depth cwd fs files) as AG. rewrite E in AG. destruct AG as (V & K & _). rewrite J in V. injection V as ->. unfold commodities. cbn [view j_pool v_pool p_comms] in *.
  pose proof (files_ordered pol _ _ _ _ _ _ E) as O. pose proof O as (_ & _ & I1 & _).
  assert (F : exists a, hp_find (h_pool h) s = Some a) by (apply (found_files _ _ _ _ _ _ _ E J); exists c; eapply nth_error_In, N).
  destruct F as (a & F). unfold hp_find in F. destruct (lookup s (hp_comms (h_pool h))) as [d|] eqn:L; [|discriminate]. pose proof (I1 _ _ L) as N'.
  assert (c_index d = i) as <-.
  { pose proof O as (_ & (_ & ND) & _). apply (proj1 (NoDup_nth_error _) ND); [rewrite map_length; apply nth_error_Some; congruence|]. rewrite !nth_error_map, N, N'. reflexivity. }
  destruct (node_pointer pol GR _ _ _ O L) as (A & B). split; [intros M; exists d; split; [apply A, M|apply K, L]|exact B].
Qed.
End Files.
