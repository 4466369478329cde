(** When the program with pointers has defined behaviour: reading. *)
From Coq Require Import String List NArith ZArith Bool Lia.
From Verif Require Import Base BaseFacts Decimal Dates Amount Balance Scanner History Pool Account Journal Xact Parser Report Options Lib Memory Heap.
From Verif Require Import SpecXact SpecHeap SpecMemory XactFacts JournalFacts MemoryFacts HeapFacts HeapTree HeapRead HeapSafe HeapSafeTree.
Import ListNotations.
Open Scope nat_scope.

(** ** Reading adds commodities, and keeps the amounts of postings *)
Definition up (ps : list post) : Prop := exists p a, In p ps /\ po_amount p = Some a /\ a_c a = None.
Definition unpriced (j : journal) : Prop := up (all_posts j).
Definition comms (j : journal) : nat := length (p_comms (j_pool j)).
Definition more (j0 : journal) (m : mode) (j : journal) : Prop := comms j0 <= comms j /\ (unpriced j0 -> unpriced j).
Lemma up_same ps ps' : Forall2 same_posting ps ps' -> up ps -> up ps'.
Proof.
  induction 1 as [|p q ps ps' (_ & _ & A) F IH]; intros (x & a & X & E & N); [destruct X|]. destruct X as [->|X].
  - exists q, a. split; [left; reflexivity|]. auto.
  - destruct IH as (y & b & Y & Q); [exists x, a; auto|]. exists y, b. split; [right; exact Y|exact Q].
Qed.
Lemma up_update xs i f : (forall x, nth_error xs i = Some x -> up (x_posts x) -> up (x_posts (f x))) -> up (flat_map x_posts xs) -> up (flat_map x_posts (update_nth i f xs)).
Proof.
  intros H (p & a & X & Q). apply in_flat_map in X as (x & X & P). apply In_nth_error in X as (k & X).
  assert (U : forall y, nth_error (update_nth i f xs) k = Some y -> up (x_posts y) -> up (flat_map x_posts (update_nth i f xs))).
  { intros y Y (p' & a' & P' & Q'). exists p', a'. split; [|exact Q']. apply in_flat_map. exists y. split; [eapply nth_error_In, Y|exact P']. }
  rewrite nth_error_update_nth in U. destruct (Nat.eqb_spec k i) as [->|N].
  - rewrite X in U. eapply U; [reflexivity|]. apply (H x X). exists p, a. auto.
  - eapply U; [exact X|]. exists p, a. auto.
Qed.
Lemma pfoc_length p s ann : length (p_comms p) <= length (p_comms (fst (pool_find_or_create p s ann))).
Proof.
  unfold pool_find_or_create, pool_find. destruct s as [|c s]; [cbn; lia|]. destruct (lookup (c :: s) (p_comms p)) eqn:E.
  - destruct ann; [destruct (lookup (c :: s) (p_ann p))|]; cbn; lia.
  - unfold pool_create. destruct (add_commodity _ _). cbn [fst p_comms]. rewrite insert_keys_new by exact E. rewrite app_length. cbn. lia.
Qed.
Lemma add_price_comms p c w x p' : pool_add_price p c w x = Ok p' -> p_comms p' = p_comms p.
Proof.
  unfold pool_add_price. intros H. inv_bind H. destruct (comm_eqb _ _); [discriminate|]. destruct (a_c x); [|discriminate]. inv_bind H. injection H as <-. reflexivity.
Qed.
Lemma price_loop_comms date ps : forall p p' ps', price_loop date p ps = Ok (p', ps') -> p_comms p' = p_comms p.
Proof.
  induction ps as [|x ps IH]; intros p p' ps' H; cbn [price_loop] in H; [injection H as <- _; reflexivity|]. inv_bind H. destruct v as [p1 x1]. inv_bind H. destruct v as [p2 ps2].
  injection H as <- _. apply IH in EQ0. rewrite EQ0. destruct (po_cost x) as [cost|]; [|injection EQ as <- _; reflexivity]. destruct (po_amount x); [|discriminate].
  destruct (comm_eqb _ _); [discriminate|]. inv_bind EQ. inv_bind EQ. destruct v0 as [bd np]. inv_bind EQ. injection EQ as <- _.
  destruct np as [pr|]; [|injection EQ3 as <-; reflexivity]. unfold pool_add_price_struct in EQ3. eapply add_price_comms, EQ3.
Qed.
Lemma finalize_comms date p ps p' ps' : finalize_posts date p ps = Ok (p', ps') -> p_comms p' = p_comms p.
Proof.
  intros H. apply finalize_inv in H as (_ & bal & _ & [(_ & b1 & _ & P)|(l1 & q & l2 & b & _ & _ & P & _)]); eapply price_loop_comms, P.
Qed.
Lemma parts_comms p q s p' a : parse_amount_parts p q s = (p', a) -> length (p_comms p) <= length (p_comms p').
Proof. unfold parse_amount_parts. pose proof (pfoc_length p s None) as L. destruct (pool_find_or_create p s None). intros E. injection E as <- _. exact L. Qed.
Lemma annotation_comms p d q s p' an : annotation_parse p d q s = Ok (p', an) -> length (p_comms p) <= length (p_comms p').
Proof.
  unfold annotation_parse. pose proof (pfoc_length p s None) as L. destruct (pool_find_or_create p s None). intros H. inv_bind H. injection H as <- _. exact L.
Qed.
Lemma cost_comms p t amt p' c : parse_cost p t amt = Ok (p', c) -> length (p_comms p) <= length (p_comms p').
Proof.
  unfold parse_cost. destruct amt; [|intros H; injection H as <- _; lia]. destruct (is_empty _); [intros H; injection H as <- _; lia|].
  destruct (parse_amount_parts p (t_cost_quantity t) (t_cost_symbol t)) as [p5 c5] eqn:E5. apply parts_comms in E5. destruct c5; [|intros H; injection H as <- _; exact E5].
  destruct (t_is_per_unit t); intros H; [inv_bind H|]; injection H as <- _; exact E5.
Qed.
Lemma directive_comms p line p' : parse_price_directive p line = Ok p' -> length (p_comms p) <= length (p_comms p').
Proof.
  unfold parse_price_directive. intros H. inv_bind H. destruct v as [[[[td tt] tc] tq] tp]. inv_bind H. inv_bind H.
  pose proof (pfoc_length p tc None) as L. destruct (pool_find_or_create p tc None) as [p1 c]. inv_bind H. pose proof (pfoc_length p1 tp None) as L'.
  destruct (pool_find_or_create p1 tp None) as [p2 c2]. apply add_price_comms in H. rewrite H. cbn [fst] in *. lia.
Qed.
Lemma more_lines inc lines j0 m j' : (forall arg j j', inc arg j = Ok j' -> more j Top j') -> parse_lines inc m j0 lines = Ok j' -> more j0 Top j'.
Proof.
  intros K. apply (lines_preserve (more j0)).
  - intros j c r j1 (A & B) _ H. unfold create_xact in H. inv_bind H. destruct v as [[[d au] pa] no]. inv_bind H. injection H as <-. split; [exact A|].
    intros U. destruct (B U) as (p & a & X & Q). exists p, a. split; [|exact Q]. unfold all_posts in *. cbn [set_xacts j_xacts]. rewrite flat_map_app. apply in_app_iff. auto.
  - intros j xi s j1 (A & B) H. unfold parse_post in H. inv_bind H. inv_bind H. destruct v0 as [m1 acct].
    destruct (parse_amount_parts (j_pool j) (t_quantity v) (t_symbol v)) as [p1 amt] eqn:E1. apply parts_comms in E1. inv_bind H. destruct v0 as [p2 ann].
    pose proof (pfoc_length p2 (t_symbol v) (Some ann)) as L3. destruct (pool_find_or_create p2 (t_symbol v) (Some ann)) as [p3 c3]. inv_bind H. destruct v0 as [p4 cost].
    destruct (nth_error (j_xacts j) xi) as [x|] eqn:EX; [|discriminate]. inv_bind H. injection H as <-. split.
    + unfold comms in *. cbn [j_pool fst] in *.
      apply annotation_comms in EQ1. apply cost_comms in EQ2. lia.
    + intros U. apply (up_update (j_xacts j)); [|apply B, U]. intros y _ (p & a & P & Q). exists p, a. cbn. split; [apply in_app_iff; auto|exact Q].
  - intros j xi s j1 (A & B) H. unfold parse_trailing_note in H. destruct (is_empty _); injection H as <-; [split; assumption|]. split; [exact A|].
    intros U. apply (up_update (j_xacts j)); [|apply B, U]. intros y _ (p & a & P & Q). destruct (x_posts y) as [|p0 ps] eqn:EP; [destruct P|]. cbn [set_posts x_posts].
    apply In_nth_error in P as (k & P). set (i := length (p0 :: ps) - 1).
    assert (W : nth_error (update_nth i (fun p => post_add_note p (trim (skipn 1 s))) (p0 :: ps)) k = Some (if k =? i then post_add_note p (trim (skipn 1 s)) else p)).
    { rewrite nth_error_update_nth, P. destruct (k =? i); reflexivity. }
    apply nth_error_In in W. eexists. exists a. split; [exact W|]. destruct (k =? i); exact Q.
  - intros j xi j1 (A & B) H. unfold finalize in H. destruct (nth_error (j_xacts j) xi) as [x|] eqn:EX; [|discriminate]. inv_bind H. destruct v as [p1 ps1]. injection H as <-. split.
    + unfold comms in *. cbn [j_pool]. rewrite (finalize_comms _ _ _ _ _ EQ). exact A.
    + intros U. apply (up_update (j_xacts j)); [|apply B, U]. intros y Y. assert (y = x) by congruence. subst y. cbn. apply up_same. eapply finalize_frame, EQ.
  - intros j line p (A & B) H. split; [|exact B]. unfold comms in *. cbn [set_pool j_pool]. apply directive_comms in H. lia.
  - intros arg j j1 (A & B) H. destruct (K _ _ _ H) as (A' & B'). split; [lia|auto].
  - split; [lia|auto].
Qed.
Lemma more_include depth cwd fs : forall arg j j', include_file depth cwd fs arg j = Ok j' -> more j Top j'.
Proof.
  induction depth as [|d IH]; intros arg j j' H; cbn [include_file] in H; [discriminate|]. inv_bind H. destruct v as [src|]; [|injection H as <-; split; [lia|auto]].
  eapply more_lines; [exact IH|exact H].
Qed.
Lemma more_read depth cwd fs src j j' : read_into_journal depth cwd fs src j = Ok j' -> more j Top j'.
Proof. apply more_lines, more_include. Qed.

(** ** The heap *)
Section Program.
Variable pol : policy.
Variable strict : bool.
Hypothesis GR : grows pol.

(** A pointer to a posting, given out when the posting was added. *)
Definition pborn (xs : list hxact) (a : addr) : Prop :=
  exists xi x k, a = APost xi (al_gen (after (vec_next pol) (S k))) k /\ nth_error xs xi = Some x /\ k < length (hx_posts x).
Definition xgood (p : hpool) (x : hxact) : Prop := Forall (vpost p) (hx_posts x) /\ hx_alloc x = after (vec_next pol) (length (hx_posts x)).
Definition mode_ok (m : hmode) (h : heap) : Prop :=
  match m with HTop => True | HIn a => exists x, h_xact h a = Ok (index_of a, x) /\ nth_error (h_xacts h) (index_of a) = Some x end.
Record good (m : hmode) (h : heap) : Prop := {
  g_ainv : ainv h;
  g_pool : pgood pol (h_pool h);
  g_xacts : Forall (xgood (h_pool h)) (h_xacts h);
  g_tree : tgood pol (pborn (h_xacts h)) [] is_master (h_master h);
  g_mode : mode_ok m h }.
(** What the journal has to be in the end. *)
Definition okj (j : journal) : Prop := comms j <= map_next pol 0 /\ (strict = true -> ~ unpriced j).
Lemma okj_more j m j' : more j m j' -> okj j' -> okj j.
Proof. intros (A & B) (C & D). split; [lia|]. intros T U. apply (D T), B, U. Qed.

Lemma pborn_mono xs xs' : (forall i x, nth_error xs i = Some x -> exists x', nth_error xs' i = Some x' /\ length (hx_posts x) <= length (hx_posts x')) ->
  forall a, pborn xs a -> pborn xs' a.
Proof. intros H a (xi & x & k & -> & N & K). destruct (H _ _ N) as (x' & N' & L). exists xi, x', k. repeat split; auto; lia. Qed.
Lemma update_mono xs i f : (forall x, nth_error xs i = Some x -> length (hx_posts x) <= length (hx_posts (f x))) ->
  forall k x, nth_error xs k = Some x -> exists x', nth_error (update_nth i f xs) k = Some x' /\ length (hx_posts x) <= length (hx_posts x').
Proof.
  intros H k x N. rewrite nth_error_update_nth, N. destruct (Nat.eqb_spec k i) as [->|]; cbn [option_map]; eexists; (split; [reflexivity|]); auto.
Qed.
Lemma update_forall {A} (P : A -> Prop) i f xs : Forall P xs -> (forall x, nth_error xs i = Some x -> P x -> P (f x)) -> Forall P (update_nth i f xs).
Proof.
  intros F H. apply Forall_forall. intros y Y. apply In_nth_error in Y as (k & Y). rewrite nth_error_update_nth in Y. rewrite Forall_forall in F.
  destruct (Nat.eqb_spec k i) as [Q|]; [subst k|].
  - destruct (nth_error xs i) as [x|] eqn:E; [|discriminate]. injection Y as <-. apply H; [reflexivity|]. apply F. eapply nth_error_In, E.
  - apply F. eapply nth_error_In, Y.
Qed.
Lemma xgood_ext p p' x : pext p p' -> xgood p x -> xgood p' x.
Proof. intros E [A B]. split; [|exact B]. eapply Forall_impl; [|exact A]. intros y. apply pext_post, E. Qed.

Lemma finalize_good h a j' : good (HIn a) h -> finalize (view h) (index_of a) = Ok j' -> okj j' -> fine (good HTop) (h_finalize strict h a).
Proof.
  intros [AI GP GX GT GM] V (CM & UP). pose proof (finalize_agree strict h a AI) as AG. unfold h_finalize in *. destruct GM as (x & EM & EX). rewrite EM in *. cbn [bind] in *.
  unfold finalize in V. cbn [view j_xacts j_pool] in V. rewrite nth_error_map, EX in V. cbn [option_map v_xact x_date x_posts] in V. inv_bind V. destruct v as [vp vps]. injection V as <-.
  pose proof AI as [K _]. rewrite Forall_forall in GX. pose proof (GX x (nth_error_In _ _ EX)) as [XP XA].
  eapply (fine_bind (fun r => samep (h_pool h) (fst r) /\ Forall (vpost (h_pool h)) (snd r))).
  { apply (finalize_posts_fine pol); [exact GP|exact K|exact XP|].
    intros T r ER y am Y EA NC. rewrite EQ in ER. injection ER as <-. cbn [snd] in Y. apply (UP T). exists y, am. split; [|auto]. unfold all_posts. cbn [j_xacts view].
    apply in_flat_map. exists (set_posts (v_xact x) vps). split; [|exact Y]. apply nth_error_In with (index_of a).
    rewrite nth_error_update_nth, Nat.eqb_refl, nth_error_map, EX. reflexivity. }
  intros [p' ps'] EF (SP & FP). cbn [fst snd] in *. cbn [fine].
  rewrite EF in AG. cbn [bind agree] in AG. destruct AG as [_ AI'].
  pose proof (agree_get _ _ _ _ _ (finalize_posts_agree strict (hx_date x) (h_pool h) (hx_posts x) K) EF) as VF. unfold v_priced in VF. cbn [fst snd] in VF. apply finalize_frame in VF.
  assert (L : length ps' = length (hx_posts x)).
  { assert (LL : length (map v_post ps') = length (map v_post (hx_posts x))) by (clear -VF; induction VF; cbn; congruence). rewrite !map_length in LL. exact LL. }
  constructor; cbn [h_pool h_xacts h_master].
  - exact AI'.
  - eapply samep_good; eassumption.
  - apply update_forall; [apply Forall_forall; intros y Y; eapply xgood_ext; [apply samep_ext, SP|]; apply GX, Y|].
    intros y Y _. assert (y = x) by congruence. subst y. split; cbn [set_hposts hx_posts hx_alloc]; [|congruence]. eapply Forall_impl; [|exact FP]. intros z. apply pext_post, samep_ext, SP.
  - eapply tgood_mono; [exact GT| |auto]. apply pborn_mono, update_mono. intros y Y. assert (y = x) by congruence. subst y. cbn. lia.
  - exact I.
Qed.
Lemma note_good h a line : good (HIn a) h -> fine (good (HIn a)) (h_note h a line).
Proof.
  intros G. pose proof G as [AI GP GX GT GM]. pose proof (note_agree h a line AI) as AG. unfold h_note in *. cbv zeta in *. destruct (is_empty _); [exact G|].
  destruct GM as (x & E & EX). rewrite E in *. cbn [bind fine] in *. destruct AG as [_ AI'].
  match goal with |- context [update_nth _ ?f _] => set (f0 := f) in * end.
  assert (F0 : forall y, length (hx_posts (f0 y)) = length (hx_posts y) /\ hx_alloc (f0 y) = hx_alloc y).
  { intros y. subst f0. cbv beta. destruct (hx_posts y) as [|p ps] eqn:EP; [rewrite ?EP; auto|]. cbn [set_hposts hx_posts hx_alloc]. rewrite update_nth_length. auto. }
  constructor; cbn [h_pool h_xacts h_master].
  - exact AI'.
  - exact GP.
  - apply update_forall; [exact GX|]. intros y Y [A B]. destruct (F0 y) as [L1 L2]. split; [|congruence]. subst f0. cbv beta. destruct (hx_posts y) as [|p ps] eqn:EP; [constructor|].
    cbn [set_hposts hx_posts]. apply update_forall; [exact A|]. intros q _ Q. exact Q.
  - eapply tgood_mono; [exact GT| |auto]. apply pborn_mono, update_mono. intros y _. rewrite (proj1 (F0 y)). lia.
  - unfold mode_ok. exists (f0 x). unfold h_xact in *. destruct a as [|g i| | |]; try discriminate. cbn [h_xalloc h_xacts index_of] in *. destruct (g =? _); [|discriminate].
    rewrite nth_error_update_nth, Nat.eqb_refl, EX. cbn. auto.
Qed.
Lemma create_good h line : good HTop h -> fine (fun r => good (HIn (snd r)) (fst r)) (h_create_xact pol h line) \/ h_create_xact pol h line = Panic PNull /\ create_xact (view h) line = Panic PNull.
Proof.
  intros [AI GP GX GT _]. pose proof (create_agree pol h line AI) as AG. unfold h_create_xact, create_xact in *.
  destruct (tokenize_xact_header line) as [[[[d au] pa] no]|e|]; cbn [bind] in *; [|destruct e; cbn; auto|left; exact I].
  destruct (xact_create d au pa no) as [x|e|]; cbn [bind] in *; [|destruct e; cbn; auto|left; exact I]. left. destruct AG as [_ (AI' & _)]. cbn [fine fst snd] in *.
  constructor; cbn [h_pool h_xacts h_master].
  - exact AI'.
  - exact GP.
  - apply Forall_app. split; [exact GX|]. constructor; [|constructor]. split; [constructor|reflexivity].
  - eapply tgood_mono; [exact GT| |auto]. apply pborn_mono. intros i y N. exists y. split; [|lia]. rewrite nth_error_app1; [exact N|]. apply nth_error_Some. congruence.
  - cbn [mode_ok h_xact h_xalloc h_xacts index_of]. rewrite Nat.eqb_refl. rewrite nth_error_app2, Nat.sub_diag by lia. cbn. eauto.
Qed.
Lemma annotation_defined p d q s : fine any (h_annotation_parse pol p d q s).
Proof. unfold h_annotation_parse. destruct (hp_find_or_create _ _ _ _). destruct (is_empty d); cbn [bind]; [exact I|]. destruct (parse_date_opt d); exact I. Qed.
Lemma cost_defined p t amt : fine any (h_parse_cost pol p t amt).
Proof.
  unfold h_parse_cost. destruct amt as [a|]; [|exact I]. destruct (is_empty _); [exact I|]. destruct (h_amount_parts _ _ _ _) as [p1 [c|]]; [|exact I].
  destruct (t_is_per_unit t); [|exact I]. eapply fine_bind; [apply mul_assign_fine|]. intros c' _ _. exact I.
Qed.
Lemma parse_post_good h a s j' : good (HIn a) h -> parse_post (view h) (index_of a) s = Ok j' -> okj j' -> fine (good (HIn a)) (h_parse_post pol h a s).
Proof.
  intros [AI GP GX GT GM] V (CM & _). pose proof (parse_post_agree pol h a s AI) as AG. pose proof AI as [K R].
  unfold parse_post in V. cbn [view j_master j_pool j_xacts] in V. unfold h_parse_post in *.
  destruct (scan_post s) as [t|e|]; cbn [bind] in *; try discriminate.
  pose proof (register_agree pol (h_master h) (t_account t) R) as RA. inv_bind V. destruct v as [vm1 vacct].
  assert (NE : t_account t <> []) by (intros X; rewrite X in EQ; discriminate).
  pose proof (register_fine pol (pborn (h_xacts h)) (h_master h) (t_account t) GT NE) as RF.
  destruct (fine_ok _ _ _ _ _ _ RF RA EQ) as ([m1 acct] & ER & EV & (T1 & (w & wc & EW & GW)) & R1). cbn [fst snd] in *. injection EV as <- <-. rewrite ER in *. cbn [bind] in *.
  destruct (parts_agree pol (h_pool h) (t_quantity t) (t_symbol t) K) as [E1 K1]. rewrite E1 in V. pose proof (parts_fine pol GR (h_pool h) (t_quantity t) (t_symbol t) GP) as F1.
  destruct (h_amount_parts pol (h_pool h) (t_quantity t) (t_symbol t)) as [p1 amt]. cbn [fst snd] in *.
  inv_bind V. destruct v as [vp2 vann].
  destruct (fine_ok _ _ _ _ _ _ (annotation_defined p1 (t_price_date t) (t_price_quantity t) (t_price_commodity t)) (annotation_agree pol p1 (t_price_date t) (t_price_quantity t) (t_price_commodity t) K1) EQ0)
    as ([p2 ann] & E2 & EV & _ & K2). cbn [fst snd] in *. injection EV as <- <-. rewrite E2 in *. cbn [bind] in *.
  destruct (foc_agree pol p2 (t_symbol t) (Some ann) K2) as [E3 K3]. cbn [option_map] in E3. rewrite E3 in V.
  pose proof (foc_length pol p2 (t_symbol t) (Some ann)) as L3. pose proof (fun G A => foc_fine pol GR p2 (t_symbol t) (Some ann) G A) as F3.
  destruct (hp_find_or_create pol p2 (t_symbol t) (Some ann)) as [p3 c3]. cbn [fst snd] in *.
  inv_bind V. destruct v as [vp4 vcost].
  destruct (fine_ok _ _ _ _ _ _ (cost_defined p3 t amt) (cost_agree pol p3 t amt K3) EQ1) as ([p4 cost] & E4 & EV & _ & K4). cbn [fst snd] in *. injection EV as <- <-. rewrite E4 in *. cbn [bind] in *.
  destruct GM as (x & EM & EX). rewrite EM in *. cbn [bind] in *. rewrite nth_error_map, EX in V. cbn [option_map] in V. cbv zeta in *. rewrite EW in *. cbn [bind] in *.
  inv_bind V. injection V as <-. unfold comms in CM. cbn [j_pool v_pool p_comms] in CM.
  apply annotation_comms in EQ0. apply cost_comms in EQ1. cbn [v_pool p_comms] in EQ0, EQ1.
  destruct F1 as (G1 & X1 & A1); [unfold psmall; lia|].
  destruct (annotation_fine pol GR _ _ _ _ _ G1 E2) as (_ & F2). cbn [fst snd] in F2. destruct F2 as (G2 & X2 & A2); [unfold psmall; lia|].
  destruct (F3 G2 A2) as (G3 & X3 & _); [unfold psmall; lia|].
  assert (A3 : oamt p3 amt) by (eapply pext_oamt; [exact X3|]; eapply pext_oamt; [exact X2|exact A1]).
  destruct (cost_fine pol GR _ _ _ _ G3 A3 E4) as (_ & F4). cbn [fst snd] in F4. destruct F4 as (G4 & X4 & A4); [exact CM|].
  assert (X : pext (h_pool h) p4) by (repeat (eapply pext_trans; [eassumption|]); apply pext_refl).
  pose proof GX as GX'. rewrite Forall_forall in GX'. pose proof (GX' x (nth_error_In _ _ EX)) as [XP XA].
  set (f := fun x0 => mkHXact (hx_date x0) (hx_aux x0) (hx_payee x0) (hx_note x0) (room (vec_next pol) (hx_alloc x) (length (hx_posts x))) (hx_posts x0 ++ [mkHPost acct a amt cost None])) in *.
  assert (PM : forall b, pborn (h_xacts h) b -> pborn (update_nth (index_of a) f (h_xacts h)) b).
  { apply pborn_mono, update_mono. intros y _. cbn. rewrite app_length. lia. }
  assert (AL : room (vec_next pol) (hx_alloc x) (length (hx_posts x)) = after (vec_next pol) (S (length (hx_posts x)))) by (rewrite XA; reflexivity).
  eapply (fine_bind _ (good (HIn a))) in AG || idtac.
  pose proof (push_fine pol (pborn (update_nth (index_of a) f (h_xacts h))) w [] is_master m1
    (APost (index_of a) (al_gen (room (vec_next pol) (hx_alloc x) (length (hx_posts x)))) (length (hx_posts x))) wc) as PF.
  destruct (h_push m1 w (APost (index_of a) (al_gen (room (vec_next pol) (hx_alloc x) (length (hx_posts x)))) (length (hx_posts x)))) as [m2|e|] eqn:EP; cbn [bind fine agree] in *.
  - destruct PF as (T2 & _ & _).
    { eapply tgood_mono; [exact T1|exact PM|auto]. }
    { exists (index_of a), (f x), (length (hx_posts x)). rewrite AL. split; [reflexivity|]. rewrite nth_error_update_nth, Nat.eqb_refl, EX. split; [reflexivity|].
      cbn. rewrite app_length. cbn. lia. }
    { exact GW. }
    destruct AG as [_ AI']. constructor; cbn [h_pool h_xacts h_master].
    + exact AI'.
    + exact G4.
    + apply update_forall; [eapply Forall_impl; [|exact GX]; intros y; apply xgood_ext, X|]. intros y Y _. assert (y = x) by congruence. subst y. split; cbn [f hx_posts hx_alloc].
      * apply Forall_app. split; [eapply Forall_impl; [|exact XP]; intros y; apply pext_post, X|]. constructor; [|constructor]. split; cbn; [eapply pext_oamt; [exact X4|exact A3]|exact A4].
      * rewrite AL, app_length. cbn. rewrite Nat.add_1_r. reflexivity.
    + exact T2.
    + unfold mode_ok. exists (f x). unfold h_xact in *. destruct a as [|g i| | |]; try discriminate. cbn [h_xalloc h_xacts index_of] in *. destruct (g =? _); [|discriminate].
      rewrite nth_error_update_nth, Nat.eqb_refl, EX. cbn. auto.
  - apply PF; [|exists (index_of a), (f x), (length (hx_posts x))|exact GW].
    + eapply tgood_mono; [exact T1|exact PM|auto].
    + rewrite AL. split; [reflexivity|]. rewrite nth_error_update_nth, Nat.eqb_refl, EX. split; [reflexivity|]. cbn. rewrite app_length. cbn. lia.
  - exact I.
Qed.
Lemma price_good h line v : good HTop h -> parse_price_directive (j_pool (view h)) line = Ok v -> length (p_comms v) <= map_next pol 0 ->
  fine (good HTop) (let* p := h_price_directive pol (h_pool h) line in Ok (mkHeap (h_master h) p (h_xalloc h) (h_xacts h))).
Proof.
  intros [AI GP GX GT _] V SM. pose proof AI as [K R]. pose proof (price_directive_agree pol (h_pool h) line K) as AG.
  eapply fine_bind; [eapply price_directive_fine; [exact GR|exact GP|exact K|exact V|exact SM]|]. intros p E (G & X). rewrite E in AG. destruct AG as [_ K'].
  constructor; cbn [h_pool h_xacts h_master].
  - split; assumption.
  - exact G.
  - eapply Forall_impl; [|exact GX]. intros y. apply xgood_ext, X.
  - exact GT.
  - exact I.
Qed.

(** ** The loops *)
Definition ngood (n : hnext) : Prop := match n with HContinue m h => good m h | HStop h => good HTop h end.
Definition njournal (n : next) : journal := match n with Continue _ j | Stop j => j end.
Lemma xact_line_good h a line n : good (HIn a) h -> xact_line (view h) (index_of a) line = Ok n -> okj (njournal n) -> fine ngood (h_xact_line pol strict h a line).
Proof.
  intros G.
  assert (F : forall n, (let* j' := finalize (view h) (index_of a) in Ok (Continue Top j')) = Ok n -> okj (njournal n) -> fine ngood (let* h' := h_finalize strict h a in Ok (HContinue HTop h'))).
  { intros n0 H OK. inv_bind H. injection H as <-. eapply fine_bind; [eapply finalize_good; eassumption|]. intros h' _ G'. exact G'. }
  assert (P : forall s n, (let* j' := parse_post (view h) (index_of a) s in Ok (Continue (InXact (index_of a)) j')) = Ok n -> okj (njournal n) ->
    fine ngood (let* h' := h_parse_post pol h a s in Ok (HContinue (HIn a) h'))).
  { intros s n0 H OK. inv_bind H. injection H as <-. eapply fine_bind; [eapply parse_post_good; eassumption|]. intros h' _ G'. exact G'. }
  assert (N : forall r, fine ngood (let* h' := h_note h a r in Ok (HContinue (HIn a) h'))).
  { intros r. eapply fine_bind; [apply note_good, G|]. intros h' _ G'. exact G'. }
  unfold xact_line, h_xact_line. destruct line as [|c line]; [discriminate|].
  assert (S : (match trim_start (c :: line) with
      | [] => let* j' := finalize (view h) (index_of a) in Ok (Continue Top j')
      | 59%N :: r => let* j' := parse_trailing_note (view h) (index_of a) (59%N :: r) in Ok (Continue (InXact (index_of a)) j')
      | input => let* j' := parse_post (view h) (index_of a) input in Ok (Continue (InXact (index_of a)) j')
      end) = Ok n -> okj (njournal n) ->
      fine ngood (match trim_start (c :: line) with
      | [] => let* h' := h_finalize strict h a in Ok (HContinue HTop h')
      | 59%N :: r => let* h' := h_note h a (59%N :: r) in Ok (HContinue (HIn a) h')
      | input => let* h' := h_parse_post pol h a input in Ok (HContinue (HIn a) h')
      end)).
  { destruct (trim_start (c :: line)) as [|d r]; [apply F|]. destruct d as [|p]; [apply P|]. do 6 (destruct p as [p|p|]; try apply P). intros _ _. apply N. }
  destruct c as [|p]; [discriminate|]. do 6 (destruct p as [p|p|]; try discriminate; try exact (F n); try exact S).
Qed.
Definition inc_good (inc : str -> heap -> outcome heap) (vinc : str -> journal -> outcome journal) : Prop :=
  forall s h j', good HTop h -> vinc s (view h) = Ok j' -> okj j' -> fine (good HTop) (inc s h).
Lemma general_good inc vinc h line j' : inc_good inc vinc -> good HTop h -> general_directive vinc (view h) line = Ok j' -> okj j' ->
  fine (good HTop) (h_general_directive pol inc h line).
Proof.
  intros HI G. unfold general_directive, h_general_directive. destruct (take_word line) as [dir rest]. destruct dir as [|c dir]; [discriminate|].
  assert (Q : (if str_eqb (c :: dir) (lit "include") then match fst (take_word rest) with [] => Panic PUnwrap | argument => vinc argument (view h) end
      else if str_eqb (c :: dir) (lit "import") then Panic PTodo
      else let* p := parse_price_directive (j_pool (view h)) line in Ok (set_pool (view h) p)) = Ok j' -> okj j' ->
    fine (good HTop) (if str_eqb (c :: dir) (lit "include") then match fst (take_word rest) with [] => Panic PUnwrap | argument => inc argument h end
      else if str_eqb (c :: dir) (lit "import") then Panic PTodo
      else let* p := h_price_directive pol (h_pool h) line in Ok (mkHeap (h_master h) p (h_xalloc h) (h_xacts h)))).
  { destruct (str_eqb (c :: dir) (lit "include")); [destruct (fst (take_word rest)); [discriminate|apply HI, G]|].
    destruct (str_eqb (c :: dir) (lit "import")); [discriminate|]. intros H (OK & _). inv_bind H. injection H as <-. eapply price_good; eassumption. }
  destruct c as [|p]; try discriminate. do 7 (destruct p as [p|p|]; try discriminate); exact Q.
Qed.
Lemma top_line_good inc vinc h line n : inc_good inc vinc -> good HTop h -> top_line vinc (view h) line = Ok n -> okj (njournal n) -> fine ngood (h_top_line pol inc h line).
Proof.
  intros HI G. unfold top_line, h_top_line. destruct (_ || _); [intros _ _; exact G|]. destruct line as [|c r]; [discriminate|].
  destruct (_ || _); [intros _ _; exact G|]. destruct (c =? 45)%N; [intros _ _; exact G|]. destruct (is_digit c).
  - intros H _. inv_bind H. destruct (create_good h (c :: r) G) as [F|[_ E]]; [|rewrite E in EQ; discriminate].
    eapply fine_bind; [exact F|]. intros [h' ptr] _ G'. exact G'.
  - destruct (_ || _); [discriminate|]. intros H OK. inv_bind H. injection H as <-. eapply fine_bind; [eapply general_good; eassumption|]. intros h' _ G'. exact G'.
Qed.
Lemma lines_good inc vinc lines : inc_agree inc vinc -> inc_good inc vinc -> (forall arg j j', vinc arg j = Ok j' -> more j Top j') -> forall m h j', good m h ->
  parse_lines vinc (v_mode m) (view h) lines = Ok j' -> okj j' -> fine (good HTop) (h_parse_lines pol strict inc m h lines).
Proof.
  intros HA HI HM. induction lines as [|l lines IH]; intros m h j' G; cbn [h_parse_lines parse_lines].
  - destruct m as [|a]; cbn [v_mode]; [intros _ _; exact G|]. intros H OK. eapply finalize_good; eassumption.
  - intros H OK. inv_bind H.
    assert (OKn : okj (njournal v)).
    { destruct v as [m' j1|j1]; cbn [njournal]; [eapply okj_more; [eapply more_lines; [exact HM|exact H]|exact OK]|injection H as ->; exact OK]. }
    assert (F : fine (fun n => ngood n /\ v = v_next n) (h_step pol strict inc m h l)).
    { destruct m as [|a], l as [l|]; cbn [h_step step v_mode] in *.
      - pose proof (top_line_good inc vinc h l v HI G EQ OKn) as F. pose proof (top_line_agree pol inc vinc h l HA (g_ainv _ _ G)) as A.
        eapply fine_weaken; [|exact F]. intros n E X. split; [exact X|]. rewrite E in A. destruct A as [A _]. congruence.
      - injection EQ as <-. split; [exact G|reflexivity].
      - pose proof (xact_line_good h a l v G EQ OKn) as F. pose proof (xact_line_agree pol strict h a l (g_ainv _ _ G)) as A.
        eapply fine_weaken; [|exact F]. intros n E X. split; [exact X|]. rewrite E in A. destruct A as [A _]. congruence.
      - inv_bind EQ. injection EQ as <-. pose proof (finalize_good h a v0 G EQ0 OKn) as F. pose proof (finalize_agree strict h a (g_ainv _ _ G)) as A.
        eapply fine_bind; [exact F|]. intros h' E X. split; [exact X|]. rewrite E in A. destruct A as [A _]. cbn. congruence. }
    eapply fine_bind; [exact F|]. intros n _ (X & ->). destruct n as [m' h'|h']; cbn [v_next ngood] in *; [eapply IH; eassumption|exact X].
Qed.
Lemma include_good depth cwd fs : inc_good (h_include_file pol strict depth cwd fs) (include_file depth cwd fs).
Proof.
  induction depth as [|d IH]; intros s h j' G; cbn [h_include_file include_file]; [discriminate|]. destruct (included cwd fs s) as [[src|]| |]; cbn [bind]; [|intros _ _; exact G|discriminate|discriminate].
  intros H OK. eapply (lines_good _ _ src (include_agree pol strict d cwd fs) IH (more_include d cwd fs) HTop); eassumption.
Qed.
Lemma read_good depth cwd fs src h j' : good HTop h -> read_into_journal depth cwd fs src (view h) = Ok j' -> okj j' -> fine (good HTop) (h_read pol strict depth cwd fs src h).
Proof.
  intros G H OK. eapply (lines_good _ _ src (include_agree pol strict depth cwd fs) (include_good depth cwd fs) (more_include depth cwd fs) HTop); eassumption.
Qed.
Lemma good_new : good HTop heap_new.
Proof.
  constructor; cbn.
  - exact ainv_new.
  - split; [reflexivity|]. split; [constructor|]. intros s an H. discriminate.
  - constructor.
  - constructor; [reflexivity|constructor|intros ? []|intros ? []].
  - exact I.
Qed.
Lemma files_good depth cwd fs files j : read_journal_files depth cwd fs files = Ok j -> okj j -> exists h, h_read_files pol strict depth cwd fs files = Ok h /\ view h = j /\ good HTop h.
Proof.
  unfold read_journal_files, h_read_files. change journal_new with (view heap_new). generalize good_new. generalize heap_new.
  induction files as [|f files IH]; intros h G; cbn [fold_outcome]; [intros E _; injection E as <-; eauto|]. intros H OK. inv_bind H.
  assert (OKv : okj v).
  { clear -H OK. revert v H. induction files as [|g files IH]; intros v H; cbn [fold_outcome] in H; [injection H as ->; exact OK|]. inv_bind H. apply IH in H.
    unfold parse_file in EQ. destruct (fs g); [|discriminate]. eapply okj_more; [eapply more_read, EQ|exact H]. }
  unfold parse_file in EQ. unfold h_parse_file at 1. destruct (fs f) as [src|]; [|discriminate].
  destruct (fine_ok _ _ _ _ _ _ (read_good _ _ _ _ _ _ G EQ OKv) (read_agree pol strict depth cwd fs src h (g_ainv _ _ G)) EQ) as (h' & -> & <- & G' & _). cbn [bind]. apply IH; assumption.
Qed.
End Program.
