(** Reading a journal keeps the invariant of the memory and its agreement with the journal. *)
From Coq Require Import String List NArith ZArith Bool Lia ZifyBool ZifyNat ZifyN.
From Verif Require Import Base BaseFacts Decimal Dates Amount Balance Scanner History Pool Account Journal Xact Parser Memory.
From Verif Require Import SpecDecimal SpecAmount SpecDates SpecPool SpecAccount SpecXact SpecJournal SpecReading SpecMemory.
From Verif Require Import DecimalFacts BalanceFacts PoolFacts AccountFacts AccountProofs XactFacts XactProofs JournalFacts ReadingFacts MemoryFacts MemorySim.
Import ListNotations.
Open Scope nat_scope.

Lemma forall2_update {A B} (R : A -> B -> Prop) f g l l' : Forall2 R l l' -> forall i,
  (forall x y, nth_error l i = Some x -> nth_error l' i = Some y -> R (f x) (g y)) -> Forall2 R (update_nth i f l) (update_nth i g l').
Proof.
  induction 1 as [|x y l l' H F IH]; intros [|i] K; cbn [update_nth]; try (constructor; fail).
  - constructor; [apply K; reflexivity|exact F].
  - constructor; [exact H|]. apply IH. intros a b Ha Hb. apply K; assumption.
Qed.
Lemma push_view t : forall p r t', push_post t p r = Ok t' ->
  ac_name t' = ac_name t /\ forall q, match get_account t q with
    | None => get_account t' q = None
    | Some b => exists b', get_account t' q = Some b' /\ map ac_name (ac_children b') = map ac_name (ac_children b)
                 /\ ac_posts b' = if list_eq_dec str_eq_dec q p then ac_posts b ++ [r] else ac_posts b
    end.
Proof.
  intros p. revert t. induction p as [|k p IH]; intros [n cs ps] r t' H; cbn [push_post] in H.
  - injection H as <-. split; [reflexivity|]. intros [|k q]; cbn [get_account ac_children].
    + eexists. split; [reflexivity|]. cbn [ac_children ac_posts]. destruct (list_eq_dec str_eq_dec [] []); [auto|congruence].
    + destruct (find_child k cs) as [c|]; [|reflexivity]. destruct (get_account c q) as [b|]; [|reflexivity]. exists b.
      destruct (list_eq_dec str_eq_dec (k :: q) []); [discriminate|auto].
  - destruct (find_child k cs) as [c|] eqn:E; [|discriminate]. inv_bind H. injection H as <-. apply IH in EQ as [N V]. split; [reflexivity|].
    pose proof (find_child_some _ _ _ E) as [_ Nc]. intros [|x q]; cbn [get_account ac_children].
    + eexists. split; [reflexivity|]. cbn [ac_children ac_posts]. destruct (list_eq_dec str_eq_dec [] (k :: p)); [discriminate|]. rewrite set_child_names by congruence. auto.
    + rewrite find_set_child by congruence. destruct (str_eqb k x) eqn:Ek.
      * apply str_eqb_eq in Ek. subst x. rewrite E. specialize (V q). destruct (get_account c q) as [b|]; [|exact V].
        destruct V as (b' & V1 & V2 & V3). exists b'. split; [exact V1|]. split; [exact V2|]. rewrite V3.
        destruct (list_eq_dec str_eq_dec q p), (list_eq_dec str_eq_dec (k :: q) (k :: p)); congruence.
      * destruct (find_child x cs) as [d|]; [|reflexivity]. destruct (get_account d q) as [b|]; [|reflexivity]. exists b. split; [reflexivity|]. split; [reflexivity|].
        destruct (list_eq_dec str_eq_dec (x :: q) (k :: p)) as [X|]; [|reflexivity]. injection X as -> _. rewrite str_eqb_refl in Ek. discriminate.
Qed.
Lemma push_sim t f p r t' a ptr : push_post t p r = Ok t' -> tree_sim t f [] -> f p = Some a -> names ptr = TPost (fst r) (snd r) ->
  tree_sim t' (set_acct f p (mkMA (ma_parent a) (ma_posts a ++ [ptr]) (ma_alloc a) (ma_subs a))) [].
Proof.
  intros H S Ha Np q. apply push_view in H as [_ V]. specialize (V q). specialize (S q). cbn [app] in *.
  set (a' := mkMA _ _ _ _). destruct (get_account t q) as [b|].
  - destruct V as (b' & -> & V2 & V3). destruct (set_acct_cases f p a' q) as [[-> X]|[N X]]; rewrite X.
    + rewrite Ha in S. cbn in *. destruct (list_eq_dec str_eq_dec p p) as [_|]; [|congruence]. rewrite V2, V3, !map_app. cbn. destruct S as [S1 S2]. rewrite S1, S2, Np. auto.
    + destruct (f q) as [y|]; [|destruct S]. cbn in *. destruct (list_eq_dec str_eq_dec q p); [congruence|]. rewrite V2, V3. exact S.
  - rewrite V. destruct (set_acct_cases f p a' q) as [[-> X]|[N X]]; rewrite X; [rewrite Ha in S; destruct S|exact S].
Qed.

(** ** Finalising *)
Lemma price_loop_comms date posts : forall pool pool' posts', price_loop date pool posts = Ok (pool', posts') -> p_comms pool' = p_comms pool.
Proof.
  induction posts as [|p posts IH]; intros pool pool' posts' H; cbn [price_loop] in H; [injection H as <- <-; reflexivity|].
  inv_bind H. destruct v as [pool1 p1]. inv_bind H. destruct v as [pool2 posts2]. injection H as <- <-. apply IH in EQ0. rewrite EQ0.
  destruct (po_cost p) as [c|]; [|injection EQ as <- <-; reflexivity]. destruct (po_amount p) as [a|]; [|discriminate].
  destruct (comm_eqb (a_c a) (a_c c)); [discriminate|]. inv_bind EQ. inv_bind EQ. destruct v0 as [bd np]. inv_bind EQ. injection EQ as <- <-.
  destruct np as [pr|]; [|injection EQ3 as <-; reflexivity]. unfold pool_add_price_struct in EQ3. apply add_price_inv in EQ3 as (s & t & cs & ct & _ & _ & _ & _ & _ & ->). reflexivity.
Qed.
Lemma finalize_comms date pool posts pool' posts' : finalize_posts date pool posts = Ok (pool', posts') -> p_comms pool' = p_comms pool.
Proof.
  intros H. apply finalize_inv in H as (_ & bal & _ & [(_ & b1 & _ & P)|(l1 & p & l2 & b & _ & _ & P & _)]); eapply price_loop_comms; exact P.
Qed.
Lemma amt_add_comm a b r : amt_add a b = Ok r -> a_c r = a_c a.
Proof. unfold amt_add. destruct (comm_eqb _ _); cbn; try discriminate. destruct (d_is_zero _); [intros [= <-]; reflexivity|]. intros H. inv_bind H. injection H as <-. reflexivity. Qed.
Lemma bal_add_keys b : forall a b', bal_add b a = Ok b' -> incl (map a_c b) (map a_c b') /\ In (a_c a) (map a_c b').
Proof.
  induction b as [|x b IH]; intros a b' H; cbn [bal_add] in H; [injection H as <-; split; [intros y []|left; reflexivity]|].
  destruct (comm_eqb_spec (a_c x) (a_c a)) as [E|E].
  - inv_bind H. injection H as <-. apply amt_add_comm in EQ. cbn [map]. rewrite EQ. split; [apply incl_refl|left; exact E].
  - inv_bind H. injection H as <-. apply IH in EQ as [A B]. cbn [map]. split; [|right; exact B]. intros y [<-|Hy]; [left; reflexivity|right; apply A, Hy].
Qed.
Lemma fold_keys l : forall b b', fold_outcome bal_add l b = Ok b' -> incl (map a_c b) (map a_c b') /\ incl (map a_c l) (map a_c b').
Proof.
  induction l as [|a l IH]; intros b b' H; cbn [fold_outcome] in H; [injection H as <-; split; [apply incl_refl|intros y []]|].
  inv_bind H. apply bal_add_keys in EQ as [A B]. apply IH in H as [C D]. split; [eapply incl_tran; eassumption|]. cbn [map]. intros y [<-|Hy]; [apply C, B|apply D, Hy].
Qed.

Lemma worth_sim p q : post_sim True p q -> amount_points (worth p) (m_value q).
Proof.
  intros (_ & A & C). specialize (C Logic.I). unfold worth, m_value. destruct (po_cost p), (mp_cost q); cbn in *; try contradiction; [exact C|exact A].
Qed.
Lemma weaken p q : post_sim True p q -> post_sim False p q.
Proof. intros (A & B & _). split; [exact A|]. split; [exact B|intros []]. Qed.
Lemma first_sim ps qs : Forall2 (post_sim True) ps qs ->
  match worths ps with [] => m_first_value qs = None | a :: _ => exists v, m_first_value qs = Some v /\ points_to (a_c a) v end.
Proof.
  induction 1 as [|p q ps qs H F IH]; [reflexivity|]. rewrite worths_cons. apply worth_sim in H. cbn [m_first_value].
  destruct (worth p) as [a|], (m_value q) as [v|]; cbn in H; try contradiction; cbn [app]; [eauto|exact IH].
Qed.
Lemma fill_sim date pool posts pool' posts' qs :
  finalize_posts date pool posts = Ok (pool', posts') -> Forall2 (post_sim True) posts qs -> Forall2 (post_sim False) posts' (m_fill qs).
Proof.
  intros H S. apply finalize_inv in H as (N & bal & Hb & [(C & b1 & H & P)|(l1 & p & l2 & b & E & -> & P & ->)]).
  - assert (F : m_fill qs = qs).
    { unfold m_fill. destruct (m_first_value qs) as [v|]; [|reflexivity]. clear -C S. induction S as [|p q ps qs H F IH]; [reflexivity|].
      inversion C as [|? ? C1 C2]; subst. cbn [map]. rewrite IH by exact C2. apply worth_sim in H. destruct (worth p); [|congruence]. destruct (m_value q); [reflexivity|destruct H]. }
    rewrite F. assert (W : Forall2 (post_sim False) posts qs) by (eapply XactFacts.Forall2_impl; [|exact S]; apply weaken).
    apply infer_costs_inv in H as [(-> & _)|(x & y & x0 & y0 & top & r & _ & _ & _ & _ & _ & _ & H)]; [exact W|].
    clear -H W. revert qs W. induction H as [|p p' l l' I _ IH]; intros qs W; inversion W as [|? q ? qs' H1 H2]; subst; constructor; [|apply IH, H2].
    destruct I as (a & A & I1 & I2). destruct (comm_dec (a_c a) (a_c x)) as [E|E]; [|rewrite (I1 E); exact H1].
    destruct (I2 E) as (k & _ & ->). destruct H1 as (S1 & S2 & _). split; [exact S1|]. split; [exact S2|intros []].
  - destruct E as (-> & V & C1 & C2). pose proof (first_sim _ _ S) as FS.
    assert (Wn : worths (l1 ++ p :: l2) = worths l1 ++ worths l2) by (rewrite worths_app, worths_cons, V; reflexivity).
    apply fold_keys in Hb as [_ Hb].
    assert (Only : forall a, In a (worths (l1 ++ p :: l2)) -> a_c a = a_c b).
    { intros a Ha. apply (in_map a_c) in Ha. apply Hb in Ha. cbn in Ha. destruct Ha as [<-|[]]. reflexivity. }
    destruct (worths (l1 ++ p :: l2)) as [|a w] eqn:Ew.
    { exfalso. assert (Z : forall l, complete l -> worths l = [] -> l = []).
      { intros [|z l] Cl E; [reflexivity|]. rewrite worths_cons in E. inversion Cl; subst. destruct (worth z); [discriminate|congruence]. }
      symmetry in Wn. apply app_eq_nil in Wn as [W1 W2]. rewrite (Z _ C1 W1), (Z _ C2 W2) in N. apply N. reflexivity. }
    destruct FS as (v & Fv & Pv). unfold m_fill. rewrite Fv. rewrite (Only a ltac:(left; reflexivity)) in Pv. clear -S V C1 C2 Pv.
    assert (K : forall l qs, complete l -> Forall2 (post_sim True) l qs -> Forall2 (post_sim False) l
      (map (fun q => match m_value q with Some _ => q | None => mkMP (mp_account q) (mp_xact q) (Some v) (mp_cost q) end) qs)).
    { intros l qs0 C F. induction F as [|z q l qs0 H F IH]; [constructor|]. inversion C as [|? ? Cz Cl]; subst. cbn [map]. constructor; [|apply IH, Cl].
      pose proof (worth_sim _ _ H) as Wz. destruct (worth z); [|congruence]. destruct (m_value q); [apply weaken, H|destruct Wz]. }
    apply Forall2_app_inv_l in S as (q1 & q2 & S1 & S2 & ->). inversion S2 as [|? q ? qs' H1 H2]; subst. rewrite map_app. cbn [map].
    apply Forall2_app; [apply K; assumption|]. constructor; [|apply K; assumption].
    pose proof (worth_sim _ _ H1) as Wq. rewrite V in Wq. destruct (m_value q) eqn:Mq; [destruct Wq|]. destruct H1 as (A1 & _ & _).
    split; [exact A1|]. split; [exact Pv|intros []].
Qed.

Section Policy.
Variable pol : policy.
Notation minv := (minv pol).

Definition R (md : mode) (j : journal) (m : mem) : Prop := inv md j /\ minv m /\ sim md j m.

Lemma R_new : R Top journal_new mem_new.
Proof.
  split; [exact inv_new|]. split; [apply minv_new|]. constructor; cbn.
  - constructor.
  - discriminate.
  - intros [|k p]; cbn; [auto|]. exact Logic.I.
  - reflexivity.
Qed.

Lemma R_create j m c r j' : R Top j m -> is_digit c = true -> create_xact j (c :: r) = Ok j' ->
  R (InXact (length (j_xacts j))) j' (m_add_xact pol m) /\ extends m (m_add_xact pol m).
Proof.
  intros (I & M & S) D H. destruct (add_xact_minv pol m M) as [M' E]. split; [|exact E]. split; [eapply inv_create; eassumption|]. split; [exact M'|].
  apply create_xact_inv in H as (x & d & -> & X1 & _); [|exact D]. destruct S as [S1 S2 S3 S4]. constructor; cbn [set_xacts j_xacts j_master j_pool m_add_xact m_xacts m_accts m_comms].
  - apply Forall2_app; [exact S1|]. constructor; [|constructor]. unfold xact_sim. rewrite X1. constructor.
  - intros xi y z [= <-] Hy Hz. rewrite nth_error_app2, Nat.sub_diag in Hy by lia. injection Hy as <-. rewrite (forall2_len _ _ _ S1), nth_error_app2, Nat.sub_diag in Hz by lia. injection Hz as <-.
    unfold xact_sim. rewrite X1. constructor.
  - exact S3.
  - exact S4.
Qed.

Lemma R_final j m xi j' : R (InXact xi) j m -> finalize j xi = Ok j' -> R Top j' (m_finalize m xi) /\ extends m (m_finalize m xi).
Proof.
  intros (I & M & S) H. destruct (finalize_minv pol m xi M) as [M' E]. split; [|exact E]. split; [eapply inv_final; eassumption|]. split; [exact M'|].
  unfold finalize in H. destruct (nth_error (j_xacts j) xi) as [x|] eqn:Nx; [|discriminate]. inv_bind H. destruct v as [pool' posts']. injection H as <-.
  destruct S as [S1 S2 S3 S4]. constructor; cbn [j_xacts j_master j_pool m_finalize m_xacts m_accts m_comms].
  - apply forall2_update; [exact S1|]. intros y z Hy Hz. rewrite Nx in Hy. injection Hy as <-. unfold xact_sim. cbn [set_posts x_posts mx_posts].
    eapply fill_sim; [exact EQ|]. apply (S2 _ _ _ eq_refl Nx Hz).
  - discriminate.
  - exact S3.
  - rewrite (finalize_comms _ _ _ _ _ EQ). exact S4.
Qed.

Lemma note_forall {B} (P : post -> B -> Prop) posts n note : Forall2 P posts n -> (forall p q, P p q -> P (post_add_note p note) q) -> forall k, Forall2 P (update_nth k (fun p => post_add_note p note) posts) n.
Proof. intros F K. induction F as [|p q ps qs H F IH]; intros [|k]; cbn [update_nth]; constructor; auto. Qed.
Lemma R_note j m xi s j' : R (InXact xi) j m -> parse_trailing_note j xi s = Ok j' -> R (InXact xi) j' m.
Proof.
  intros (I & M & S) H. split; [eapply inv_note; eassumption|]. split; [exact M|]. unfold parse_trailing_note in H. destruct (is_empty _); [injection H as <-; exact S|].
  injection H as <-. set (note := trim (skipn 1 s)). destruct S as [S1 S2 S3 S4].
  assert (Z : forall strong x y, xact_sim strong x y -> xact_sim strong (match x_posts x with
      | [] => xact_add_note x note
      | _ => set_posts x (update_nth (length (x_posts x) - 1) (fun p => post_add_note p note) (x_posts x)) end) y).
  { intros strong x y F. unfold xact_sim in *. destruct (x_posts x) as [|p ps] eqn:E.
    - cbn. rewrite E. exact F.
    - cbn [set_posts x_posts]. apply note_forall; [exact F|]. intros a b Hab. exact Hab. }
  constructor; cbn [set_xacts j_xacts j_master j_pool].
  - clear S2. revert xi I. intros xi _. revert xi. induction S1 as [|x y l l' H F IH]; intros [|xi]; cbn [update_nth]; constructor; auto.
  - intros i x y [= <-] Nx Ny. apply nth_update_cases in Nx as [[N _]|[_ (z & Nz & ->)]]; [congruence|]. apply Z. apply (S2 _ _ _ eq_refl Nz Ny).
  - exact S3.
  - exact S4.
Qed.

Lemma R_price j m line p : R Top j m -> parse_price_directive (j_pool j) line = Ok p -> R Top (set_pool j p) (m_price pol m line) /\ extends m (m_price pol m line).
Proof.
  intros (I & M & S) H. pose proof (inv_price _ _ _ I H) as I'. destruct S as [S1 S2 S3 S4].
  apply directive_inv in H as (td & tt & tc & tq & tp & d & t & q & Es & _ & _ & _ & H). unfold m_price. rewrite Es.
  destruct (comm_sim_step pol m (j_pool j) tc None M S4) as (M1 & E1 & C1 & X1 & _ & A1 & _).
  destruct (comm_sim_step pol _ _ tp None M1 C1) as (M2 & E2 & C2 & X2 & _ & A2 & _).
  split; [|eapply MemoryFacts.extends_trans; eassumption]. split; [exact I'|]. split; [exact M2|]. constructor; cbn [set_pool j_xacts j_master j_pool].
  - rewrite X2, X1. exact S1.
  - discriminate.
  - rewrite A2, A1. exact S3.
  - rewrite C2. apply add_price_inv in H as (s & t0 & cs & ct & _ & _ & _ & _ & _ & ->). reflexivity.
Qed.

Lemma points_was m c o : points_to c o -> (forall x, o = Some x -> was pol m x) -> was_opt pol m (Some o).
Proof. intros P W a [= ->]. split; [apply W; reflexivity|]. destruct c as [s|]; [|destruct P]. exists s. exact P. Qed.

Lemma R_post j m xi s j' : R (InXact xi) j m -> parse_post j xi s = Ok j' -> R (InXact xi) j' (m_parse_post pol m xi s) /\ extends m (m_parse_post pol m xi s).
Proof.
  intros (I & M & S) H. pose proof (inv_post _ _ _ _ I H) as I'. destruct S as [S1 S2 S3 S4].
  unfold parse_post in H. inv_bind H. rename v into t. inv_bind H. destruct v as [t1 acct]. unfold m_parse_post. rewrite EQ. clear EQ.
  destruct (register_sim pol _ _ _ _ _ M S3 EQ0) as (m1 & E & T1 & M1 & X1 & (R1 & R2 & R3 & R4 & R5) & P1). rewrite E. clear E EQ0.
  unfold parse_amount_parts in H. pose proof (foc_comm (j_pool j) (t_symbol t) None) as Cc. destruct (pool_find_or_create (j_pool j) (t_symbol t) None) as [p1 c1] eqn:E1. cbn [snd] in Cc. subst c1.
  rewrite <- R4 in S4. destruct (comm_sim_step pol m1 (j_pool j) (t_symbol t) None M1 S4) as (M2 & X2 & C2 & Y2 & _ & A2 & P2 & W2).
  rewrite E1 in C2. cbn [fst] in C2. destruct (m_commodity pol m1 (t_symbol t)) as [m2 c]. cbn [fst snd] in *.
  inv_bind H. destruct v as [p2 ann]. apply annotation_inv in EQ as (-> & _).
  destruct (comm_sim_step pol m2 p1 (t_price_commodity t) None M2 C2) as (M3 & X3 & C3 & Y3 & _ & A3 & _).
  destruct (m_commodity pol m2 (t_price_commodity t)) as [m3 c3]. cbn [fst snd] in *.
  destruct (comm_sim_step pol m3 _ (t_symbol t) (Some ann) M3 C3) as (M4 & X4 & C4 & Y4 & _ & A4 & _).
  destruct (pool_find_or_create (fst (pool_find_or_create p1 (t_price_commodity t) None)) (t_symbol t) (Some ann)) as [p3 c3']. cbn [fst] in C4.
  destruct (m_commodity pol m3 (t_symbol t)) as [m4 c4]. cbn [fst snd] in *.
  inv_bind H. destruct v as [p4 cost]. destruct (nth_error (j_xacts j) xi) as [x|] eqn:Nx; [|discriminate]. inv_bind H. injection H as <-.
  set (amt := option_map (fun q => mkAmt q (comm_of (t_symbol t))) (d_from_str (t_quantity t))) in *.
  set (has_amount := match d_from_str (t_quantity t) with Some _ => true | None => false end).
  set (mamt := if has_amount then Some c else None).
  assert (Pa : amount_points amt mamt).
  { unfold amt, mamt, has_amount. destruct (d_from_str (t_quantity t)); cbn; [exact P2|exact Logic.I]. }
  assert (Xc : extends m2 m4) by (eapply MemoryFacts.extends_trans; eassumption).
  assert (X14 : extends m m4) by (eapply MemoryFacts.extends_trans; [exact X1|]; eapply MemoryFacts.extends_trans; eassumption).
  (* the cost *)
  assert (Cost : exists m5 d, (if has_amount && negb (is_empty (t_cost_quantity t)) then m_commodity pol m4 (t_cost_symbol t) else (m4, None)) = (m5, d)
      /\ minv m5 /\ extends m4 m5 /\ m_comms m5 = map fst (p_comms p4) /\ m_xacts m5 = m_xacts m4 /\ m_accts m5 = m_accts m4
      /\ amount_points cost (match d_from_str (t_cost_quantity t) with
           | Some _ => if has_amount && negb (is_empty (t_cost_quantity t)) then Some (if t_is_per_unit t then match d with Some _ => d | None => c end else d) else None
           | None => None end)
      /\ was_opt pol m5 (match d_from_str (t_cost_quantity t) with
           | Some _ => if has_amount && negb (is_empty (t_cost_quantity t)) then Some (if t_is_per_unit t then match d with Some _ => d | None => c end else d) else None
           | None => None end)).
  { unfold parse_cost in EQ. unfold amt in EQ. unfold has_amount. destruct (d_from_str (t_quantity t)) as [q|]; cbn [option_map andb] in *.
    2:{ exists m4, None. injection EQ as <- <-. split; [reflexivity|]. split; [exact M4|]. split; [apply MemoryFacts.extends_refl|]. split; [exact C4|]. split; [reflexivity|]. split; [reflexivity|].
        destruct (d_from_str (t_cost_quantity t)); (split; [exact Logic.I|intros a; discriminate]). }
    destruct (is_empty (t_cost_quantity t)) eqn:Em; cbn [negb] in *.
    { exists m4, None. injection EQ as <- <-. split; [reflexivity|]. split; [exact M4|]. split; [apply MemoryFacts.extends_refl|]. split; [exact C4|]. split; [reflexivity|]. split; [reflexivity|].
      destruct (d_from_str (t_cost_quantity t)); (split; [exact Logic.I|intros a; discriminate]). }
    destruct (comm_sim_step pol m4 p3 (t_cost_symbol t) None M4 C4) as (M5 & X5 & C5 & Y5 & _ & A5 & P5 & W5).
    unfold parse_amount_parts in EQ. pose proof (foc_comm p3 (t_cost_symbol t) None) as Cd. destruct (pool_find_or_create p3 (t_cost_symbol t) None) as [p5 c5]. cbn [fst snd] in *. subst c5.
    destruct (m_commodity pol m4 (t_cost_symbol t)) as [m5 d]. cbn [fst snd] in *. exists m5, d. split; [reflexivity|]. split; [exact M5|]. split; [exact X5|].
    destruct (d_from_str (t_cost_quantity t)) as [cq|]; cbn [option_map] in EQ.
    2:{ injection EQ as <- <-. split; [exact C5|]. split; [exact Y5|]. split; [exact A5|]. split; [exact Logic.I|intros a; discriminate]. }
    destruct (t_is_per_unit t).
    - inv_bind EQ. injection EQ as <- <-. split; [exact C5|]. split; [exact Y5|]. split; [exact A5|].
      apply amt_mul_wf in EQ1 as [_ Cm]. cbn [a_c] in Cm.
      assert (Q : points_to (a_c v0) (match d with Some _ => d | None => c end)).
      { rewrite Cm. unfold comm_or. destruct (comm_of (t_cost_symbol t)) as [sc|], d as [da|]; cbn in P5; try contradiction; [exact P5|exact P2]. }
      split; [exact Q|]. eapply points_was; [exact Q|]. intros y Hy. destruct d as [da|]; [apply W5; exact Hy|]. eapply was_extends; [|apply W2, Hy]. eapply MemoryFacts.extends_trans; eassumption.
    - injection EQ as <- <-. split; [exact C5|]. split; [exact Y5|]. split; [exact A5|]. split; [exact P5|]. eapply points_was; [exact P5|exact W5]. }
  destruct Cost as (m5 & d & -> & M5 & X5 & C5 & Y5 & A5 & Pc & Wc). set (mcost := match d_from_str (t_cost_quantity t) with Some _ => _ | None => None end) in *.
  assert (Wa : was_opt pol m5 mamt).
  { unfold mamt. destruct has_amount; [|intros a; discriminate]. eapply was_opt_extends; [|eapply points_was; [exact P2|exact W2]]. eapply MemoryFacts.extends_trans; eassumption. }
  assert (Nm : m_xacts m5 = m_xacts m) by congruence.
  destruct (forall2_nth _ _ _ S1 _ _ Nx) as (y & Ny & Sy). assert (Ny5 : nth_error (m_xacts m5) xi = Some y) by (rewrite Nm; exact Ny).
  assert (Am : m_accts m5 = m_accts m1) by congruence.
  destruct (m_accts m5 acct) as [a|] eqn:Ha; [|congruence].
  destruct (add_post_minv pol m5 xi acct mamt mcost y a M5 Ny5 Ha Wa Wc) as [M6 X6].
  split; [|eapply MemoryFacts.extends_trans; [exact X14|]; eapply MemoryFacts.extends_trans; eassumption].
  split; [exact I'|]. split; [exact M6|].
  assert (Na : names (acct_addr m5 acct) = TAccount acct) by (eapply acct_addr_was; eassumption).
  assert (Ln : length (x_posts x) = length (mx_posts y)) by (eapply forall2_len, Sy).
  unfold m_add_post. rewrite Ny5, Ha. cbv zeta. constructor; cbn [j_xacts j_master j_pool m_xacts m_accts m_comms].
  - unfold add_post. rewrite Nm. apply forall2_update; [exact S1|]. intros u w Hu Hw. assert (u = x) as -> by congruence. assert (w = y) as -> by congruence. unfold xact_sim. cbn [set_posts x_posts mx_posts].
    apply Forall2_app; [exact Sy|]. constructor; [|constructor]. split; [exact Na|]. split; [exact Pa|intros []].
  - intros i u w [= <-] Hu Hw. unfold add_post in Hu. rewrite (nth_update_eq _ _ _ _ Nx) in Hu. injection Hu as <-. rewrite (nth_update_eq _ _ _ _ Ny5) in Hw. injection Hw as <-.
    unfold xact_sim. cbn [set_posts x_posts mx_posts]. apply Forall2_app; [apply (S2 _ _ _ eq_refl Nx Ny)|]. constructor; [|constructor]. split; [exact Na|]. split; [exact Pa|intros _; exact Pc].
  - eapply push_sim; [exact EQ0| |exact Ha|cbn [names fst snd]; rewrite Ln; reflexivity]. rewrite Am. exact T1.
  - exact C5.
Qed.

(** ** The loops *)
Definition follows (inc : str -> journal -> outcome journal) (minc : str -> mem -> mem) : Prop :=
  forall arg j m j', R Top j m -> inc arg j = Ok j' -> R Top j' (minc arg m) /\ extends m (minc arg m).
Definition R_next (n : next) (r : mode * mem) (m : mem) : Prop :=
  match n with Continue md j => md = fst r /\ R md j (snd r) /\ extends m (snd r) | Stop _ => False end.

Lemma xact_line_follows j m xi line n : R (InXact xi) j m -> xact_line j xi line = Ok n -> R_next n (m_xact_line pol m xi line) m.
Proof.
  intros HR H. unfold m_xact_line.
  assert (F : forall n, (let* j' := finalize j xi in Ok (Continue Top j')) = Ok n -> R_next n (Top, m_finalize m xi) m).
  { intros n0 E. inv_bind E. injection E as <-. cbn. split; [reflexivity|]. eapply R_final; eassumption. }
  destruct line as [|c line]; [discriminate|]. rewrite xact_line_eq in H. destruct (c =? 32)%N.
  - destruct (trim_start (c :: line)) as [|d r]; [apply F, H|]. destruct (d =? 59)%N eqn:D.
    + inv_bind H. injection H as <-. cbn. split; [reflexivity|]. split; [eapply R_note; eassumption|apply MemoryFacts.extends_refl].
    + inv_bind H. injection H as <-. cbn. split; [reflexivity|]. eapply R_post; eassumption.
  - destruct ((c =? 13)%N || (c =? 10)%N); [apply F, H|discriminate].
Qed.
Lemma general_follows inc minc j m line j' : follows inc minc -> R Top j m -> general_directive inc j line = Ok j' ->
  let m' := (let '(directive, rest) := take_word line in if str_eqb directive (lit "include") then minc (fst (take_word rest)) m else m_price pol m line) in
  R Top j' m' /\ extends m m'.
Proof.
  intros K HR H. rewrite general_eq in H. unfold price_line_on in H. destruct (take_word line) as [dir rest]. cbn [fst snd] in H. cbv zeta.
  destruct (str_eqb dir (lit "include")) eqn:Ei.
  - apply str_eqb_eq in Ei. subst dir. cbn in H. destruct (fst (take_word rest)) as [|a l]; [discriminate|]. eapply K; eassumption.
  - destruct dir as [|c dir]; [discriminate|]. destruct (c =? 97)%N; [discriminate|]. destruct (c =? 105)%N; [|discriminate]. rewrite Ei in H.
    destruct (str_eqb (c :: dir) (lit "import")); [discriminate|]. inv_bind H. injection H as <-. eapply R_price; eassumption.
Qed.
Lemma top_line_follows inc minc j m line n : follows inc minc -> R Top j m -> top_line inc j line = Ok n -> R_next n (m_top_line pol minc m line) m.
Proof.
  intros K HR H. unfold top_line in H. unfold m_top_line. assert (Id : R_next (Continue Top j) (Top, m) m) by (cbn; split; [reflexivity|]; split; [exact HR|apply MemoryFacts.extends_refl]).
  destruct (str_eqb line [13%N; 10%N] || str_eqb line [10%N]); [injection H as <-; exact Id|]. destruct line as [|c r]; [discriminate|].
  destruct ((c =? 59)%N || (c =? 35)%N || (c =? 42)%N || (c =? 124)%N); [injection H as <-; exact Id|]. destruct (c =? 45)%N; [injection H as <-; exact Id|].
  destruct (is_digit c) eqn:D.
  - inv_bind H. injection H as <-. cbn [R_next fst snd]. assert (L : length (m_xacts m) = length (j_xacts j)) by (symmetry; eapply forall2_len; apply HR).
    rewrite L. split; [reflexivity|]. eapply R_create; eassumption.
  - destruct (_ || _); [discriminate|]. inv_bind H. injection H as <-. pose proof (general_follows _ _ _ _ _ _ K HR EQ) as Z. cbv zeta in Z.
    destruct (take_word (c :: r)) as [dir rest]. cbn [R_next fst snd]. split; [reflexivity|exact Z].
Qed.
Lemma lines_follow inc minc lines : follows inc minc -> forall md j m j', R md j m -> parse_lines inc md j lines = Ok j' ->
  R Top j' (m_parse_lines pol minc md m lines) /\ extends m (m_parse_lines pol minc md m lines).
Proof.
  intros K. induction lines as [|l lines IH]; intros md j m j' HR H; cbn [parse_lines m_parse_lines] in *.
  - destruct md; [injection H as <-; split; [exact HR|apply MemoryFacts.extends_refl]|eapply R_final; eassumption].
  - inv_bind H. destruct md as [|xi], l as [l|]; cbn [step] in EQ.
    + apply (top_line_follows _ _ _ _ _ _ K HR) in EQ. destruct (m_top_line pol minc m l) as [md' m']. destruct v as [md1 j1|j1]; cbn [R_next fst snd] in EQ.
      * destruct EQ as (-> & HR' & X). destruct (IH _ _ _ _ HR' H) as [A B]. split; [exact A|]. eapply MemoryFacts.extends_trans; eassumption.
      * destruct EQ.
    + injection EQ as <-. injection H as <-. split; [exact HR|apply MemoryFacts.extends_refl].
    + apply (xact_line_follows _ _ _ _ _ HR) in EQ. destruct (m_xact_line pol m xi l) as [md' m']. destruct v as [md1 j1|j1]; cbn [R_next fst snd] in EQ.
      * destruct EQ as (-> & HR' & X). destruct (IH _ _ _ _ HR' H) as [A B]. split; [exact A|]. eapply MemoryFacts.extends_trans; eassumption.
      * destruct EQ.
    + inv_bind EQ. injection EQ as <-. destruct (R_final _ _ _ _ HR EQ0) as [HR' X]. destruct (IH _ _ _ _ HR' H) as [A B]. split; [exact A|]. eapply MemoryFacts.extends_trans; eassumption.
Qed.
Lemma include_follows depth cwd fs : follows (include_file depth cwd fs) (m_include_file pol depth cwd fs).
Proof.
  induction depth as [|d IH]; intros arg j m j' HR H; cbn [include_file m_include_file] in *; [discriminate|].
  destruct (included cwd fs arg) as [[src|]| |]; cbn [bind] in H; try discriminate; [|injection H as <-; split; [exact HR|apply MemoryFacts.extends_refl]].
  eapply lines_follow; eassumption.
Qed.
Lemma read_follows depth cwd fs src j m j' : R Top j m -> read_into_journal depth cwd fs src j = Ok j' ->
  R Top j' (m_read pol depth cwd fs src m) /\ extends m (m_read pol depth cwd fs src m).
Proof. intros HR H. eapply lines_follow; [apply include_follows|exact HR|exact H]. Qed.

Lemma evolves_follows j m j' m' : R Top j m -> evolves pol j m j' m' -> R Top j' m' /\ extends m m'.
Proof.
  intros H0 E. induction E as [|depth cwd fs src j1 m1 j2 _ [HR X] H|name j1 m1 t p _ [HR X] H|s a j1 m1 _ [HR X] Wa].
  - split; [exact H0|apply MemoryFacts.extends_refl].
  - destruct (read_follows _ _ _ _ _ _ _ HR H) as [A B]. split; [exact A|]. eapply MemoryFacts.extends_trans; eassumption.
  - destruct HR as (I & M & [S1 S2 S3 S4]). destruct (register_sim pol _ _ _ _ _ M S3 H) as (m2 & E & T2 & M2 & X2 & (R1 & R2 & R3 & R4 & R5) & _). rewrite E. cbn [fst].
    split; [|eapply MemoryFacts.extends_trans; eassumption]. split; [eapply inv_register; eassumption|]. split; [exact M2|]. constructor; cbn [set_master j_xacts j_master j_pool].
    + rewrite R2. exact S1.
    + discriminate.
    + exact T2.
    + rewrite R4. exact S4.
  - destruct HR as (I & M & [S1 S2 S3 S4]). destruct (comm_sim_step pol m1 (j_pool j1) s a M S4) as (M2 & X2 & C2 & Y2 & _ & A2 & _).
    split; [|eapply MemoryFacts.extends_trans; eassumption]. split; [apply inv_pool; [exact I|]; apply rp_find_or_create; [constructor|exact Wa]|].
    split; [exact M2|]. constructor; cbn [set_pool j_xacts j_master j_pool].
    + rewrite Y2. exact S1.
    + discriminate.
    + rewrite A2. exact S3.
    + exact C2.
Qed.
Lemma memory_R j m : memory pol j m -> R Top j m.
Proof. intros H. eapply evolves_follows; [apply R_new|exact H]. Qed.
End Policy.
