(** Every line of a source is accounted for in the journal. *)
From Coq Require Import String List NArith ZArith Bool Lia ZifyBool ZifyNat ZifyN.
From Verif Require Import Base BaseFacts Decimal Dates Amount Balance Scanner History Pool Account Journal Xact Parser.
From Verif Require Import SpecText SpecReading SpecScan SpecDates SpecAccount SpecXact SpecJournal SpecOutline SpecFull SpecPriceLog.
From Verif Require Import ScanFacts ScanProofs DatesFacts AccountFacts AccountProofs XactFacts XactProofs JournalFacts FullProofs PriceLogFacts.
From Verif Require ReadingFacts LinesProofs EndProofs.
Import ListNotations.
Open Scope nat_scope.

(** ** The account of a posting *)
Lemma find_two s i : find_sub [32%N; 32%N] s = Some i ->
  exists b, s = firstn i s ++ [32%N; 32%N] ++ b /\ ~ contains [32%N; 32%N] (firstn i s ++ [32%N]).
Proof.
  revert i; induction s as [|c s IH]; intros i; rewrite find_sub_eq; [discriminate|].
  destruct (starts_with [32%N; 32%N] (c :: s)) eqn:E.
  - intros [= <-]. apply starts_with_iff in E as (v & E). exists v. split; [exact E|]. intros (u & w & H). destruct u as [|? [|? ?]]; cbn in H; discriminate.
  - destruct (find_sub _ s) as [k|]; [|discriminate]. intros [= <-]. destruct (IH k eq_refl) as (b & H & N). exists b. cbn [firstn app]. split; [f_equal; exact H|].
    intros (u & w & K). destruct u as [|d u].
    + assert (X : starts_with [32%N; 32%N] (c :: s) = true); [|congruence]. cbn [app] in K. injection K as -> K. rewrite H.
      destruct (firstn k s) as [|e l]; cbn [app] in *; [reflexivity|]. injection K as -> _. reflexivity.
    + apply N. injection K as _ K. exists u, w. exact K.
Qed.
Lemma trim_end_split s : exists v, s = trim_end s ++ v /\ spaces v /\ (trim_end s = [] \/ exists q d, trim_end s = q ++ [d] /\ is_ws d = false).
Proof.
  unfold trim_end. destruct (trim_start_spec (rev s)) as (w & E & W & H). unfold trim_start in *. exists (rev w). split; [|split].
  - rewrite <- (rev_involutive s) at 1. rewrite E at 1. apply rev_app_distr.
  - unfold spaces. rewrite forallb_rev. exact W.
  - destruct (drop_while is_ws (rev s)) as [|d q]; [left; reflexivity|right]. exists (rev q), d. split; [reflexivity|exact H].
Qed.
Lemma scan_post_account r c t tk : trim_start r = c :: t -> scan_post (c :: t) = Ok tk -> account_written r (t_account tk).
Proof.
  intros R H. destruct (trim_start_spec r) as (w & E & W & S). rewrite R in E, S. cbn in S.
  exists w, (c :: t). split; [exact E|]. split; [exact W|]. split; [eauto|].
  rewrite LinesProofs.scan_post_eq, trim_start_id in H by exact S. destruct (c =? 59)%N; [discriminate|].
  destruct (find_sub [32%N; 32%N] (c :: t)) as [i|] eqn:F.
  - left. destruct (find_two _ _ F) as (b & Eb & N). unfold LinesProofs.after_account in H. inv_bind H. destruct v as [[q s] k]. inv_bind H. destruct v as [[[pq ps] pd] k'].
    inv_bind H. destruct v as [[cq cs] pu]. injection H as <-. cbn [t_account]. exists b. split; [exact Eb|exact N].
  - right. injection H as <-. cbn [t_account]. split; [apply find_sub_not, F|]. destruct (trim_end_split (c :: t)) as (v & Ev & V & K). exists v. split; [exact Ev|]. split; [exact V|].
    destruct K as [K|K]; [|exact K]. exfalso. rewrite K in Ev. cbn in Ev. subst v. unfold spaces in V. cbn in V. rewrite S in V. discriminate.
Qed.
Lemma parse_post_account j xi r c t j' : wf_tree (j_master j) -> trim_start r = c :: t -> parse_post j xi (c :: t) = Ok j' ->
  exists a amt cost, account_written r a /\ j_xacts j' = add_post (j_xacts j) xi (mkPost (components a) amt cost None).
Proof.
  intros W R H. unfold parse_post in H. inv_bind H. pose proof (scan_post_account _ _ _ _ R EQ) as A.
  inv_bind H. destruct v0 as [m1 acct].
  assert (Ea : acct = components (t_account v)).
  { destruct (t_account v) as [|x y] eqn:T; [discriminate|]. destruct (register_spec (j_master j) (x :: y) W) as (m' & Er & _); [discriminate|]. congruence. }
  destruct (parse_amount_parts _ _ _) as [p1 amt]. inv_bind H. destruct v0 as [p2 ann]. destruct (pool_find_or_create p2 _ _) as [p3 ?]. inv_bind H.
  destruct v0 as [p4 cost]. destruct (nth_error _ _); [|discriminate]. inv_bind H. injection H as <-. exists (t_account v), amt, cost. subst acct. auto.
Qed.

(** ** The date of a header *)
Lemma create_date j c r j' : is_digit c = true -> create_xact j (c :: r) = Ok j' ->
  exists x d, j' = set_xacts j (j_xacts j ++ [x]) /\ x_posts x = [] /\ x_date x = Some d /\ date_of_header (c :: r) d.
Proof.
  intros D H. rewrite LinesProofs.create_eq in H.
  assert (C : exists dt rest, c :: r = dt ++ rest /\ dt <> [] /\ forallb (fun c => negb ((c =? 61) || (c =? 32))%N) dt = true
     /\ (rest = [] \/ exists e z, rest = e :: z /\ (e = 61%N \/ e = 32%N))
     /\ scan_date (c :: r) = (dt, rest)).
  { rewrite LinesProofs.scan_date_cut. destruct (LinesProofs.cut _ (c :: r)) as [[x y]|] eqn:C.
    - destruct (LinesProofs.cut_both _ _ _ _ C) as (E & F & e & z & -> & Pe). exists x, (e :: z). split; [exact E|]. split; [|split; [exact F|split; [|reflexivity]]].
      + intros ->. injection E as <- _. unfold is_digit in D. destruct (orb_prop _ _ Pe) as [X|X]; apply N.eqb_eq in X; subst; discriminate.
      + right. exists e, z. split; [reflexivity|]. apply orb_prop in Pe as [X|X]; apply N.eqb_eq in X; auto.
    - apply LinesProofs.cut_none in C. exists (c :: r), []. rewrite app_nil_r. split; [reflexivity|]. split; [discriminate|]. auto. }
  destruct C as (dt & rest & E & Ne & F & R & C). rewrite C in H. clear C.
  destruct (tokenize_aux_date rest) as [aux i]. inv_bind H. destruct v as [payee note]. inv_bind H. injection H as <-. exists v.
  unfold xact_create in EQ0. destruct (is_empty dt) eqn:Z; [destruct dt; [congruence|discriminate]|].
  inv_bind EQ0. inv_bind EQ1. injection EQ1 as <-. inv_bind EQ0. injection EQ0 as <-. cbn [x_date x_posts].
  unfold parse_date, unwrap in EQ2. destruct (parse_date_opt dt) as [d|] eqn:P; [|discriminate]. injection EQ2 as <-. exists d. split; [reflexivity|].
  split; [reflexivity|]. split; [reflexivity|]. exists dt, rest. split; [exact E|]. split.
  - split; [exact Ne|]. eapply eq_trans; [|exact F]. apply forallb_ext. intros x. f_equal. change (one_of " =" x) with ((x =? 32)%N || ((x =? 61)%N || false)). destruct (x =? 32)%N, (x =? 61)%N; reflexivity.
  - split; [apply parse_date_iff, P|]. destruct R as [->|(e & z & -> & He)]; [left; reflexivity|right]. exists e, z. split; [reflexivity|].
    destruct He as [-> | ->]; cbn; auto.
Qed.

(** ** Directives *)
Lemma general_kinds inc j l j' : general_directive inc j l = Ok j' ->
  (exists arg, include_line l arg /\ inc arg j = Ok j') \/ (read_as_price l /\ exists p, parse_price_directive (j_pool j) l = Ok p /\ j' = set_pool j p).
Proof.
  rewrite ReadingFacts.general_eq. destruct (take_word l) as [x i] eqn:W. cbn [fst snd]. destruct x as [|c d]; [discriminate|].
  destruct (c =? 97)%N; [discriminate|]. destruct (N.eqb_spec c 105) as [->|]; [|discriminate].
  apply ReadingFacts.take_word_inv in W as (v & W & V & F & G).
  destruct (str_eqb (105%N :: d) (lit "include")) eqn:S1.
  - apply str_eqb_eq in S1. destruct (take_word i) as [y k] eqn:W2. cbn [fst]. destruct y as [|e y]; [discriminate|]. intros H. left. exists (e :: y).
    split; [|exact H]. apply ReadingFacts.take_word_inv in W2 as (v' & W2 & V' & F' & G').
    exists v, v', k. rewrite W, S1, W2. split; [reflexivity|]. split; [exact V|]. split.
    + intros ->. cbn in W2. destruct G as [->|(g & r' & -> & Hg)]; [discriminate|]. injection W2 as <- _. cbn in F'. rewrite Hg in F'. discriminate.
    + split; [exact V'|]. split; [split; [discriminate|exact F']|exact G'].
  - destruct (str_eqb (105%N :: d) (lit "import")) eqn:S2; [discriminate|]. intros H. right. split.
    + exists v, (105%N :: d), i. split; [exact W|]. split; [exact V|]. split; [split; [discriminate|exact F]|]. split; [exact G|]. split; [reflexivity|].
      split; intros E; rewrite E in *; rewrite str_eqb_refl in *; discriminate.
    + unfold ReadingFacts.price_line_on in H. inv_bind H. injection H as <-. eauto.
Qed.

(** ** The commodities known *)
Definition known (p : pool) (s : str) : Prop := pool_find p s <> None.
Definition token_symbol (tk : post_tokens) (s : str) : Prop :=
  s <> [] /\ (s = t_symbol tk \/ s = t_price_commodity tk \/ s = t_cost_symbol tk /\ t_cost_quantity tk <> [] /\ d_from_str (t_quantity tk) <> None).
Definition scanned (l : str) (s : str) : Prop := exists tk, scan_post (trim_start l) = Ok tk /\ token_symbol tk s.
Lemma known_foc p s a x : known (fst (pool_find_or_create p s a)) x <-> known p x \/ (x = s /\ s <> []).
Proof. apply find_foc. Qed.
Lemma parse_post_known j xi r j' : parse_post j xi (trim_start r) = Ok j' ->
  forall s, known (j_pool j') s <-> known (j_pool j) s \/ scanned r s.
Proof.
  unfold parse_post. intros H s. inv_bind H. rename v into tk, EQ into Sc. inv_bind H. destruct v as [m1 acct].
  assert (S : scanned r s <-> token_symbol tk s).
  { split; [intros (tk' & E & T); congruence|intros T; exists tk; auto]. }
  rewrite S. clear S. unfold token_symbol, parse_amount_parts in *.
  pose proof (known_foc (j_pool j) (t_symbol tk) None s) as K1. destruct (pool_find_or_create (j_pool j) (t_symbol tk) None) as [p1 c1]. cbn [fst] in K1.
  inv_bind H. destruct v as [p2 ann]. unfold annotation_parse in EQ0.
  pose proof (known_foc p1 (t_price_commodity tk) None s) as K2. destruct (pool_find_or_create p1 (t_price_commodity tk) None) as [p2' c2]. cbn [fst] in K2. inv_bind EQ0. injection EQ0 as -> <-.
  match type of H with context [pool_find_or_create p2 (t_symbol tk) ?a] => pose proof (known_foc p2 (t_symbol tk) a s) as K3; destruct (pool_find_or_create p2 (t_symbol tk) a) as [p3 c3] end. cbn [fst] in K3.
  inv_bind H. destruct v0 as [p4 cost]. destruct (nth_error _ _); [|discriminate]. inv_bind H. injection H as <-. cbn [j_pool].
  assert (K4 : known p4 s <-> known p3 s \/ (s = t_cost_symbol tk /\ s <> [] /\ t_cost_quantity tk <> [] /\ d_from_str (t_quantity tk) <> None)).
  { unfold parse_cost in EQ0. destruct (d_from_str (t_quantity tk)) as [q|]; cbn [option_map] in EQ0.
    2:{ injection EQ0 as <- _. tauto. }
    destruct (t_cost_quantity tk) as [|cq cqs] eqn:Cq; cbn [is_empty] in EQ0.
    { injection EQ0 as <- _. tauto. }
    unfold parse_amount_parts in EQ0. pose proof (known_foc p3 (t_cost_symbol tk) None s) as K. destruct (pool_find_or_create p3 (t_cost_symbol tk) None) as [p5 c5]. cbn [fst] in K.
    assert (E : p4 = p5).
    { destruct (d_from_str (cq :: cqs)) as [u|]; cbn [option_map] in EQ0; [|congruence]. destruct (t_is_per_unit tk); [inv_bind EQ0|]; congruence. }
    subst p5. rewrite K. split; (intros [A|A]; [left; exact A|right]).
    - destruct A as [-> A]. repeat split; auto; discriminate.
    - destruct A as (-> & A & _). auto. }
  rewrite K4, K3, K2, K1. clear. assert (D : s = [] \/ s <> []) by (destruct s; [left; reflexivity|right; discriminate]). destruct D as [->|D].
  - split; [|tauto]. intros [[[[A|[A B]]|[A B]]|[A B]]|(A & B & _)]; try tauto; congruence.
  - split.
    + intros [[[[A|[A B]]|[A B]]|[A B]]|(A & B & C)]; tauto.
    + intros [A|(_ & [A|[A|(A & B & C)]])]; [tauto| | |tauto]; subst; tauto.
Qed.
Lemma price_loop_comms date ps : forall p p' qs, price_loop date p ps = Ok (p', qs) -> p_comms p' = p_comms p.
Proof.
  induction ps as [|x ps IH]; intros p p' qs H; cbn [price_loop] in H; [injection H as <- _; reflexivity|].
  inv_bind H. destruct v as [p1 x1]. inv_bind H. destruct v as [p2 x2]. injection H as <- _. rewrite (IH _ _ _ EQ0).
  destruct (po_cost x) as [c|]; [|injection EQ as <- _; reflexivity]. destruct (po_amount x) as [a|]; [|discriminate].
  destruct (comm_eqb _ _); [discriminate|]. inv_bind EQ. inv_bind EQ. destruct v0 as [bd np]. inv_bind EQ. injection EQ as <- _.
  destruct np as [pr|]; [|injection EQ3 as <-; reflexivity]. unfold pool_add_price_struct in EQ3. apply PoolFacts.add_price_inv in EQ3 as (? & ? & ? & ? & _ & _ & _ & _ & _ & ->). reflexivity.
Qed.
Lemma finalize_known j xi j' : finalize j xi = Ok j' -> forall s, known (j_pool j') s <-> known (j_pool j) s.
Proof.
  intros H s. unfold finalize in H. destruct (nth_error _ _) as [x|]; [|discriminate]. inv_bind H. destruct v as [p ps]. injection H as <-. cbn [j_pool].
  unfold finalize_posts in EQ. inv_bind EQ. destruct v as [b np]. destruct (length _ =? 1); [discriminate|]. inv_bind EQ. destruct v as [ps1 b1]. inv_bind EQ. destruct v as [p2 ps2].
  assert (E : p = p2).
  { destruct np; [|congruence]. destruct b1 as [|? [|? ?]]; congruence. }
  subst p2. unfold known, pool_find. rewrite (price_loop_comms _ _ _ _ _ EQ2). tauto.
Qed.
Lemma create_known j l j' : create_xact j l = Ok j' -> j_pool j' = j_pool j.
Proof. unfold create_xact. intros H. inv_bind H. destruct v as [[[d a] p] n]. inv_bind H. injection H as <-. reflexivity. Qed.
(** The commodities that [p'] knows and [p] does not are those of the items. *)
Definition price_symbol (l s : str) : Prop := exists dt tm a q b, scan_price_directive l = Ok (dt, tm, a, q, b) /\ (s = a \/ s = b).
Definition mentions (its : list item) (s : str) : Prop := (exists l, In l (posting_lines its) /\ scanned l s) \/ exists l, In l (price_lines its) /\ price_symbol l s.
Definition gains (p p' : pool) (its : list item) : Prop := forall s, known p' s <-> known p s \/ mentions its s.
Lemma mentions_app its its' s : mentions (its ++ its') s <-> mentions its s \/ mentions its' s.
Proof.
  unfold mentions, posting_lines, price_lines, xact_lines. rewrite !flat_map_app. split.
  - intros [(l & A & B)|(l & A & B)]; apply in_app_or in A as [A|A]; eauto 6.
  - intros [[(l & A & B)|(l & A & B)]|[(l & A & B)|(l & A & B)]]; [left|right|left|right]; exists l; (split; [apply in_or_app; auto|exact B]).
Qed.
Lemma mentions_lines o s : mentions [Lines o] s <-> exists l, In l (snd o) /\ scanned l s.
Proof. unfold mentions, posting_lines. cbn. rewrite app_nil_r. split; [intros [A|(l & [] & _)]; exact A|auto]. Qed.
Lemma mentions_price l s : mentions [Price_line l] s <-> price_symbol l s.
Proof. unfold mentions, posting_lines. cbn. split; [intros [(x & [] & _)|(x & [->|[]] & A)]; exact A|eauto 6]. Qed.
Lemma said_scan l s t w v : price_said l (s, t, w, v) -> exists dt tm q, scan_price_directive l = Ok (dt, tm, s, q, t).
Proof.
  intros (c & w1 & dt & w2 & clock & s' & w4 & q & w5 & t' & rest & d & tm & v' & C & El & S1 & G2 & G4 & G5 & Ed & Es & Eq & Et & St & _ & B & _ & _ & [= -> -> _ _]).
  destruct B as [(-> & D & _)|(time & w3 & -> & Ei & Di & G3 & _)].
  - exists dt, [], q. eapply scan_said; try eassumption. left. auto.
  - exists dt, time, q. eapply scan_said; try eassumption. right. eauto.
  Unshelve. exact [].
Qed.
Lemma recorded_app its xs rs its' xs' rs' : recorded its xs rs -> recorded its' xs' rs' -> recorded (its ++ its') (xs ++ xs') (rs ++ rs').
Proof.
  induction 1 as [|o x its xs r0 rs R X H IH|l r its xs rs P H IH]; intros G; [exact G| |].
  - cbn [app]. rewrite <- app_assoc. constructor; auto.
  - cbn [app]. constructor; auto.
Qed.
Lemma recorded_read its xs rs : recorded its xs rs -> Forall2 read_from (xact_lines its) xs.
Proof. induction 1; [constructor|constructor; assumption|assumption]. Qed.

(** ** Reading *)
Section Outline.
  Variables (cwd : str) (fs : filesystem).
  Definition inc_outline (arg : str) (its : list item) : Prop :=
    exists p, names_file cwd arg p /\ ((its = [] /\ (fs p = None \/ ~ file_path p)) \/ (exists f, fs p = Some f /\ outline cwd fs None f its)).
  (** What is told of the items, from the pool [p] on. *)
  Definition tells (its : list item) (new : list xact) (p p' : pool) : Prop :=
    exists rs, recorded its new rs /\ gains p p' its /\ prices_after p rs p'.
  Definition outlines (inc : str -> journal -> outcome journal) : Prop :=
    forall arg j j', inv Top j -> inc arg j = Ok j' ->
      exists its new, inc_outline arg its /\ j_xacts j' = j_xacts j ++ new /\ tells its new (j_pool j) (j_pool j').
  Definition state (m : mode) (cur : option lines_read) (j : journal) (pre : list xact) : Prop :=
    match m, cur with
    | Top, None => j_xacts j = pre
    | InXact xi, Some o => exists x, j_xacts j = pre ++ [x] /\ length pre = xi /\ read_from o x
        /\ forall l s, In l (snd o) -> scanned l s -> known (j_pool j) s
    | _, _ => False
    end.
  Lemma current_lines h ps src its l : outline cwd fs (Some (h, ps)) src its -> In l ps -> In l (posting_lines its).
  Proof.
    revert h ps its. induction src as [|x src IH]; intros h ps its O L; inversion O; subst; unfold posting_lines, xact_lines; cbn [flat_map snd app]; try (apply in_or_app; left; exact L).
    - eapply IH; eassumption.
    - eapply IH; [eassumption|apply in_or_app; left; exact L].
  Qed.
  Definition told (cur : option lines_read) (src : source) (pre : list xact) (p : pool) (j' : journal) : Prop :=
    exists its new, outline cwd fs cur src its /\ j_xacts j' = pre ++ new /\ tells its new p (j_pool j').
  Lemma told_as cur src cur' src' pre p j' : (forall its, outline cwd fs cur src its -> outline cwd fs cur' src' its) -> told cur src pre p j' -> told cur' src' pre p j'.
  Proof. intros H (its & new & O & R). exists its, new. split; [apply H, O|exact R]. Qed.
  Lemma gains_same p : gains p p [].
  Proof. intros s. split; [auto|]. intros [H|[(l & [] & _)|(l & [] & _)]]. exact H. Qed.
  Lemma tells_nothing p : tells [] [] p p.
  Proof. exists []. split; [constructor|]. split; [apply gains_same|apply after_nothing]. Qed.
  Lemma tells_app its new p q its' new' r : tells its new p q -> tells its' new' q r -> tells (its ++ its') (new ++ new') p r.
  Proof.
    intros (rs & R & G & P) (rs' & R' & G' & P'). exists (rs ++ rs'). split; [apply recorded_app; assumption|]. split; [|eapply after_app; eassumption].
    intros s. rewrite (G' s), (G s), mentions_app. tauto.
  Qed.
  Lemma final_state xi o j pre j' : inv (InXact xi) j -> state (InXact xi) (Some o) j pre -> finalize j xi = Ok j' ->
    exists x, j_xacts j' = pre ++ [x] /\ tells [Lines o] [x] (j_pool j) (j_pool j').
  Proof.
    intros I (x & E & L & ((d & D & X) & F) & K) H. destruct (final_records _ _ _ I H) as (x' & rs & Nx & Rr & Pa).
    assert (Kn := finalize_known _ _ _ H).
    unfold finalize in H. rewrite E, nth_error_app2, <- L, Nat.sub_diag in H by lia. cbn [nth_error] in H.
    inv_bind H. destruct v as [pl ps]. injection H as <-. cbn [j_xacts j_pool] in *. rewrite (update_nth_mid (fun x => set_posts x ps) pre x []) in *.
    rewrite nth_error_app2, <- L, Nat.sub_diag in Nx by lia. injection Nx as Nx. exists (set_posts x ps). split; [reflexivity|].
    assert (R : read_from o (set_posts x ps)).
    { apply finalize_frame in EQ. split; [exists d; auto|]. cbn [x_posts set_posts]. clear -F EQ.
      revert ps EQ. induction F as [|l p ls ps' (a & A & B) F IH]; intros qs Q; inversion Q as [|? q ? qs' S Q']; subst; constructor.
      - exists a. split; [exact A|]. destruct S as [S _]. congruence.
      - apply IH, Q'. }
    exists (rs ++ []). split; [constructor; [exact R|rewrite Nx; exact Rr|constructor]|]. split.
    - intros s. rewrite (Kn s), mentions_lines. split; [auto|]. intros [A|(l & A & B)]; [exact A|eapply K; eassumption].
    - rewrite app_nil_r. exact Pa.
  Qed.
  Lemma tells_start its new p p' q : (forall s, known p' s -> known p s \/ mentions its s) -> (forall s, known p s -> known p' s) -> same_prices p p' -> tells its new p' q -> tells its new p q.
  Proof.
    intros A B S (rs & R & G & P). exists rs. split; [exact R|]. split; [|eapply after_same; eassumption]. intros s. rewrite (G s). split; [intros [H|H]; auto|intros [H|H]; auto].
  Qed.
  Lemma lines_outline inc src : outlines inc -> JournalFacts.keeps inv inc -> forall m cur j pre j', inv m j -> state m cur j pre -> parse_lines inc m j src = Ok j' ->
    told cur src pre (j_pool j) j'.
  Proof.
    intros HI HK. induction src as [|l src IH]; intros m cur j pre j' I S H; cbn [parse_lines] in H.
    - destruct m as [|xi], cur as [o|]; try (destruct S; fail).
      + injection H as <-. cbn in S. exists [], []. rewrite app_nil_r. split; [constructor|]. split; [exact S|apply tells_nothing].
      + destruct (final_state _ _ _ _ _ I S H) as (x & E & T). exists [Lines o], [x]. split; [constructor|]. split; [exact E|exact T].
    - inv_bind H.
      assert (I2 := step_preserves inv inv_create inv_post inv_note inv_final inv_price inc m j l v HK I EQ).
      assert (Done : forall xi o j1, inv (InXact xi) j -> state (InXact xi) (Some o) j pre -> finalize j xi = Ok j1 -> inv Top j1 -> parse_lines inc Top j1 src = Ok j' ->
        exists its new, outline cwd fs None src its /\ j_xacts j' = pre ++ new /\ tells (Lines o :: its) new (j_pool j) (j_pool j')).
      { intros xi o j1 I0 St Fi I1 P. destruct (final_state _ _ _ _ _ I0 St Fi) as (x & E & T).
        destruct (IH Top None j1 (pre ++ [x]) j' I1 E P) as (its & new & O & Ej & T'). exists its, (x :: new). split; [exact O|]. split; [rewrite Ej, <- app_assoc; reflexivity|].
        exact (tells_app _ _ _ _ _ _ _ T T'). }
      destruct m as [|xi], cur as [o|]; try (destruct S; fail).
      + cbn in S. destruct l as [l|]; cbn [step] in EQ.
        2:{ injection EQ as <-. injection H as <-. exists [], []. rewrite app_nil_r. split; [constructor|]. split; [exact S|apply tells_nothing]. }
        unfold top_line in EQ. destruct (str_eqb l [13%N; 10%N] || str_eqb l [10%N]) eqn:B.
        { injection EQ as <-. eapply told_as; [|apply (IH Top None j pre j' I S H)]. intros its O. constructor; [|exact O].
          exists l. split; [reflexivity|]. apply orb_prop in B as [B|B]; apply str_eqb_eq in B; auto. }
        destruct l as [|c r]; [discriminate|].
        destruct ((c =? 59) || (c =? 35) || (c =? 42) || (c =? 124))%N eqn:K.
        { injection EQ as <-. eapply told_as; [|apply (IH Top None j pre j' I S H)]. intros its O. constructor; [|exact O].
          exists (c :: r). split; [reflexivity|]. right. right. exists c, r. split; [reflexivity|].
          repeat (apply orb_prop in K as [K|K]); apply N.eqb_eq in K; subst c; cbn; auto. }
        destruct (N.eqb_spec c 45) as [->|N45].
        { injection EQ as <-. eapply told_as; [|apply (IH Top None j pre j' I S H)]. intros its O. constructor; [|exact O].
          exists (45%N :: r). split; [reflexivity|]. right. right. exists 45%N, r. split; [reflexivity|]. cbn; auto 8. }
        destruct (is_digit c) eqn:D.
        { inv_bind EQ. injection EQ as <-. cbn in I2. rewrite <- (create_known _ _ _ EQ0). destruct (create_date _ _ _ _ D EQ0) as (x & d & -> & Xp & Xd & Dh).
          eapply told_as; [|eapply (IH (InXact (length (j_xacts j))) (Some (c :: r, []))); [exact I2| |exact H]].
          - intros its O. apply ol_header; assumption.
          - exists x. cbn [j_xacts set_xacts]. rewrite S. split; [reflexivity|]. split; [reflexivity|]. split; [split; [exists d; auto|]; rewrite Xp; constructor|]. intros ? ? []. }
        destruct ((c =? 32) || (c =? 9))%N; [discriminate|]. inv_bind EQ. injection EQ as <-. cbn in I2.
        destruct (general_kinds _ _ _ _ EQ0) as [(arg & Hl & Hinc)|(Hp & pl & Hd & ->)].
        * destruct (HI arg j v0 I Hinc) as (its1 & new1 & (p & Np & O1) & E1 & T1).
          destruct (IH Top None v0 (pre ++ new1) j' I2) with (2 := H) as (its & new & O & E & T); [cbn; congruence|].
          exists (its1 ++ its), (new1 ++ new). split; [|split; [rewrite E, <- app_assoc; reflexivity|exact (tells_app _ _ _ _ _ _ _ T1 T)]].
          destruct O1 as [(-> & Mi)|(f & Ef & O1)]; [eapply ol_missing|eapply ol_include]; eassumption.
        * destruct (IH Top None (set_pool j pl) pre j' I2) with (2 := H) as (its & new & O & E & T); [exact S|].
          exists (Price_line (c :: r) :: its), new. split; [apply ol_price; assumption|]. split; [exact E|].
          change (Price_line (c :: r) :: its) with ([Price_line (c :: r)] ++ its). change new with ([] ++ new). eapply tells_app; [|exact T]. cbn [j_pool set_pool].
          destruct (directive_said _ _ _ (PoolFacts.reachable_wf _ (i_pool _ _ I)) Hd) as ([[[s t] w] u] & Sd & Pa & Kn). exists [(s, t, w, u)].
          split; [constructor; [exact Sd|constructor]|]. split; [|exact Pa]. intros x. rewrite mentions_price. unfold known. rewrite (Kn x). cbn [fst snd].
          destruct (said_scan _ _ _ _ _ Sd) as (dt & tm & q & Sc). unfold price_symbol. rewrite Sc. split; (intros [A|A]; [left; exact A|right]).
          -- exists dt, tm, s, q, t. auto.
          -- destruct A as (? & ? & ? & ? & ? & [= <- <- <- <- <-] & A). exact A.
      + destruct l as [l|]; cbn [step] in EQ.
        2:{ inv_bind EQ. injection EQ as <-. destruct (Done xi o v0 I S EQ0 I2 H) as (its & new & O & R). exists (Lines o :: its), new. split; [constructor; exact O|exact R]. }
        destruct l as [|c r]; [discriminate|]. rewrite ReadingFacts.xact_line_eq in EQ. destruct (N.eqb_spec c 32) as [->|N32].
        * change (32%N :: r) with ([32%N] ++ r) in EQ. rewrite trim_start_app in EQ by reflexivity.
          destruct (trim_start_spec r) as (w & Er & W & Sw). destruct (trim_start r) as [|d s] eqn:Tr.
          -- unfold ReadingFacts.fin in EQ. inv_bind EQ. injection EQ as <-. destruct (Done xi o v0 I S EQ0 I2 H) as (its & new & O & R).
             exists (Lines o :: its), new. split; [|exact R]. apply ol_blank; [|reflexivity|exact O]. rewrite app_nil_r in Er. subst w. exact W.
          -- cbn in Sw. destruct o as [h ps]. destruct (N.eqb_spec d 59) as [->|N59].
             ++ inv_bind EQ. injection EQ as <-. destruct S as (x & Ex & Lx & ((dd & Dd & Xd) & Fp) & K).
                rewrite (journal_eta j), Ex, <- Lx in EQ0. apply note_inv in EQ0 as (x' & -> & X1 & X2 & _).
                eapply told_as; [|change (j_pool j) with (j_pool (mkJournal (j_master j) (j_pool j) (pre ++ [x']))); eapply (IH (InXact xi) (Some (h, ps))); [exact I2| |exact H]].
                ** intros its O. apply ol_note; [|exact O]. exists w, s. auto.
                ** exists x'. split; [reflexivity|]. split; [exact Lx|]. split; [|exact K].
                   split; [exists dd; split; [exact Dd|congruence]|]. cbn [snd] in *. clear -Fp X2. revert X2 Fp. generalize (x_posts x') as qs. generalize (x_posts x) as ps'. intros ps' qs E F.
                   revert qs E. induction F as [|l p ls ps' A F IH]; intros [|q qs] E; try discriminate; constructor; injection E as E1 E2.
                   --- destruct A as (a & A & B). exists a. split; [exact A|]. cbn in E1. congruence.
                   --- apply IH, E2.
             ++ inv_bind EQ. injection EQ as <-. destruct (parse_post_account j xi r d s v0 (i_tree _ _ I) Tr EQ0) as (a & amt & cost & Aw & Ex').
                assert (Kn : forall s, known (j_pool v0) s <-> known (j_pool j) s \/ scanned r s) by (apply (parse_post_known j xi); rewrite Tr; exact EQ0).
                assert (Sp := parse_post_prices _ _ _ _ (PoolFacts.reachable_wf _ (i_pool _ _ I)) EQ0).
                destruct S as (x & Ex & Lx & ((dd & Dd & Xd) & Fp) & K).
                destruct (IH (InXact xi) (Some (h, ps ++ [r])) v0 pre j' I2) with (2 := H) as (its & new & O & E & T).
                ** eexists. split; [rewrite Ex'; unfold add_post; rewrite Ex, <- Lx; rewrite (update_nth_mid (fun x => set_posts x (x_posts x ++ [mkPost (components a) amt cost None])) pre x []); reflexivity|].
                   split; [exact Lx|]. split; [split; [exists dd; auto|]; cbn [snd x_posts set_posts]; apply Forall2_app; [exact Fp|]; constructor; [|constructor]; exists a; auto|].
                   intros l s0 Hl Hs. apply Kn. cbn [snd] in Hl. apply in_app_or in Hl as [Hl|[<-|[]]]; [left; eapply K; eassumption|right; exact Hs].
                ** exists its, new. split; [eapply (ol_posting _ _ _ _ _ d); [exists w, s; auto|exact N59|exact O]|]. split; [exact E|].
                   assert (Hr : In r (posting_lines its)) by (eapply current_lines; [exact O|apply in_or_app; right; left; reflexivity]).
                   eapply tells_start; [| |exact Sp|exact T]; intros s0 A; [|apply Kn; auto].
                   apply Kn in A as [A|A]; [left; exact A|right; left; exists r; auto].
        * destruct ((c =? 13) || (c =? 10))%N eqn:B; [|discriminate]. unfold ReadingFacts.fin in EQ. inv_bind EQ. injection EQ as <-.
          destruct (Done xi o v0 I S EQ0 I2 H) as (its & new & O & R). exists (Lines o :: its), new. split; [|exact R]. apply ol_return; [|exact O]. cbn.
          apply orb_prop in B as [B|B]; apply N.eqb_eq in B; auto.
  Qed.
  Lemma include_outlines depth : outlines (include_file depth cwd fs).
  Proof.
    induction depth as [|d IH]; intros arg j j' I H; cbn [include_file] in H; [discriminate|]. inv_bind H.
    set (p := resolve cwd arg). assert (Np : names_file cwd arg p) by (apply ReadingFacts.names_resolve; reflexivity).
    destruct v as [src|].
    - apply ReadingFacts.included_some in EQ. 
      destruct (lines_outline (include_file d cwd fs) src IH) with (4 := H) (cur := @None lines_read) (pre := j_xacts j) as (its & new & O & R).
      + apply (include_preserves inv inv_create inv_post inv_note inv_final inv_price).
      + exact I.
      + reflexivity.
      + exists its, new. split; [|exact R]. exists p. split; [exact Np|]. right. exists src. auto.
    - injection H as <-. exists [], []. rewrite app_nil_r. split; [|split; [reflexivity|apply tells_nothing]]. exists p. split; [exact Np|]. left. split; [reflexivity|].
      destruct (fs p) as [f|] eqn:Ef; [right|left; reflexivity]. intros Fp. rewrite (ReadingFacts.included_file _ _ _ _ Np Fp) in EQ. congruence.
  Qed.
End Outline.
Lemma read_told depth cwd fs src j j' : reachable_journal j -> read_into_journal depth cwd fs src j = Ok j' -> told cwd fs None src (j_xacts j) (j_pool j) j'.
Proof.
  intros R H. eapply (lines_outline cwd fs (include_file depth cwd fs) src); [apply include_outlines| |apply reachable_inv, R|reflexivity|exact H].
  apply (include_preserves inv inv_create inv_post inv_note inv_final inv_price).
Qed.
Lemma read_outline depth cwd fs src j j' : reachable_journal j -> read_into_journal depth cwd fs src j = Ok j' ->
  exists its new, outline cwd fs None src its /\ j_xacts j' = j_xacts j ++ new /\ Forall2 read_from (xact_lines its) new.
Proof.
  intros R H. destruct (read_told _ _ _ _ _ _ R H) as (its & new & O & E & rs & F & _). exists its, new. split; [exact O|]. split; [exact E|]. eapply recorded_read, F.
Qed.
Lemma read_prices depth cwd fs src j j' : reachable_journal j -> read_into_journal depth cwd fs src j = Ok j' ->
  exists its new rs, outline cwd fs None src its /\ j_xacts j' = j_xacts j ++ new /\ recorded its new rs /\ prices_after (j_pool j) rs (j_pool j').
Proof.
  intros R H. destruct (read_told _ _ _ _ _ _ R H) as (its & new & O & E & rs & F & _ & P). exists its, new, rs. auto.
Qed.

(** ** Commodities and accounts of a source *)
Lemma clear_scanned l tok s : clear_posting l tok -> (scanned l s <-> written_symbol tok s).
Proof.
  intros [P C]. pose proof (posting_scanned _ _ P) as S. rewrite LinesProofs.scan_post_eq in S. unfold scanned. rewrite LinesProofs.scan_post_eq.
  assert (T : trim_start (trim_start l) = trim_start l).
  { destruct (trim_start_spec l) as (w & _ & _ & H). destruct (trim_start l) as [|c t]; [reflexivity|]. apply trim_start_id, H. }
  rewrite T, S. unfold written_symbol, token_symbol. split.
  - intros (tk & [= <-] & N & K). split; [exact N|]. tauto.
  - intros (N & K). exists tok. split; [reflexivity|]. split; [exact N|]. destruct K as [K|[K|K]]; auto. right. right. split; [exact K|]. subst s.
    destruct C as [C|(u & k & C)]; [congruence|]. split.
    + destruct P as [|? ? ? ? ? ? ? ? ? ? ? c cq cs ? ? ? ? ? ? ? ? ? Hc]; cbn in *; [congruence|]. intros ->. inversion Hc; subst; [congruence| |];
      match goal with W : written_amount _ [] _ |- _ => inversion W as [? Q|? ? ? Q|? ? ? Q]; subst; destruct Q as [Q _]; congruence end.
    + destruct (PostProofs.denotes_read _ _ _ (t_symbol tok) C) as (d & -> & _). discriminate.
Qed.
Lemma recorded_said its xs rs l : recorded its xs rs -> In l (price_lines its) -> exists r, price_said l r.
Proof. induction 1 as [|o x its xs r0 rs R X H IH|k r its xs rs P H IH]; intros L; [destruct L|apply IH, L|]. destruct L as [<-|L]; [eauto|apply IH, L]. Qed.
Lemma read_commodities depth cwd fs src j j' : reachable_journal j -> read_into_journal depth cwd fs src j = Ok j' ->
  exists its, outline cwd fs None src its /\
    (Forall (fun l => exists tok, clear_posting l tok) (posting_lines its) ->
     forall s, pool_find (j_pool j') s <> None <-> pool_find (j_pool j) s <> None
       \/ (exists l tok, In l (posting_lines its) /\ clear_posting l tok /\ written_symbol tok s)
       \/ exists l a b w v, In l (price_lines its) /\ price_said l (a, b, w, v) /\ (s = a \/ s = b)).
Proof.
  intros R H. destruct (read_told _ _ _ _ _ _ R H) as (its & new & O & _ & rs & Rd & G & _). exists its. split; [exact O|]. intros F s. specialize (G s). unfold known in G. rewrite G.
  rewrite Forall_forall in F. split; (intros [A|[A|A]]; [left; exact A|right; left|right; right]).
  - destruct A as (l & Hl & S). destruct (F l Hl) as (tok & C). exists l, tok. split; [exact Hl|]. split; [exact C|]. apply (clear_scanned _ _ _ C), S.
  - destruct A as (l & Hl & (dt & tm & a & q & b & Sc & A)). destruct (recorded_said _ _ _ _ Rd Hl) as ([[[a' b'] w] v] & Sd). destruct (said_scan _ _ _ _ _ Sd) as (dt' & tm' & q' & Sc').
    rewrite Sc in Sc'. injection Sc' as <- <- <- <- <-. exists l, a, b, w, v. auto.
  - destruct A as (l & tok & Hl & C & W). exists l. split; [exact Hl|]. apply (clear_scanned _ _ _ C), W.
  - destruct A as (l & a & b & w & v & Hl & Sd & A). destruct (said_scan _ _ _ _ _ Sd) as (dt & tm & q & Sc). exists l. split; [exact Hl|]. exists dt, tm, a, q, b. auto.
Qed.
Lemma account_unique r a b : account_written r a -> account_written r b -> a = b.
Proof.
  intros (w & t & -> & W & (c & t' & -> & C) & A) (w' & u & E & W' & (d & u' & -> & D) & B).
  assert (X : c :: t' = d :: u').
  { apply (f_equal trim_start) in E. rewrite !trim_start_app in E by assumption. rewrite !trim_start_id in E by assumption. exact E. }
  rewrite X in *. clear E X w w' W W' C c t'. assert (T : forall v, is_ws v = false -> forall q s, spaces s -> trim_end ((q ++ [v]) ++ s) = q ++ [v]).
  { intros v V q s S. rewrite trim_end_app by exact S. apply trim_end_id. unfold ends_ws. rewrite rev_app_distr. exact V. }
  assert (F : forall a b, d :: u' = a ++ lit "  " ++ b -> ~ contains (lit "  ") (a ++ sp) -> find_sub (lit "  ") (d :: u') = Some (length a)).
  { intros x y -> N. apply find_sub_at; [discriminate|exact N]. }
  destruct A as [(x & Ea & Na)|(Na & v & Ea & Sv & q & e & -> & He)], B as [(y & Eb & Nb)|(Nb & v' & Eb & Sv' & q' & e' & -> & He')].
  - pose proof (F _ _ Ea Na) as F1. rewrite (F _ _ Eb Nb) in F1. injection F1 as F1. rewrite Ea in Eb. clear -F1 Eb. revert b F1 Eb. induction a as [|z a IH]; intros [|z' b] F1 Eb; try discriminate; [reflexivity|].
    cbn in F1, Eb. injection F1 as F1. injection Eb as -> Eb. f_equal. apply (IH _ F1 Eb).
  - elim Nb. rewrite Ea. exists a, x. reflexivity.
  - elim Na. rewrite Eb. exists b, y. reflexivity.
  - pose proof (T _ He q _ Sv) as T1. pose proof (T _ He' q' _ Sv') as T2. congruence.
Qed.
Lemma read_account_names depth cwd fs src j j' : reachable_journal j -> read_into_journal depth cwd fs src j = Ok j' ->
  exists its, outline cwd fs None src its /\
    forall q, exists_at (j_master j') q <-> exists_at (j_master j) q \/ exists l a, In l (posting_lines its) /\ account_written l a /\ prefix_of q (components a) = true.
Proof.
  intros R H. destruct (read_outline _ _ _ _ _ _ R H) as (its & new & O & E & F). exists its. split; [exact O|]. intros q.
  pose proof (reachable_inv _ R) as I. pose proof (JournalFacts.inv_read _ _ _ _ _ _ I H) as I'. rewrite (EndProofs.read_accounts _ _ _ _ _ _ q R H).
  assert (K : forall l os new, Forall2 read_from os new -> In l (flat_map snd os) -> exists p a, In p (flat_map x_posts new) /\ account_written l a /\ po_account p = components a).
  { clear. intros l os new F. induction F as [|o x os new [_ Fp] F IH]; [intros []|]. cbn [flat_map]. intros L. apply in_app_or in L as [L|L].
    - clear IH. induction Fp as [|r p rs ps (a & A & B) Fp IHp]; [destruct L|]. destruct L as [->|L]; [exists p, a; split; [apply in_or_app; left; left; reflexivity|auto]|].
      destruct (IHp L) as (p' & a' & A' & B'). exists p', a'. split; [right; exact A'|exact B'].
    - destruct (IH L) as (p & a & A & B). exists p, a. split; [apply in_or_app; right; exact A|exact B]. }
  assert (K' : forall p os new, Forall2 read_from os new -> In p (flat_map x_posts new) -> exists l a, In l (flat_map snd os) /\ account_written l a /\ po_account p = components a).
  { clear. intros p os new F. induction F as [|o x os new [_ Fp] F IH]; [intros []|]. cbn [flat_map]. intros L. apply in_app_or in L as [L|L].
    - clear IH. induction Fp as [|r p' rs ps (a & A & B) Fp IHp]; [destruct L|]. destruct L as [->|L]; [exists r, a; split; [left; reflexivity|auto]|].
      destruct (IHp L) as (l' & a' & A' & B'). exists l', a'. split; [right; exact A'|exact B'].
    - destruct (IH L) as (l & a & A & B). exists l, a. split; [apply in_or_app; right; exact A|exact B]. }
  unfold all_posts. rewrite E, flat_map_app. split; (intros [A|A]; [left; exact A|]).
  - destruct A as (p & Hp & Q). apply in_app_or in Hp as [Hp|Hp].
    + left. destruct (EndProofs.in_get_post _ _ Hp) as (r & Hr). eapply EndProofs.exists_prefix; [|exact Q]. apply (proj2 (i_links _ _ I) r). unfold account_of. rewrite Hr. reflexivity.
    + right. destruct (K' _ _ _ F Hp) as (l & a & Hl & Ha & Ep). exists l, a. rewrite <- Ep. auto.
  - right. destruct A as (l & a & Hl & Ha & Q). destruct (K _ _ _ F Hl) as (p & a' & Hp & Ha' & Ep). exists p. split; [apply in_or_app; right; exact Hp|].
    rewrite Ep, (account_unique _ _ _ Ha' Ha). exact Q.
Qed.

(** ** The outline of a source is unique *)
Definition first_word (l : str) : str := fst (take_word l).
Lemma first_word_head c r : is_ws c = false -> exists t, first_word (c :: r) = c :: t.
Proof.
  intros H. unfold first_word, take_word. rewrite trim_start_id by exact H. cbn [find_char]. rewrite H.
  destruct (find_char is_ws r); cbn [option_map fst firstn]; eauto.
Qed.
Lemma include_words l arg : include_line l arg -> first_word l = lit "include" /\ first_word (snd (take_word l)) = arg.
Proof.
  intros (ws0 & ws1 & rest & -> & S0 & N1 & S1 & W & R).
  assert (T : take_word (ws0 ++ lit "include" ++ ws1 ++ arg ++ rest) = (lit "include", ws1 ++ arg ++ rest)).
  { apply ReadingFacts.take_word_app; [exact S0|split; [discriminate|reflexivity]|]. right. destruct ws1 as [|c w]; [congruence|].
    unfold spaces in S1. cbn in S1. apply andb_prop in S1 as [S1 _]. exists c, (w ++ arg ++ rest). auto. }
  unfold first_word. rewrite T. cbn [fst snd]. rewrite ReadingFacts.take_word_app by assumption. auto.
Qed.
Lemma price_words l : read_as_price l -> first_word l <> lit "include" /\ hd 0%N (first_word l) = 105%N.
Proof.
  intros (w & x & r & -> & S & W & R & H & N1 & N2). unfold first_word. rewrite ReadingFacts.take_word_app by assumption. auto.
Qed.
Lemma inert_words l : inert (Some l) -> hd 0%N (first_word l) <> 105%N /\ is_digit (hd 0%N l) = false.
Proof.
  intros (k & [= <-] & [->|[->|(c & r & -> & I)]]); [split; [discriminate|reflexivity]|split; [discriminate|reflexivity]|].
  assert (W : is_ws c = false /\ c <> 105%N /\ is_digit c = false) by (cbn in I; destruct I as [<-|[<-|[<-|[<-|[<-|[]]]]]]; repeat split; discriminate).
  destruct W as (W & N & D). destruct (first_word_head c r W) as (t & ->). cbn. auto.
Qed.
Lemma digit_words c r : is_digit c = true -> hd 0%N (first_word (c :: r)) <> 105%N.
Proof.
  intros D. assert (W : is_ws c = false) by (apply is_digit_not_ws; exact D). destruct (first_word_head c r W) as (t & ->). cbn. intros ->. discriminate.
Qed.
Lemma mark_not_blank r c : first_mark r c -> spaces (32%N :: r) -> False.
Proof.
  intros (w & t & -> & _ & N) S. unfold spaces in S. cbn in S. rewrite forallb_app in S. cbn in S. rewrite N, andb_false_r in S. discriminate.
Qed.
Lemma mark_unique r c d : first_mark r c -> first_mark r d -> c = d.
Proof.
  intros (w & t & -> & W & N) (w' & t' & E & W' & N').
  assert (X : trim_start (w ++ c :: t) = c :: t) by (rewrite trim_start_app by exact W; apply trim_start_id; exact N).
  assert (Y : trim_start (w' ++ d :: t') = d :: t') by (rewrite trim_start_app by exact W'; apply trim_start_id; exact N').
  rewrite E, Y in X. congruence.
Qed.
Lemma outline_unique cwd fs : (forall p, fs p <> None -> file_path p) -> forall cur src its, outline cwd fs cur src its ->
  forall its', outline cwd fs cur src its' -> its' = its.
Proof.
  intros P cur src its H. induction H as [ |x|src|x src its H IH|l src its K H IH|l src its K H IH|l arg p src its K Np M H IH|l arg p f src its its2 K Np Ef H IH H2 IH2|c r src its D H IH
    |h ps r src its K H IH|h ps r c src its K N H IH|x l src its K Hd H IH|x l src its Hd H IH]; intros its' G; inversion G; subst; try reflexivity;
  repeat match goal with
  | A : inert None |- _ => destruct A as (? & ? & _); discriminate
  | A : inert (Some _) |- _ => apply inert_words in A as [? ?]
  | A : read_as_price _ |- _ => apply price_words in A as [? ?]
  | A : is_digit ?c = true, B : context [first_word (?c :: ?r)] |- _ => lazymatch goal with X : hd 0%N (first_word (c :: r)) <> 105%N |- _ => fail | _ => pose proof (digit_words c r A) end
  end;
  repeat match goal with
  | A : include_line ?l ?a |- _ => apply include_words in A as [? ?]
  | A : names_file _ _ _ |- _ => apply ReadingFacts.names_resolve in A
  end;
  try match goal with A : first_word _ = lit "include", B : hd 0%N (first_word _) <> 105%N |- _ => rewrite A in B; elim B; reflexivity end;
  try match goal with A : is_digit ?c = true, B : first_word (?c :: ?r) = lit "include" |- _ => elim (digit_words c r A); rewrite B; reflexivity end;
  try congruence;
  try (match goal with A : first_mark ?r _, B : spaces (32%N :: ?r) |- _ => destruct (mark_not_blank _ _ A B) end);
  try (cbn in *; intuition discriminate);
  try (match goal with A : outline cwd fs ?c src ?o, B : forall its', outline cwd fs ?c src its' -> _ |- _ => rewrite (B _ A); reflexivity end);
  try (apply IH; assumption).
  all: try match goal with A : first_mark ?r ?c, B : first_mark ?r ?d |- _ => assert (c = d) by (eapply mark_unique; eassumption); subst; congruence end.
  all: try (cbn in *; congruence).
  - exfalso. match goal with A : fs ?q = None \/ _ |- _ => destruct A as [A|A]; [congruence|apply A, P; congruence] end.
  - exfalso. match goal with A : fs ?q = None \/ _ |- _ => destruct A as [A|A]; [congruence|apply A, P; congruence] end.
  - match goal with E1 : fs _ = Some f, E2 : fs _ = Some ?g |- _ => assert (g = f) by congruence; subst g end.
    match goal with A : outline cwd fs None f ?o, B : outline cwd fs None src ?o2 |- ?o ++ ?o2 = _ => rewrite (IH _ A), (IH2 _ B) end. reflexivity.
Qed.
