(** Which sources are refused. *)
From Coq Require Import String List NArith ZArith Bool Lia ZifyBool ZifyNat ZifyN.
From Verif Require Import Base BaseFacts Decimal Dates Amount Balance Scanner History Pool Account Journal Xact Parser.
From Verif Require Import SpecText SpecDecimal SpecAmount SpecReading SpecScan SpecDates SpecPool SpecAccount SpecXact SpecJournal SpecOutline SpecLine SpecValue SpecContent SpecRefused.
From Verif Require Import DecimalFacts BalanceFacts ScanFacts ScanProofs DatesFacts AccountFacts AccountProofs PoolFacts PriceProofs XactFacts XactProofs JournalFacts PostProofs ArithProofs ValueProofs LineReadProofs ContentProofs LiteralProofs RefusedFacts.
From Verif Require ReadingFacts LinesProofs OutlineProofs TerminationFacts.
Import ListNotations.
Open Scope nat_scope.

(** ** Headers *)
Lemma header_cases j c r : is_digit c = true ->
  match create_xact j (c :: r) with Ok _ => ~ header_refused (c :: r) | Panic _ => header_refused (c :: r) | Diverge => False end.
Proof.
  intros D. unfold create_xact. destruct (header_total (c :: r)) as (d & aux & payee & note & H); [discriminate|]. assert (E := proj2 (header_iff _ _ _ _ _) H). rewrite E. cbn [bind].
  assert (Nd : d <> []).
  { destruct H as (_ & r1 & r2 & (E1 & _ & R) & _). intros ->. cbn in E1. subst r1. unfold one_of in R. cbn in R. unfold is_digit in D. lia. }
  unfold xact_create. destruct d as [|d0 d]; [congruence|]. cbn [is_empty]. unfold parse_date, unwrap.
  assert (U : header_refused (c :: r) <-> ~ (exists e, denotes_date (d0 :: d) e) \/ aux <> [] /\ ~ exists e, denotes_date aux e).
  { split; [|intros X; exists (d0 :: d), aux, payee, note; auto]. intros (d' & aux' & payee' & note' & H' & X). apply header_iff in H'. rewrite E in H'. injection H' as <- <- _ _. exact X. }
  destruct (parse_date_opt (d0 :: d)) as [e|] eqn:P; cbn [bind].
  2:{ apply U. left. intros [e He]. apply parse_date_iff in He. congruence. }
  apply parse_date_iff in P. destruct aux as [|a0 aux]; cbn [is_empty bind].
  { rewrite U. intros [X|[X _]]; [apply X; eauto|congruence]. }
  destruct (parse_date_opt (a0 :: aux)) as [e'|] eqn:P'; cbn [bind].
  - apply parse_date_iff in P'. rewrite U. intros [X|[_ X]]; apply X; eauto.
  - apply U. right. split; [discriminate|]. intros [e' He]. apply parse_date_iff in He. congruence.
Qed.

(** ** Postings *)
Lemma account_nonempty l tok : post_read l tok -> t_account tok <> [].
Proof.
  intros H. destruct H as [l c x a w K N _ E W (a' & d & -> & _)|l c x a b q y r lq ly d r' cq cy u K N [E _] _ _ _]; cbn.
  - destruct a'; discriminate.
  - intros ->. cbn in E. injection E as -> _. destruct K as (w & _ & _ & K). discriminate.
Qed.
Lemma parse_cost_ends p tok a : ends (parse_cost p tok a).
Proof.
  unfold parse_cost. destruct a as [a|]; [|apply ends_ok]. destruct (is_empty _); [apply ends_ok|]. destruct (parse_amount_parts _ _ _) as [p1 [k|]]; [|apply ends_ok].
  destruct (t_is_per_unit tok); [|apply ends_ok]. apply ends_bind; [apply amt_mul_ends|]. intros. apply ends_ok.
Qed.
Lemma posting_cases j xi r x : wf_tree (j_master j) -> nth_error (j_xacts j) xi = Some x ->
  match parse_post j xi (trim_start r) with
  | Ok _ => ~ posting_refused r
  | Panic q => q = PArith \/ posting_refused r
  | Diverge => False
  end.
Proof.
  intros T Nx. unfold parse_post. assert (Es : scan_post (trim_start r) = scan_post r) by (rewrite !LinesProofs.scan_post_eq, trim_idem; reflexivity). rewrite Es.
  destruct (post_cases r) as [(tok & P)|F].
  2:{ destruct (proj2 (post_refused_iff r) F) as [p ->]. cbn [bind]. right. left. exact F. }
  assert (E := proj2 (post_iff _ _) P). rewrite E. cbn [bind].
  destruct (register_spec (j_master j) (t_account tok) T (account_nonempty _ _ P)) as (m' & -> & Wm & _ & Pm & _). cbn [bind].
  assert (U : posting_refused r <-> t_price_date tok <> [] /\ ~ exists e, denotes_date (t_price_date tok) e).
  { split; [|intros X; right; exists tok; auto]. intros [X|(tok' & P' & X)]; [apply post_refused_iff in X as [q X]; congruence|]. apply post_iff in P'. rewrite E in P'. injection P' as <-. exact X. }
  destruct (parse_amount_parts (j_pool j) (t_quantity tok) (t_symbol tok)) as [p1 amt]. unfold annotation_parse. destruct (pool_find_or_create p1 (t_price_commodity tok) None) as [p1' cc].
  destruct (t_price_date tok) as [|d0 d]; cbn [is_empty bind].
  - destruct (pool_find_or_create _ _ _) as [p3 c3]. 
    match goal with |- context [parse_cost ?a ?b ?c] => destruct (parse_cost_ends a b c) as [[[p4 k] ->]| ->] end; cbn [bind]; [|left; reflexivity]. rewrite Nx.
    destruct (push_post_spec m' (components (t_account tok)) (xi, length (x_posts x)) Wm) as (m2 & -> & _).
    { apply posts_at_exists. rewrite Pm. destruct (posts_at (j_master j) (components (t_account tok))); [discriminate|]. rewrite prefix_of_refl. discriminate. }
    cbn [bind]. rewrite U. intros [X _]. congruence.
  - unfold unwrap. destruct (parse_date_opt (d0 :: d)) as [e|] eqn:Pd; cbn [bind].
    2:{ right. apply U. split; [discriminate|]. intros [e He]. apply parse_date_iff in He. congruence. }
    apply parse_date_iff in Pd. destruct (pool_find_or_create _ _ _) as [p3 c3]. 
    match goal with |- context [parse_cost ?a ?b ?c] => destruct (parse_cost_ends a b c) as [[[p4 k] ->]| ->] end; cbn [bind]; [|left; reflexivity]. rewrite Nx.
    destruct (push_post_spec m' (components (t_account tok)) (xi, length (x_posts x)) Wm) as (m2 & -> & _).
    { apply posts_at_exists. rewrite Pm. destruct (posts_at (j_master j) (components (t_account tok))); [discriminate|]. rewrite prefix_of_refl. discriminate. }
    cbn [bind]. rewrite U. intros [_ X]. apply X. eauto.
Qed.

(** ** Prices *)
Lemma price_cases p l : reachable_pool p ->
  match parse_price_directive p l with Ok _ => ~ price_line_refused l | Panic _ => price_line_refused l | Diverge => False end.
Proof.
  intros R. unfold parse_price_directive. destruct (scan_price_directive l) as [[[[[date time] s] q] t]|x|] eqn:E; cbn [bind].
  2:{ left. apply price_refused_iff. eauto. }
  2:{ revert E. apply TerminationFacts.nd_scan_price. }
  assert (P := proj1 (price_iff _ _ _ _ _ _) E).
  assert (U : price_line_refused l <-> (~ (exists d, denotes_date date d) \/ time <> [] /\ ~ (exists v, denotes_time time v)
         \/ ~ (exists neg whole frac, quantity_text q neg whole frac) \/ s = [] \/ t = [] \/ s = t)).
  { split; [|intros X; right; exists date, time, s, q, t; auto]. intros [X|(date' & time' & s' & q' & t' & P' & X)]; [apply price_refused_iff in X as [y X]; congruence|].
    apply price_iff in P'. rewrite E in P'. injection P' as <- <- <- <- <-. exact X. }
  unfold unwrap. destruct (parse_date_opt date) as [d|] eqn:Pd; cbn [bind].
  2:{ apply U. left. intros [d Hd]. apply parse_date_iff in Hd. congruence. }
  apply parse_date_iff in Pd.
  assert (Tm : (exists tm, (if is_empty time then Ok midnight else match parse_time_opt time with Some a => Ok a | None => Panic PUnwrap end) = Ok tm /\ ~ (time <> [] /\ ~ exists v, denotes_time time v))
     \/ (if is_empty time then Ok midnight else match parse_time_opt time with Some a => Ok a | None => Panic PUnwrap end) = Panic PUnwrap /\ time <> [] /\ ~ exists v, denotes_time time v).
  { destruct time as [|c time]; cbn [is_empty]; [left; eexists; split; [reflexivity|]; intros [X _]; congruence|]. destruct (parse_time_opt (c :: time)) as [v|] eqn:Pt.
    - left. eexists. split; [reflexivity|]. intros [_ X]. apply X. exists v. apply parse_time_iff, Pt.
    - right. split; [reflexivity|]. split; [discriminate|]. intros [v Hv]. apply parse_time_iff in Hv. congruence. }
  destruct Tm as [(tm & -> & Nt)|(-> & Bt)]; cbn [bind]; [|apply U; right; left; exact Bt].
  destruct (pool_find_or_create p s None) as [p1 c] eqn:E1. destruct (d_from_str q) as [dq|] eqn:Eq; cbn [bind].
  2:{ apply U. right. right. left. intros X. apply quantity_text_iff in X as [dq X]. congruence. }
  assert (Q : exists neg whole frac, quantity_text q neg whole frac) by (apply quantity_text_iff; eauto).
  destruct (pool_find_or_create p1 t None) as [p2 cc] eqn:E2. unfold pool_add_price.
  destruct s as [|s0 s]; [cbn in E1; injection E1 as <- <-; cbn [deref bind]; apply U; right; right; right; left; reflexivity|].
  pose proof (find_or_create_spec p (s0 :: s) None R) as S1. rewrite E1 in S1. destruct S1 as (-> & (m1 & F1 & Y1 & _) & _); [discriminate|].
  assert (R1 : reachable_pool p1). { pose proof (rp_find_or_create pool_new p (s0 :: s) None R) as X. rewrite E1 in X. apply X. intros x pr [=]. }
  assert (R2 : reachable_from p1 p2). { pose proof (rp_find_or_create p1 p1 t None (rp_refl p1)) as X. rewrite E2 in X. apply X. intros x pr [=]. }
  assert (F1' := reachable_extends _ _ R2 _ _ F1). cbn [deref]. rewrite F1'. cbn [bind a_c]. rewrite Y1.
  destruct t as [|t0 t]; [cbn in E2; injection E2 as <- <-; destruct (comm_eqb_spec (Some (s0 :: s)) None); [discriminate|]; apply U; right; right; right; right; left; reflexivity|].
  pose proof (find_or_create_spec p1 (t0 :: t) None R1) as S2. rewrite E2 in S2. destruct S2 as (-> & (m2 & F2 & Y2 & _) & _); [discriminate|].
  match goal with |- context [comm_eqb ?a ?b] => destruct (comm_eqb_spec a b) as [X|X] end; [apply U; right; right; right; right; right; congruence|]. cbn [deref]. rewrite F2. cbn [bind].
  rewrite U. intros [Y|[Y|[Y|[Y|[Y|Y]]]]]; [apply Y; eauto|contradiction|apply Y; exact Q|discriminate|discriminate|exact (X (f_equal Some Y))].
Qed.

(** ** Lines between transactions *)
Lemma word_i w x : spaces w -> hd 0%N (OutlineProofs.first_word (w ++ 105%N :: x)) = 105%N.
Proof.
  intros S. assert (E : OutlineProofs.first_word (w ++ 105%N :: x) = OutlineProofs.first_word (105%N :: x)).
  { unfold OutlineProofs.first_word, take_word. rewrite trim_start_app by exact S. rewrite (trim_start_id (105%N :: x)) by reflexivity. reflexivity. }
  rewrite E. destruct (OutlineProofs.first_word_head 105%N x eq_refl) as [t ->]. reflexivity.
Qed.
Lemma no_word s : OutlineProofs.first_word s = [] <-> spaces s.
Proof.
  split.
  - intros H. destruct (trim_start_spec s) as (w & E & W & K). destruct (trim_start s) as [|c t] eqn:T; [rewrite app_nil_r in E; subst w; exact W|]. exfalso. cbn in K.
    assert (X : OutlineProofs.first_word s = OutlineProofs.first_word (c :: t)). { unfold OutlineProofs.first_word, take_word. rewrite T, (trim_start_id (c :: t)) by exact K. reflexivity. }
    rewrite X in H. destruct (OutlineProofs.first_word_head c t K) as [u U]. congruence.
  - intros S. unfold OutlineProofs.first_word, take_word. rewrite <- (app_nil_r s), trim_start_app by exact S. reflexivity.
Qed.
Definition void (q : str) : Prop := q = [] \/ q = lit ".".
Lemma parts_void p : Forall void (path_parts p) <-> (forall c, In c p -> In c (lit "/.")) /\ ~ contains (lit "..") p.
Proof.
  change (lit "/.") with [47%N; 46%N]. induction p as [|c p IH]; cbn [path_parts].
  - split; [|intros _; repeat constructor]. intros _. split; [intros c []|]. intros (a & b & E). destruct a; discriminate.
  - assert (Cc : contains (lit "..") (c :: p) <-> (c = 46%N /\ hd 0%N p = 46%N) \/ contains (lit "..") p).
    { split.
      - intros (a & b & E). destruct a as [|e a]; cbn in E; injection E as -> E; [left; rewrite E; auto|right]. exists a, b. exact E.
      - intros [[-> E]|(a & b & ->)]; [|exists (c :: a), b; reflexivity]. destruct p as [|d p]; cbn in E; [discriminate|]. subst d. exists [], p. reflexivity. }
    destruct (N.eqb_spec c 47) as [->|N].
    + rewrite Forall_cons_iff, IH, Cc. split.
      * intros (_ & A & B). split; [intros c [<-|I]; [left; reflexivity|apply A, I]|]. intros [[X _]|X]; [discriminate|contradiction].
      * intros (A & B). split; [left; reflexivity|]. split; [intros c I; apply A; right; exact I|]. tauto.
    + assert (Hd : match path_parts p with q :: _ => q = [] <-> (p = [] \/ hd 0%N p = 47%N) | [] => False end).
      { destruct p as [|d p]; cbn [path_parts]; [tauto|]. destruct (N.eqb_spec d 47) as [->|Nd]; [cbn; tauto|]. destruct (path_parts p); cbn; split; try discriminate; intros [X|X]; congruence. }
      destruct (path_parts p) as [|q qs]; [destruct Hd|]. rewrite Forall_cons_iff in IH |- *. rewrite Cc. split.
      * intros (V & F). destruct V as [V|V]; [discriminate|]. cbn in V. injection V as -> ->. destruct (proj1 IH (conj (or_introl eq_refl) F)) as [A B]. split; [intros c [<-|I]; [right; left; reflexivity|apply A, I]|].
        intros [[_ X]|X]; [|contradiction]. destruct (proj1 Hd eq_refl) as [->|Y]; [discriminate|rewrite Y in X; discriminate].
      * intros (A & B). assert (c = 46%N) as -> by (destruct (A c (or_introl eq_refl)) as [X|[X|[]]]; congruence).
        assert (G : void q /\ Forall void qs) by (apply IH; split; [intros e I; apply A; right; exact I|tauto]). destruct G as [_ G]. split; [|exact G]. right. cbn. f_equal. apply Hd.
        destruct p as [|d p]; [left; reflexivity|right]. destruct (A d (or_intror (or_introl eq_refl))) as [X|[X|[]]]; cbn; [congruence|]. elim B. left. split; [reflexivity|]. cbn. congruence.
Qed.
Lemma root_components p : p <> [] -> (path_components p = [] <-> root_path p).
Proof.
  intros Ne. unfold root_path, path_components. destruct p as [|c p]; [congruence|]. cbn [path_parts].
  assert (Fl : forall qs, filter (fun q => negb (is_empty q) && negb (str_eqb q (lit "."))) qs = [] <-> Forall void qs).
  { induction qs as [|q qs IH]; [split; [constructor|reflexivity]|]. cbn [filter]. rewrite Forall_cons_iff. destruct q as [|e q]; cbn [is_empty negb andb]; [rewrite IH; unfold void; tauto|].
    destruct (str_eqb (e :: q) (lit ".")) eqn:S; cbn [negb]; [apply str_eqb_eq in S; rewrite IH; unfold void; tauto|]. split; [discriminate|]. intros [[X|X] _]; [discriminate|]. rewrite X in S. discriminate. }
  assert (Sl : ~ contains (lit "..") (47%N :: p) <-> ~ contains (lit "..") p).
  { split; intros H (a & b & E); apply H; [exists (47%N :: a), b; rewrite E; reflexivity|]. destruct a as [|e a]; cbn in E; [discriminate|]. injection E as <- E. exists a, b. exact E. }
  destruct (N.eqb_spec c 47) as [->|N].
  - cbn [is_empty app]. rewrite Fl, parts_void. split.
    + intros [A B]. exists p. split; [reflexivity|]. split; [exact A|]. apply Sl, B.
    + intros (r & E & A & B). cbn in E. injection E as <-. split; [exact A|]. apply Sl, B.
  - split; [|intros (r & E & _); cbn in E; congruence]. intros H. exfalso. destruct (path_parts p) as [|q qs]; cbn in H; discriminate.
Qed.
Lemma top_kinds inc j l n : top_line inc j l = Ok n ->
  inert (Some l) /\ n = Continue Top j
  \/ (exists c r j', l = c :: r /\ is_digit c = true /\ create_xact j l = Ok j' /\ n = Continue (InXact (length (j_xacts j))) j')
  \/ (exists arg j', include_line l arg /\ inc arg j = Ok j' /\ n = Continue Top j')
  \/ (read_as_price l /\ exists p, parse_price_directive (j_pool j) l = Ok p /\ n = Continue Top (set_pool j p)).
Proof.
  unfold top_line. intros H. destruct (str_eqb l [13%N; 10%N] || str_eqb l [10%N]) eqn:B.
  { injection H as <-. left. split; [|reflexivity]. exists l. split; [reflexivity|]. apply orb_prop in B as [B|B]; apply str_eqb_eq in B; auto. }
  destruct l as [|c r]; [discriminate|]. destruct ((c =? 59) || (c =? 35) || (c =? 42) || (c =? 124))%N eqn:K.
  { injection H as <-. left. split; [|reflexivity]. exists (c :: r). split; [reflexivity|]. right. right. exists c, r. split; [reflexivity|]. repeat (apply orb_prop in K as [K|K]); apply N.eqb_eq in K; subst c; cbn; auto. }
  destruct (N.eqb_spec c 45) as [->|N45].
  { injection H as <-. left. split; [|reflexivity]. exists (45%N :: r). split; [reflexivity|]. right. right. exists 45%N, r. split; [reflexivity|]. cbn; auto 8. }
  destruct (is_digit c) eqn:D.
  { inv_bind H. injection H as <-. right. left. exists c, r, v. auto. }
  destruct ((c =? 32) || (c =? 9))%N; [discriminate|]. inv_bind H. injection H as <-. right. right.
  destruct (OutlineProofs.general_kinds _ _ _ _ EQ) as [(arg & Hl & Hinc)|(Hp & pl & Hd & ->)]; [left; eauto|right; eauto].
Qed.
Lemma line_refused_top depth cwd fs j l n : reachable_pool (j_pool j) -> line_refused cwd l -> top_line (include_file depth cwd fs) j l <> Ok n.
Proof.
  intros R L H. destruct L as [|c r I|c r Ni Nd Nw|w r W Rr|w r W Rr|l arg p Il Np Rp|l Rp Pr].
  - discriminate.
  - unfold top_line in H. destruct I as [<-|[<-|[]]]; cbn in H; destruct r; discriminate.
  - apply top_kinds in H as [(X & _)|[(c' & r' & j' & [= <- <-] & X & _)|[(arg & j' & (ws0 & ws1 & rest & E & S & _) & _)|((w & x & t & E & S & [Nx _] & _ & Hx & _) & _)]]].
    + contradiction.
    + congruence.
    + apply (Nw ws0 (lit "nclude" ++ ws1 ++ arg ++ rest)); [exact E|exact S].
    + destruct x as [|i x]; [congruence|]. cbn in Hx. subst i. apply (Nw w (x ++ t)); [exact E|exact S].
  - assert (F : OutlineProofs.first_word (w ++ lit "import" ++ r) = lit "import"). { unfold OutlineProofs.first_word. rewrite ReadingFacts.take_word_app; [reflexivity|exact W|split; [discriminate|reflexivity]|exact Rr]. }
    apply top_kinds in H as [(X & _)|[(c' & r' & j' & E & X & _)|[(arg & j' & X & _)|(X & _)]]].
    + apply OutlineProofs.inert_words in X as [X _]. rewrite F in X. apply X. reflexivity.
    + apply (OutlineProofs.digit_words c' r' X). rewrite <- E, F. reflexivity.
    + apply OutlineProofs.include_words in X as [X _]. rewrite F in X. discriminate.
    + destruct X as (w' & x & t & E & S & Wx & Rt & _ & _ & X). apply X. rewrite <- F, E. unfold OutlineProofs.first_word. rewrite ReadingFacts.take_word_app by assumption. reflexivity.
  - assert (T : take_word (w ++ lit "include" ++ r) = (lit "include", r)). { apply ReadingFacts.take_word_app; [exact W|split; [discriminate|reflexivity]|]. destruct r as [|c r]; [left; reflexivity|right]. unfold spaces in Rr. cbn in Rr. apply andb_prop in Rr as [Rr _]. eauto. }
    assert (F : OutlineProofs.first_word (w ++ lit "include" ++ r) = lit "include") by (unfold OutlineProofs.first_word; rewrite T; reflexivity).
    apply top_kinds in H as [(X & _)|[(c' & r' & j' & E & X & _)|[(arg & j' & X & _)|(X & _)]]].
    + apply OutlineProofs.inert_words in X as [X _]. rewrite F in X. apply X. reflexivity.
    + apply (OutlineProofs.digit_words c' r' X). rewrite <- E, F. reflexivity.
    + assert (Y := X). destruct Y as (? & ? & ? & _ & _ & _ & _ & [Na _] & _). apply OutlineProofs.include_words in X as [_ X]. rewrite T in X. cbn [snd] in X. rewrite (proj2 (no_word r) Rr) in X. congruence.
    + apply OutlineProofs.price_words in X as [X _]. contradiction.
  - assert (Iw := OutlineProofs.include_words _ _ Il). destruct Iw as [F A].
    apply top_kinds in H as [(X & _)|[(c' & r' & j' & E & X & _)|[(arg' & j' & X & Hi & _)|(X & _)]]].
    + apply OutlineProofs.inert_words in X as [X _]. rewrite F in X. apply X. reflexivity.
    + apply (OutlineProofs.digit_words c' r' X). rewrite <- E, F. reflexivity.
    + apply OutlineProofs.include_words in X as [_ X]. rewrite A in X. subst arg'. destruct depth as [|d]; [discriminate|]. cbn [include_file] in Hi. apply ReadingFacts.names_resolve in Np. subst p.
      unfold included in Hi. apply root_components in Rp; [rewrite Rp in Hi; discriminate|]. destruct Rp as (t & -> & _). discriminate.
    + apply OutlineProofs.price_words in X as [X _]. contradiction.
  - assert (Pw := OutlineProofs.price_words _ Rp). destruct Pw as [F A].
    apply top_kinds in H as [(X & _)|[(c' & r' & j' & E & X & _)|[(arg' & j' & X & Hi & _)|(_ & pl & Hp & _)]]].
    + apply OutlineProofs.inert_words in X as [X _]. contradiction.
    + apply (OutlineProofs.digit_words c' r' X). rewrite <- E. exact A.
    + apply OutlineProofs.include_words in X as [X _]. contradiction.
    + pose proof (price_cases (j_pool j) l R) as P. rewrite Hp in P. contradiction.
Qed.
Lemma top_panics cwd inc j l q : reachable_pool (j_pool j) -> top_line inc j l = Panic q ->
  line_refused cwd l \/ (exists c r, l = c :: r /\ is_digit c = true /\ header_refused l) \/ exists arg, include_line l arg /\ inc arg j = Panic q.
Proof.
  intros R. unfold top_line. destruct (str_eqb l [13%N; 10%N] || str_eqb l [10%N]) eqn:B; [discriminate|]. destruct l as [|c r]; [left; constructor|].
  destruct ((c =? 59) || (c =? 35) || (c =? 42) || (c =? 124))%N eqn:K; [discriminate|]. destruct (N.eqb_spec c 45) as [->|N45]; [discriminate|].
  destruct (is_digit c) eqn:D.
  { intros H. right. left. exists c, r. split; [reflexivity|]. split; [exact D|]. pose proof (header_cases j c r D) as X. destruct (create_xact j (c :: r)); [discriminate|exact X|destruct X]. }
  destruct ((c =? 32) || (c =? 9))%N eqn:I.
  { intros _. left. apply lx_indented. apply orb_prop in I as [I|I]; apply N.eqb_eq in I; subst c; cbn; auto. }
  assert (Ni : ~ inert (Some (c :: r))).
  { intros (k & [= <-] & [X|[X|(c' & r' & [= <- <-] & X)]]); [rewrite X in B; discriminate|rewrite X in B; discriminate|]. cbn in X. lia. }
  assert (Un : hd 0%N (OutlineProofs.first_word (c :: r)) <> 105%N -> line_refused cwd (c :: r)).
  { intros X. apply lx_unknown; [exact Ni|exact D|]. intros w x E S. apply X. rewrite E. apply word_i, S. }
  intros H. rewrite ReadingFacts.general_eq in H. unfold OutlineProofs.first_word in Un. destruct (take_word (c :: r)) as [x i] eqn:W. cbn [fst snd] in *. destruct x as [|e d]; [left; apply Un; discriminate|].
  destruct (N.eqb_spec e 97) as [->|]; [left; apply Un; discriminate|]. destruct (N.eqb_spec e 105) as [->|]; [|left; apply Un; cbn; congruence].
  apply ReadingFacts.take_word_inv in W as (v & W & V & F & G). destruct (str_eqb (105%N :: d) (lit "include")) eqn:S1.
  - apply str_eqb_eq in S1. destruct (take_word i) as [y k] eqn:W2. cbn [fst] in H. destruct y as [|g y].
    + left. rewrite W, S1. apply lx_include; [exact V|]. apply no_word. unfold OutlineProofs.first_word. rewrite W2. reflexivity.
    + right. right. exists (g :: y). destruct (inc (g :: y) j) eqn:Ei; [discriminate| |discriminate]. cbn [bind] in H. split; [|injection H as ->; reflexivity].
      apply ReadingFacts.take_word_inv in W2 as (v' & W2 & V' & F' & G').
      exists v, v', k. rewrite W, S1, W2. split; [reflexivity|]. split; [exact V|]. split.
      * intros ->. cbn in W2. destruct G as [->|(g' & r' & -> & Hg)]; [discriminate|]. injection W2 as <- _. cbn in F'. rewrite Hg in F'. discriminate.
      * split; [exact V'|]. split; [split; [discriminate|exact F']|exact G'].
  - left. destruct (str_eqb (105%N :: d) (lit "import")) eqn:S2.
    + apply str_eqb_eq in S2. rewrite W, S2. apply lx_import; assumption.
    + apply lx_price.
      * exists v, (105%N :: d), i. split; [exact W|]. split; [exact V|]. split; [split; [discriminate|exact F]|]. split; [exact G|]. split; [reflexivity|].
        split; intros E; rewrite E in *; rewrite str_eqb_refl in *; discriminate.
      * unfold ReadingFacts.price_line_on in H. pose proof (price_cases (j_pool j) (c :: r) R) as P. destruct (parse_price_directive (j_pool j) (c :: r)); [discriminate|exact P|destruct P].
Qed.

(** ** What lines say is determined up to the way values are written *)
Definition alike_opt (a b : option amount) : Prop := match a, b with Some x, Some y => same_amount x y | None, None => True | _, _ => False end.
Definition alike (p p' : post) : Prop := alike_opt (po_amount p) (po_amount p') /\ alike_opt (po_cost p) (po_cost p').
Lemma same_amount_sym a b : same_amount a b -> same_amount b a.
Proof. intros (E & W & W' & U). repeat split; congruence || apply W' || apply W. Qed.
Lemma alike_sym p p' : alike p p' -> alike p' p.
Proof. intros [A C]. split; [destruct (po_amount p), (po_amount p')|destruct (po_cost p), (po_cost p')]; cbn in *; auto using same_amount_sym. Qed.
Lemma alikes_sym ps ps' : Forall2 alike ps ps' -> Forall2 alike ps' ps.
Proof. induction 1; constructor; auto using alike_sym. Qed.
Lemma worth_alike p p' : alike p p' -> alike_opt (worth p) (worth p').
Proof. intros [A C]. unfold worth. destruct (po_cost p), (po_cost p'); cbn in *; auto; contradiction. Qed.
Lemma worth_none p p' : alike p p' -> worth p = None -> worth p' = None.
Proof. intros A E. apply worth_alike in A. rewrite E in A. destruct (worth p'); [destruct A|reflexivity]. Qed.
Lemma worths_alike ps ps' : Forall2 alike ps ps' -> Forall2 same_amount (worths ps) (worths ps').
Proof.
  induction 1 as [|p p' ps ps' A _ IH]; [constructor|]. rewrite !worths_cons. apply Forall2_app; [|exact IH]. apply worth_alike in A. destruct (worth p), (worth p'); cbn in A; try contradiction; [constructor; [exact A|constructor]|constructor].
Qed.
Lemma comms_alike l l' : Forall2 same_amount l l' -> map a_c l = map a_c l'.
Proof. induction 1 as [|a b l l' [E _] _ IH]; [reflexivity|]. cbn. congruence. Qed.
Lemma sums_alike c l l' : Forall2 same_amount l l' -> map aunits (in_comm c l) = map aunits (in_comm c l').
Proof.
  induction 1 as [|a b l l' (E & _ & _ & U) _ IH]; [reflexivity|]. rewrite !in_comm_cons, E. destruct (comm_dec _ _); [|exact IH]. cbn [map]. unfold aunits at 1 3. congruence.
Qed.
Lemma complete_alike ps ps' : Forall2 alike ps ps' -> complete ps -> complete ps'.
Proof.
  unfold complete. intros H. induction H as [|p p' ps ps' A _ IH]; intros C; [constructor|]. inversion C as [|? ? Cp C']; subst. constructor; [|apply IH, C'].
  intros E. apply Cp. eapply worth_none; [apply alike_sym, A|exact E].
Qed.
Lemma first_alike ps ps' a : Forall2 alike ps ps' -> first_amount ps a -> exists a', first_amount ps' a' /\ a_c a' = a_c a.
Proof.
  intros H (l1 & p & l2 & -> & A & F). apply Forall2_app_inv_l in H as (m1 & m2 & H1 & H2 & ->). inversion H2 as [|? p' ? m3 [Ap _] H3]; subst. rewrite A in Ap. destruct (po_amount p') as [a'|] eqn:A'; [|destruct Ap].
  exists a'. split; [|symmetry; apply Ap]. exists m1, p', m3. split; [reflexivity|]. split; [exact A'|]. clear -H1 F. induction H1 as [|q q' l l' [A _] _ IH]; [constructor|]. inversion F as [|? ? E F']; subst. constructor; [|apply IH, F'].
  rewrite E in A. destruct (po_amount q'); [destruct A|reflexivity].
Qed.
Lemma two_sums_alike ps ps' x y : Forall2 alike ps ps' -> two_sums ps x y -> two_sums ps' x y.
Proof.
  intros H (N & I & S1 & S2 & top & F & T). pose proof (worths_alike _ _ H) as W. pose proof (comms_alike _ _ W) as E. unfold two_sums, sum_in. rewrite <- E, <- !(sums_alike _ _ _ W).
  split; [exact N|]. split; [exact I|]. split; [exact S1|]. split; [exact S2|]. destruct (first_alike _ _ _ H F) as (t & F' & Et). exists t. split; [exact F'|]. rewrite Et. exact T.
Qed.
Lemma unusable_alike a a' c c' : same_amount a a' -> same_amount c c' -> cost_unusable a c -> cost_unusable a' c'.
Proof. intros (E & _ & _ & U) (E' & _ & _ & U'). unfold cost_unusable, has_price, aunits. rewrite E, E', U, U'. auto. Qed.
Lemma unfinishable_alike ps ps' : Forall2 alike ps ps' -> unfinishable ps -> unfinishable ps'.
Proof.
  intros H [p E|l1 p l2 q l3 E V1 V2|l1 p l2 a b (E & V & C1 & C2) Ia Ib N|p a c I A C B Nt|x y p a C T Hn I A Ea].
  - subst ps. inversion H as [|? p' ? ? _ H']; subst. inversion H'; subst. eapply uf_single. reflexivity.
  - subst ps. apply Forall2_app_inv_l in H as (m1 & m2 & _ & H & ->). inversion H as [|? p' ? m3 Ap H']; subst. apply Forall2_app_inv_l in H' as (m4 & m5 & _ & H' & ->). inversion H' as [|? q' ? m6 Aq _]; subst.
    eapply uf_two; [reflexivity|eapply worth_none; [exact Ap|exact V1]|eapply worth_none; [exact Aq|exact V2]].
  - pose proof (comms_alike _ _ (worths_alike _ _ H)) as Ec. apply (in_map a_c) in Ia, Ib. rewrite Ec in Ia, Ib. apply in_map_iff in Ia as (a' & Ea & Ia). apply in_map_iff in Ib as (b' & Eb & Ib).
    subst ps. apply Forall2_app_inv_l in H as (m1 & m2 & H1 & H & ->). inversion H as [|? p' ? m3 Ap H']; subst.
    eapply (uf_rest _ m1 p' m3 a' b'); [|exact Ia|exact Ib|congruence]. split; [reflexivity|]. split; [eapply worth_none; [exact Ap|exact V]|]. split; eapply complete_alike; eassumption.
  - destruct (Forall2_in_l _ _ _ _ H I) as (p' & I' & Aa & Ac). rewrite A in Aa. rewrite C in Ac. destruct (po_amount p') as [a'|] eqn:A'; [|destruct Aa]. destruct (po_cost p') as [c'|] eqn:C'; [|destruct Ac].
    eapply uf_cost; [exact I'|exact A'|exact C'|eapply unusable_alike; eassumption|]. intros K y T. apply alikes_sym in H. eapply (Nt (complete_alike _ _ H K) y). destruct Aa as [-> _]. eapply two_sums_alike; eassumption.
  - destruct (Forall2_in_l _ _ _ _ H I) as (p' & I' & Aa & _). rewrite A in Aa. destruct (po_amount p') as [a'|] eqn:A'; [|destruct Aa].
    eapply (uf_implied _ x y p' a'); [eapply complete_alike; eassumption|eapply two_sums_alike; eassumption|exact Hn|exact I'|exact A'|]. destruct Aa as [<- _]. exact Ea.
Qed.
Lemma denotes_unique q u k u' k' : denotes q u k -> denotes q u' k' -> u' = u.
Proof.
  intros D D'. destruct (denotes_read _ _ _ [] D) as (d & E & _ & U & _), (denotes_read _ _ _ [] D') as (d' & E' & _ & U' & _). rewrite E in E'. injection E' as <-. congruence.
Qed.
Lemma amount_told_alike q s a a' : amount_told q s a -> amount_told q s a' -> alike_opt a a'.
Proof.
  intros [(u & k & x & D & -> & W & U & _ & C)|(N & ->)] [(u' & k' & x' & D' & -> & W' & U' & _ & C')|(N' & ->)]; [|elim N'; exists u, k; exact D|elim N; exists u', k'; exact D'|exact I].
  cbn. split; [congruence|]. split; [exact W|]. split; [exact W'|]. unfold aunits in *. rewrite U, U'. symmetry. eapply denotes_unique; eassumption.
Qed.
Lemma post_told_alike tok p p' : post_told tok p -> post_told tok p' -> alike p p'.
Proof.
  intros (_ & A & C) (_ & A' & C'). pose proof (amount_told_alike _ _ _ _ A A') as Aa. split; [exact Aa|].
  destruct C as [([Ea|N] & ->)|(x & v & k & y & Ea & D & -> & Y)], C' as [([Ea'|N'] & ->)|(x' & v' & k' & y' & Ea' & D' & -> & Y')]; try exact I; rewrite ?Ea, ?Ea' in Aa; try (destruct Aa; fail).
  - elim N. exists v', k'. exact D'.
  - elim N'. exists v, k. exact D.
  - cbn in Aa. pose proof (denotes_unique _ _ _ _ _ D D') as ->. cbn. destruct (t_is_per_unit tok).
    + destruct Y as [Cy Ny], Y' as [Cy' Ny']. split; [congruence|]. split; [apply Ny|]. split; [apply Ny'|]. destruct Aa as (_ & _ & _ & U). unfold aunits in *. rewrite <- U in Ny'. eapply nearest_unique; [|exact Ny|exact Ny']. discriminate.
    + destruct Y as (W & U & _ & Cy), Y' as (W' & U' & _ & Cy'). split; [congruence|]. split; [exact W|]. split; [exact W'|]. unfold aunits in *. congruence.
Qed.
Definition postings_of (es : list entry) : list str := flat_map (fun e => match e with Posting_line l => [l] | Note_line _ => [] end) es.
Lemma draft_posts o x : draft_told o x -> Forall2 (fun l p => exists tok, post_read l tok /\ post_told tok p) (postings_of (snd o)) (x_posts x).
Proof.
  intros (note & ns & es & _ & -> & _ & F). unfold postings_of. rewrite flat_map_app.
  assert (Z : forall ns, flat_map (fun e => match e with Posting_line l => [l] | Note_line _ => [] end) (map Note_line ns) = []) by (intros l; induction l; [reflexivity|assumption]).
  rewrite Z. cbn [app]. induction F as [|e p es ps (tok & R & P & _) _ IH]; [constructor|]. cbn [flat_map]. rewrite flat_map_app. cbn [flat_map]. cbn [app]. rewrite Z. cbn [app]. constructor; [eauto|exact IH].
Qed.
Lemma draft_alike o x x' : draft_told o x -> draft_told o x' -> Forall2 alike (x_posts x) (x_posts x').
Proof.
  intros D D'. apply draft_posts in D, D'. revert D'. generalize (x_posts x'). induction D as [|l p ls ps (tok & R & P) _ IH]; intros ps' D'; inversion D' as [|? p' ? ps2 (tok' & R' & P') D2]; subst; constructor; [|apply IH, D2].
  apply post_iff in R, R'. rewrite R in R'. injection R' as <-. eapply post_told_alike; eassumption.
Qed.
Lemma told_has_amount tok p : post_told tok p -> has_amount p.
Proof. intros (_ & _ & [(_ & E)|(x & v & k & y & E & _)]) N; congruence. Qed.
Lemma final_cases j xi o pre x d : inv (InXact xi) j -> j_xacts j = pre ++ [x] -> length pre = xi -> draft_told o x -> draft_told o d ->
  match finalize j xi with
  | Ok _ => ~ unfinishable (x_posts d)
  | Panic q => q = PArith \/ unfinishable (x_posts d)
  | Diverge => False
  end.
Proof.
  intros Iv E <- D D'. destruct (i_done _ _ Iv) as (xs & (L & x0 & e & E0 & Ed & Ve) & _). rewrite E in E0. apply app_inj_tail in E0 as [-> <-].
  unfold finalize. rewrite E, nth_error_app2, Nat.sub_diag by lia. cbn [nth_error]. rewrite Ed.
  assert (Q : Forall (fun p => wf_post p /\ post_known (j_pool j) p) (x_posts x)).
  { pose proof (i_posts _ _ Iv) as Q. unfold all_posts in Q. rewrite E in Q. rewrite Forall_forall in Q |- *. intros p I. apply Q. apply in_flat_map. exists x. split; [apply in_or_app; right; left; reflexivity|exact I]. }
  assert (H : Forall has_amount (x_posts x)).
  { apply draft_posts in D. clear -D. induction D as [|l p ls ps (tok & _ & P) _ IH]; constructor; [eapply told_has_amount, P|exact IH]. }
  pose proof (finalize_refused e (j_pool j) (x_posts x) Ve (i_pool _ _ Iv)) as F.
  assert (F' := F (Forall_impl _ (fun p H => proj1 H) Q) (Forall_impl _ (fun p H => proj2 H) Q) H). clear F.
  destruct (finalize_posts (Some e) (j_pool j) (x_posts x)) as [[pl ps]|q|]; cbn [bind].
  - intros X. apply F'. eapply unfinishable_alike; [|exact X]. eapply draft_alike; eassumption.
  - destruct F' as [->|F']; [left; reflexivity|right]. eapply unfinishable_alike; [|exact F']. eapply draft_alike; eassumption.
  - exact F'.
Qed.

(** ** Sources *)
Section Refused.
  Variables (cwd : str) (fs : filesystem).
  Lemma xact_step j xi l n o pre : inv (InXact xi) j -> at_content (InXact xi) (Some o) j pre -> step (fun _ _ => Diverge) (InXact xi) j l = Ok n ->
    match l with
    | None => exists j', finalize j xi = Ok j' /\ n = Continue Top j'
    | Some l =>
        (exists r j' , l = 32%N :: r /\ first_mark r 59%N /\ n = Continue (InXact xi) j' /\ at_content (InXact xi) (Some (fst o, snd o ++ [Note_line r])) j' pre)
        \/ (exists r c j', l = 32%N :: r /\ first_mark r c /\ c <> 59%N /\ ~ posting_refused r /\ n = Continue (InXact xi) j' /\ at_content (InXact xi) (Some (fst o, snd o ++ [Posting_line r])) j' pre)
        \/ ((hd 0%N l = 32%N /\ spaces l \/ hd 0%N l = 13%N \/ hd 0%N l = 10%N) /\ exists j', finalize j xi = Ok j' /\ n = Continue Top j')
    end.
  Proof.
    intros Iv S H. destruct l as [l|]; cbn [step] in H; [|inv_bind H; injection H as <-; eauto].
    destruct l as [|c r]; [discriminate|]. rewrite ReadingFacts.xact_line_eq in H. destruct (N.eqb_spec c 32) as [->|N32].
    - change (32%N :: r) with ([32%N] ++ r) in H. rewrite trim_start_app in H by reflexivity. destruct (trim_start_spec r) as (w & Er & W & Sw). destruct (trim_start r) as [|d s] eqn:Tr.
      + unfold ReadingFacts.fin in H. inv_bind H. injection H as <-. right. right. split; [left; split; [reflexivity|]|eauto]. rewrite app_nil_r in Er. subst w. exact W.
      + cbn in Sw. destruct o as [h ps]. destruct S as (x & Ex & <- & Dr). destruct (N.eqb_spec d 59) as [->|N59].
        * inv_bind H. injection H as <-. destruct (note_tells _ _ _ _ _ _ _ _ Ex Dr Tr EQ) as (x' & Ex' & Dr'). left. exists r, v. split; [reflexivity|]. split; [exists w, s; auto|]. split; [reflexivity|]. exists x'. auto.
        * inv_bind H. injection H as <-. destruct (posting_tells _ _ _ _ _ _ _ _ _ (i_tree _ _ Iv) Ex Dr Tr EQ) as (x' & Ex' & Dr'). right. left. exists r, d, v. split; [reflexivity|]. split; [exists w, s; auto|]. split; [exact N59|]. split.
          -- pose proof (posting_cases j (length pre) r x (i_tree _ _ Iv)) as P. rewrite Ex, nth_error_app2, Nat.sub_diag in P by lia. specialize (P eq_refl). rewrite Tr, EQ in P. exact P.
          -- split; [reflexivity|]. exists x'. auto.
    - destruct ((c =? 13) || (c =? 10))%N eqn:B; [|discriminate]. unfold ReadingFacts.fin in H. inv_bind H. injection H as <-. right. right. split; [|eauto]. right. apply orb_prop in B as [B|B]; apply N.eqb_eq in B; subst c; cbn; auto.
  Qed.
  Lemma xact_step_inc inc j xi l : step inc (InXact xi) j l = step (fun _ _ => Diverge) (InXact xi) j l.
  Proof. reflexivity. Qed.
  Lemma xact_panics j xi l q o d pre : inv (InXact xi) j -> at_content (InXact xi) (Some o) j pre -> draft_told o d -> step (fun _ _ => Diverge) (InXact xi) j l = Panic q ->
    q = PArith \/ forall src, refused cwd fs (Some o) (l :: src).
  Proof.
    intros Iv S Dd H. assert (Fin : finalize j xi = Panic q -> q = PArith \/ unfinishable (x_posts d)).
    { intros E. destruct S as (x & Ex & L & Dr). pose proof (final_cases j xi o pre x d Iv Ex L Dr Dd) as F. rewrite E in F. exact F. }
    assert (Un : forall {A} (o : outcome A) (f : A -> next), (let* v := o in Ok (f v)) = Panic q -> o = Panic q) by (intros A [v|q'|] f X; cbn in X; congruence).
    destruct l as [l|]; cbn [step] in H.
    2:{ apply Un, Fin in H as [->|U]; [left; reflexivity|right]. intros src. eapply rf_end; [exact Dd|exact U|exact I]. }
    destruct l as [|c r]; [right; intros src; apply rf_inside; cbn; intuition discriminate|]. rewrite ReadingFacts.xact_line_eq in H. destruct (N.eqb_spec c 32) as [->|N32].
    - change (32%N :: r) with ([32%N] ++ r) in H. rewrite trim_start_app in H by reflexivity. destruct (trim_start_spec r) as (w & Er & W & Sw). destruct (trim_start r) as [|e s] eqn:Tr.
      + unfold ReadingFacts.fin in H. apply Un, Fin in H as [->|U]; [left; reflexivity|right]. intros src. eapply rf_end; [exact Dd|exact U|]. left. split; [reflexivity|]. rewrite app_nil_r in Er. subst w. exact W.
      + cbn in Sw. destruct (N.eqb_spec e 59) as [->|N59].
        * apply Un in H. unfold parse_trailing_note in H. destruct (is_empty _); discriminate.
        * apply Un in H. destruct S as (x & Ex & <- & Dr). pose proof (posting_cases j (length pre) r x (i_tree _ _ Iv)) as P. rewrite Ex, nth_error_app2, Nat.sub_diag in P by lia. specialize (P eq_refl). rewrite Tr, H in P.
          destruct P as [->|P]; [left; reflexivity|right]. intros src. apply (rf_posting _ _ _ _ e); [exists w, s; auto|exact N59|exact P].
    - destruct ((c =? 13) || (c =? 10))%N eqn:B.
      + unfold ReadingFacts.fin in H. apply Un, Fin in H as [->|U]; [left; reflexivity|right]. intros src. eapply rf_end; [exact Dd|exact U|]. right. cbn. apply orb_prop in B as [B|B]; apply N.eqb_eq in B; auto.
      + right. intros src. apply rf_inside. cbn. apply orb_false_iff in B as [B1 B2]. apply N.eqb_neq in B1, B2. intuition congruence.
  Qed.

  (** A source that is not read is refused. *)
  Definition refusal (inc : str -> journal -> outcome journal) : Prop := forall arg j q, arg <> [] -> inv Top j -> inc arg j = Panic q ->
    q = PArith \/ exists p, names_file cwd arg p /\ (root_path p \/ exists f, file_path p /\ fs p = Some f /\ refused cwd fs None f).
  Lemma lines_refusal inc src : refusal inc -> JournalFacts.keeps inv inc -> forall m cur j pre q, inv m j -> at_content m cur j pre -> parse_lines inc m j src = Panic q ->
    q = PArith \/ refused cwd fs cur src.
  Proof.
    intros HI HK. induction src as [|l src IH]; intros m cur j pre q Iv S H; cbn [parse_lines] in H.
    - destruct m as [|xi], cur as [o|]; try (destruct S; fail); [discriminate|]. destruct S as (x & Ex & L & Dr). pose proof (final_cases j xi o pre x x Iv Ex L Dr Dr) as F. rewrite H in F.
      destruct F as [->|F]; [left; reflexivity|right]. eapply rf_end; [exact Dr|exact F|exact I].
    - destruct (step inc m j l) as [n|q'|] eqn:E; cbn [bind] in H; [| |discriminate].
      + assert (I2 := step_preserves inv inv_create inv_post inv_note inv_final inv_price inc m j l n HK Iv E). destruct m as [|xi], cur as [o|]; try (destruct S; fail).
        * destruct l as [l|]; cbn [step] in E; [|injection E as <-; discriminate].
          apply top_kinds in E as [(X & ->)|[(c & r & j' & -> & D & Hc & ->)|[(arg & j' & X & Hi & ->)|(X & p & Hp & ->)]]]; cbn in I2.
          -- destruct (IH Top None j pre q I2 S H) as [->|R]; [left; reflexivity|right]. apply rf_inert; assumption.
          -- destruct (header_tells _ _ _ _ D Hc) as (x & -> & Dr). destruct (IH (InXact (length (j_xacts j))) (Some (c :: r, [])) _ pre q I2) with (2 := H) as [->|R]; [exists x; cbn [j_xacts set_xacts]; cbn in S; rewrite S; auto|left; reflexivity|right].
             apply rf_header_next; assumption.
          -- destruct (IH Top None j' (j_xacts j') q I2 eq_refl H) as [->|R]; [left; reflexivity|right]. eapply rf_included; eassumption.
          -- destruct (IH Top None _ pre q I2 S H) as [->|R]; [left; reflexivity|right]. apply rf_price; assumption.
        * rewrite xact_step_inc in E. destruct o as [h es]. pose proof (xact_step j xi l n (h, es) pre Iv S E) as X. cbn [fst snd] in X. destruct l as [l|].
          -- destruct X as [(r & j' & -> & Fm & -> & S')|[(r & c & j' & -> & Fm & Nc & _ & -> & S')|(Hl & j' & _ & ->)]]; cbn in I2.
             ++ destruct (IH _ _ _ _ _ I2 S' H) as [->|R]; [left; reflexivity|right]. apply rf_note; assumption.
             ++ destruct (IH _ _ _ _ _ I2 S' H) as [->|R]; [left; reflexivity|right]. eapply rf_posting_next; eassumption.
             ++ destruct (IH Top None j' (j_xacts j') q I2 eq_refl H) as [->|R]; [left; reflexivity|right]. destruct Hl as [[Hd Sl]|Hl]; [apply rf_blank; assumption|apply rf_return; assumption].
          -- destruct X as (j' & _ & ->). cbn in I2. destruct (IH Top None j' (j_xacts j') q I2 eq_refl H) as [->|R]; [left; reflexivity|right]. apply rf_undecodable_xact, R.
      + injection H as ->. destruct m as [|xi], cur as [o|]; try (destruct S; fail).
        * destruct l as [l|]; cbn [step] in E; [|discriminate].
          destruct (top_panics cwd inc j l q (i_pool _ _ Iv) E) as [R|[(c & r & -> & D & R)|(arg & X & Hi)]]; [right; apply rf_line, R|right; apply rf_header; assumption|].
          assert (Na : arg <> []) by (destruct X as (? & ? & ? & _ & _ & _ & _ & [Na _] & _); exact Na). destruct (HI arg j q Na Iv Hi) as [->|(p & Np & [Rp|(f & Fp & Ef & R)])]; [left; reflexivity|right; apply rf_line; eapply lx_root; eassumption|right; eapply rf_include; eassumption].
        * rewrite xact_step_inc in E. assert (S' := S). destruct S' as (x & _ & _ & Dr). destruct (xact_panics j xi l q o x pre Iv S Dr E) as [->|R]; [left; reflexivity|right; apply R].
  Qed.
  Lemma include_refusal depth : (forall p, fs p <> None -> file_path p) -> refusal (include_file depth cwd fs).
  Proof.
    intros Fp. induction depth as [|d IH]; intros arg j q Na Iv H; cbn [include_file] in H; [discriminate|].
    set (p := resolve cwd arg). assert (Np : names_file cwd arg p) by (apply ReadingFacts.names_resolve; reflexivity).
    destruct (included cwd fs arg) as [[src|]|q'|] eqn:E; cbn [bind] in H; [|discriminate| |discriminate].
    - apply ReadingFacts.included_some in E. destruct (lines_refusal (include_file d cwd fs) src IH) with (4 := H) (cur := @None entries) (pre := j_xacts j) as [->|R].
      + apply (include_preserves inv inv_create inv_post inv_note inv_final inv_price).
      + exact Iv.
      + reflexivity.
      + left. reflexivity.
      + right. exists p. split; [exact Np|]. right. exists src. split; [apply Fp; unfold p; rewrite E; discriminate|]. auto.
    - right. exists p. split; [exact Np|]. left. unfold included in E. fold p in E. destruct p as [|c r] eqn:Ep.
      + exfalso. unfold p, resolve in Ep. assert (Pn : push_path cwd arg <> []) by (unfold push_path; intros X; destruct (rev cwd) as [|a w]; [congruence|]; repeat match type of X with match ?x with _ => _ end = _ => destruct x end; destruct cwd; try discriminate; cbn in X; congruence).
        destruct arg as [|a arg]; [congruence|]. repeat match type of Ep with match ?x with _ => _ end = _ => destruct x; try discriminate; try contradiction end.
      + apply root_components; [discriminate|]. destruct (path_components (c :: r)) as [|x [|y l]]; [reflexivity| |discriminate]. repeat match type of E with match ?x with _ => _ end = _ => destruct x; try discriminate end.
  Qed.

  (** A source that is refused is not read. *)
  Lemma refused_lines cur src : refused cwd fs cur src -> forall depth m j pre j', inv m j -> at_content m cur j pre -> parse_lines (include_file depth cwd fs) m j src <> Ok j'.
  Proof.
    intros R.
    assert (HK : forall depth, JournalFacts.keeps inv (include_file depth cwd fs)) by (intros; apply (include_preserves inv inv_create inv_post inv_note inv_final inv_price)).
    induction R as [l src L|c r src D Hr|x r c src Fm Nc P|x l src Nl|x d src Dd U Hs|l arg p f src Il Np Fp Ef R IH|x src R IH|l src Il R IH|l src Il R IH|l arg src Il R IH|c r src D R IH
      |h es r src Fm R IH|h es r c src Fm Nc R IH|x l src Sl Hd R IH|x l src Hd R IH]; intros depth m j pre j' Iv S H.
    - destruct m; [|destruct S]. cbn [parse_lines step] in H. inv_bind H. exact (line_refused_top _ _ _ _ _ _ (i_pool _ _ Iv) L EQ).
    - destruct m; [|destruct S]. cbn [parse_lines step] in H. inv_bind H. apply top_kinds in EQ as [(X & _)|[(c' & r' & j1 & [= <- <-] & _ & Hc & _)|[(arg & j1 & X & _)|(X & _)]]].
      + apply OutlineProofs.inert_words in X as [_ X]. cbn in X. congruence.
      + pose proof (header_cases j c r D) as X. rewrite Hc in X. contradiction.
      + apply OutlineProofs.include_words in X as [X _]. apply (OutlineProofs.digit_words c r D). rewrite X. reflexivity.
      + apply OutlineProofs.price_words in X as [_ X]. exact (OutlineProofs.digit_words c r D X).
    - destruct m as [|xi]; [destruct S|]. cbn [parse_lines] in H. inv_bind H. rewrite xact_step_inc in EQ. pose proof (xact_step j xi _ _ _ pre Iv S EQ) as X. cbn beta iota in X.
      destruct X as [(r' & j1 & [= <-] & Fm' & _)|[(r' & c' & j1 & [= <-] & _ & _ & Np & _)|([[_ Sl]|[X|X]] & _)]]; [apply Nc; eapply OutlineProofs.mark_unique; eassumption|contradiction|exact (OutlineProofs.mark_not_blank _ _ Fm Sl)|discriminate|discriminate].
    - destruct m as [|xi]; [destruct S|]. cbn [parse_lines] in H. inv_bind H. rewrite xact_step_inc in EQ. pose proof (xact_step j xi _ _ _ pre Iv S EQ) as X. cbn beta iota in X.
      destruct X as [(r' & j1 & -> & _)|[(r' & c' & j1 & -> & _)|([[X _]|[X|X]] & _)]]; apply Nl; cbn; auto; rewrite X; auto.
    - destruct m as [|xi]; [destruct S|]. assert (Fn : forall j1, finalize j xi <> Ok j1).
      { intros j1 E. destruct S as (x0 & Ex & Lx & Dr). pose proof (final_cases j xi x pre x0 d Iv Ex Lx Dr Dd) as F. rewrite E in F. contradiction. }
      destruct src as [|l src]; cbn [parse_lines] in H; [exact (Fn _ H)|]. inv_bind H. rewrite xact_step_inc in EQ. pose proof (xact_step j xi _ _ _ pre Iv S EQ) as X. destruct l as [l|].
      + destruct X as [(r' & j1 & -> & Fm & _)|[(r' & c' & j1 & -> & Fm & _)|(_ & j1 & E & _)]]; [| |exact (Fn _ E)]; destruct Hs as [[_ Sl]|[X|X]]; try discriminate; exact (OutlineProofs.mark_not_blank _ _ Fm Sl).
      + destruct X as (j1 & E & _). exact (Fn _ E).
    - destruct m; [|destruct S]. cbn [parse_lines step] in H. inv_bind H. assert (Iw := OutlineProofs.include_words _ _ Il). destruct Iw as [F A].
      apply top_kinds in EQ as [(X & _)|[(c & r & j1 & -> & D & _)|[(arg' & j1 & X & Hi & _)|(X & _)]]].
      + apply OutlineProofs.inert_words in X as [X _]. rewrite F in X. apply X. reflexivity.
      + apply (OutlineProofs.digit_words c r D). rewrite F. reflexivity.
      + apply OutlineProofs.include_words in X as [_ X]. rewrite A in X. subst arg'. destruct depth as [|dp]; [discriminate|]. cbn [include_file] in Hi. rewrite (ReadingFacts.included_file _ fs _ _ Np Fp), Ef in Hi. cbn [bind] in Hi.
        exact (IH dp Top j (j_xacts j) j1 Iv eq_refl Hi).
      + apply OutlineProofs.price_words in X as [X _]. contradiction.
    - destruct m as [|xi]; [destruct S|]. cbn [parse_lines] in H. inv_bind H. assert (I2 := step_preserves inv inv_create inv_post inv_note inv_final inv_price _ _ _ _ _ (HK depth) Iv EQ).
      rewrite xact_step_inc in EQ. destruct (xact_step j xi _ _ _ pre Iv S EQ) as (j1 & _ & ->). exact (IH depth Top j1 (j_xacts j1) j' I2 eq_refl H).
    - destruct m; [|destruct S]. cbn [parse_lines] in H. inv_bind H. assert (I2 := step_preserves inv inv_create inv_post inv_note inv_final inv_price _ _ _ _ _ (HK depth) Iv EQ). destruct l as [l|]; [|destruct Il as (? & ? & _); discriminate].
      cbn [step] in EQ. apply OutlineProofs.inert_words in Il as [Iw Id]. apply top_kinds in EQ as [(_ & ->)|[(c & r & j1 & -> & D & _)|[(arg & j1 & X & _)|(X & _)]]].
      + exact (IH depth Top j (j_xacts j) j' I2 eq_refl H).
      + cbn in Id. congruence.
      + apply OutlineProofs.include_words in X as [X _]. rewrite X in Iw. apply Iw. reflexivity.
      + apply OutlineProofs.price_words in X as [_ X]. contradiction.
    - destruct m; [|destruct S]. cbn [parse_lines] in H. inv_bind H. assert (I2 := step_preserves inv inv_create inv_post inv_note inv_final inv_price _ _ _ _ _ (HK depth) Iv EQ).
      cbn [step] in EQ. apply OutlineProofs.price_words in Il as [Iw Ih]. apply top_kinds in EQ as [(X & _)|[(c & r & j1 & -> & D & _)|[(arg & j1 & X & _)|(_ & p & _ & ->)]]].
      + apply OutlineProofs.inert_words in X as [X _]. contradiction.
      + exact (OutlineProofs.digit_words c r D Ih).
      + apply OutlineProofs.include_words in X as [X _]. contradiction.
      + exact (IH depth Top _ _ j' I2 eq_refl H).
    - destruct m; [|destruct S]. cbn [parse_lines] in H. inv_bind H. assert (I2 := step_preserves inv inv_create inv_post inv_note inv_final inv_price _ _ _ _ _ (HK depth) Iv EQ).
      cbn [step] in EQ. apply OutlineProofs.include_words in Il as [F A]. apply top_kinds in EQ as [(X & _)|[(c & r & j1 & -> & D & _)|[(arg' & j1 & X & Hi & ->)|(X & _)]]].
      + apply OutlineProofs.inert_words in X as [X _]. rewrite F in X. apply X. reflexivity.
      + apply (OutlineProofs.digit_words c r D). rewrite F. reflexivity.
      + exact (IH depth Top _ _ j' I2 eq_refl H).
      + apply OutlineProofs.price_words in X as [X _]. contradiction.
    - destruct m; [|destruct S]. cbn [parse_lines] in H. inv_bind H. assert (I2 := step_preserves inv inv_create inv_post inv_note inv_final inv_price _ _ _ _ _ (HK depth) Iv EQ).
      cbn [step] in EQ. apply top_kinds in EQ as [(X & _)|[(c' & r' & j1 & [= <- <-] & _ & Hc & ->)|[(arg & j1 & X & _)|(X & _)]]].
      + apply OutlineProofs.inert_words in X as [_ X]. cbn in X. congruence.
      + destruct (header_tells _ _ _ _ D Hc) as (x & -> & Dr). cbn in S. refine (IH depth (InXact (length (j_xacts j))) _ pre j' I2 _ H). exists x. cbn [j_xacts set_xacts]. rewrite S. auto.
      + apply OutlineProofs.include_words in X as [X _]. apply (OutlineProofs.digit_words c r D). rewrite X. reflexivity.
      + apply OutlineProofs.price_words in X as [_ X]. exact (OutlineProofs.digit_words c r D X).
    - destruct m as [|xi]; [destruct S|]. cbn [parse_lines] in H. inv_bind H. assert (I2 := step_preserves inv inv_create inv_post inv_note inv_final inv_price _ _ _ _ _ (HK depth) Iv EQ).
      rewrite xact_step_inc in EQ. pose proof (xact_step j xi _ _ _ pre Iv S EQ) as X. cbn beta iota in X. cbn [fst snd] in X.
      destruct X as [(r' & j1 & [= <-] & _ & -> & S')|[(r' & c' & j1 & [= <-] & Fm' & Nc & _)|([[_ Sl]|[X|X]] & _)]]; [exact (IH depth _ _ _ j' I2 S' H)| |exact (OutlineProofs.mark_not_blank _ _ Fm Sl)|discriminate|discriminate].
      apply Nc. eapply OutlineProofs.mark_unique; eassumption.
    - destruct m as [|xi]; [destruct S|]. cbn [parse_lines] in H. inv_bind H. assert (I2 := step_preserves inv inv_create inv_post inv_note inv_final inv_price _ _ _ _ _ (HK depth) Iv EQ).
      rewrite xact_step_inc in EQ. pose proof (xact_step j xi _ _ _ pre Iv S EQ) as X. cbn beta iota in X. cbn [fst snd] in X.
      destruct X as [(r' & j1 & [= <-] & Fm' & _)|[(r' & c' & j1 & [= <-] & _ & _ & _ & -> & S')|([[_ Sl]|[X|X]] & _)]]; [|exact (IH depth _ _ _ j' I2 S' H)|exact (OutlineProofs.mark_not_blank _ _ Fm Sl)|discriminate|discriminate].
      apply Nc. eapply OutlineProofs.mark_unique; eassumption.
    - destruct m as [|xi]; [destruct S|]. cbn [parse_lines] in H. inv_bind H. assert (I2 := step_preserves inv inv_create inv_post inv_note inv_final inv_price _ _ _ _ _ (HK depth) Iv EQ).
      rewrite xact_step_inc in EQ. pose proof (xact_step j xi _ _ _ pre Iv S EQ) as X. cbn beta iota in X.
      destruct X as [(r' & j1 & -> & Fm' & _)|[(r' & c' & j1 & -> & Fm' & _)|(_ & j1 & _ & ->)]]; [destruct (OutlineProofs.mark_not_blank _ _ Fm' Sl)|destruct (OutlineProofs.mark_not_blank _ _ Fm' Sl)|].
      exact (IH depth Top j1 (j_xacts j1) j' I2 eq_refl H).
    - destruct m as [|xi]; [destruct S|]. cbn [parse_lines] in H. inv_bind H. assert (I2 := step_preserves inv inv_create inv_post inv_note inv_final inv_price _ _ _ _ _ (HK depth) Iv EQ).
      rewrite xact_step_inc in EQ. pose proof (xact_step j xi _ _ _ pre Iv S EQ) as X. cbn beta iota in X.
      destruct X as [(r' & j1 & -> & Fm' & _)|[(r' & c' & j1 & -> & Fm' & _)|(_ & j1 & _ & ->)]]; [destruct Hd as [Hd|Hd]; discriminate|destruct Hd as [Hd|Hd]; discriminate|].
      exact (IH depth Top j1 (j_xacts j1) j' I2 eq_refl H).
  Qed.
End Refused.
Theorem panics_refused depth cwd fs src j q : (forall p, fs p <> None -> file_path p) -> reachable_journal j ->
  read_into_journal depth cwd fs src j = Panic q -> q <> PArith -> refused cwd fs None src.
Proof.
  intros Fp R H N.
  assert (HK : JournalFacts.keeps inv (include_file depth cwd fs)) by apply (include_preserves inv inv_create inv_post inv_note inv_final inv_price).
  destruct (lines_refusal cwd fs (include_file depth cwd fs) src (include_refusal cwd fs depth Fp) HK Top None j (j_xacts j) q (reachable_inv _ R) eq_refl H) as [E|X]; [contradiction|exact X].
Qed.
Theorem refused_not_read depth cwd fs src j j' : reachable_journal j -> refused cwd fs None src -> read_into_journal depth cwd fs src j <> Ok j'.
Proof. intros R H. eapply (refused_lines cwd fs None src H depth Top j (j_xacts j)); [apply reachable_inv, R|reflexivity]. Qed.
