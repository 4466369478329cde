(** Files that say the same are read alike. *)
From Coq Require Import String List NArith ZArith Bool Lia.
From Verif Require Import Base Decimal Dates Amount Balance Scanner History Pool Account Journal Xact Parser Report Options Lib.
From Verif Require Import SpecDecimal SpecAmount SpecDates SpecText SpecReading SpecScan SpecPriceLog SpecEnd SpecValue SpecSpelling.
From Verif Require Import BaseFacts DecimalFacts DatesFacts ArithProofs ScanFacts ScanProofs ReportFacts ValueProofs PriceLogFacts.
Import ListNotations.
Open Scope nat_scope.
Notation same_prices := SpecSpelling.same_prices.

(** ** Numbers *)
Lemma denotes_reads q u k : denotes q u k -> exists d, d_from_str q = Some d /\ wf_dec d /\ units d = u /\ q <> [].
Proof.
  intros (sign & neg & whole & pt & frac & -> & S & W & F & P & N & L & K & K28 & ->).
  assert (S' : sign = [] /\ neg = false \/ sign = [plus_c] /\ neg = false \/ sign = [minus_c] /\ neg = true) by tauto.
  assert (E := d_from_str_complete sign neg whole pt frac S' W F P N L ltac:(lia)).
  eexists. split; [exact E|]. destruct (d_from_str_sound _ _ E) as [Wf _]. split; [exact Wf|]. split.
  - unfold units, d_make. cbn [d_neg d_m d_s]. rewrite K. destruct (Z.eqb_spec (number (whole ++ frac)) 0) as [Z|_]; [|reflexivity]. rewrite Z. destruct neg; reflexivity.
  - intros X. apply app_eq_nil in X as [_ X]. apply app_eq_nil in X as [X1 X]. apply app_eq_nil in X as [_ X2]. apply N. rewrite X1, X2. reflexivity.
Qed.
Lemma same_number_reads q q' : same_number q q' -> opt_rel same_value (d_from_str q) (d_from_str q') /\ is_empty q = is_empty q'.
Proof.
  intros [<-|(u & k & k' & D & D')].
  - split; [|reflexivity]. destruct (d_from_str q) as [d|] eqn:E; [|exact I]. apply d_from_str_sound in E as [W _]. apply same_value_refl, W.
  - apply denotes_reads in D as (d & -> & W & U & N). apply denotes_reads in D' as (d' & -> & W' & U' & N'). split.
    + split; [exact W|]. split; [exact W'|]. congruence.
    + destruct q; [contradiction|]. destruct q'; [contradiction|]. reflexivity.
Qed.

Lemma same_day_reads d d' : same_day d d' -> parse_date_opt d = parse_date_opt d' /\ is_empty d = is_empty d'.
Proof.
  intros [<-|(v & D & D')]; [split; reflexivity|]. split.
  - apply parse_date_iff in D, D'. congruence.
  - destruct D as (ty & tm & td & -> & _), D' as (ty' & tm' & td' & -> & _). destruct ty, ty'; reflexivity.
Qed.
Lemma same_clock_reads d d' : same_clock d d' -> parse_time_opt d = parse_time_opt d' /\ is_empty d = is_empty d'.
Proof.
  intros [<-|(v & D & D')]; [split; reflexivity|]. split.
  - apply parse_time_iff in D, D'. congruence.
  - destruct D as (ty & tm & td & -> & _), D' as (ty' & tm' & td' & -> & _). destruct ty, ty'; reflexivity.
Qed.

(** ** Lists *)
Lemma nth_rel {A B} (R : A -> B -> Prop) l l' n : Forall2 R l l' -> opt_rel R (nth_error l n) (nth_error l' n).
Proof. intros F. revert n. induction F; intros [|n]; cbn; auto. Qed.
Lemma update_rel {A B} (R : A -> B -> Prop) f f' l l' n : Forall2 R l l' -> (forall a b, R a b -> R (f a) (f' b)) -> Forall2 R (update_nth n f l) (update_nth n f' l').
Proof. intros F K. revert n. induction F; intros [|n]; cbn; constructor; auto. Qed.
Lemma lookup_rel {A B} (R : A -> B -> Prop) k m m' : Forall2 (same_keyed R) m m' -> opt_rel R (lookup k m) (lookup k m').
Proof. induction 1 as [|[a x] [b y] m m' [E H] F IH]; cbn in *; [exact I|]. subst b. destruct (str_eqb k a); [exact H|exact IH]. Qed.
Lemma insert_rel {A B} (R : A -> B -> Prop) k x y m m' : Forall2 (same_keyed R) m m' -> R x y -> Forall2 (same_keyed R) (insert k x m) (insert k y m').
Proof.
  intros F H. induction F as [|[a u] [b v] m m' [E K] F IH]; cbn in *; [constructor; [split; [reflexivity|exact H]|constructor]|].
  subst b. destruct (str_eqb k a); constructor; try assumption; split; auto.
Qed.
Lemma app_rel {A B} (R : A -> B -> Prop) l l' m m' : Forall2 R l l' -> Forall2 R m m' -> Forall2 R (l ++ m) (l' ++ m').
Proof. apply Forall2_app. Qed.
Lemma len_rel {A B} (R : A -> B -> Prop) l l' : Forall2 R l l' -> length l = length l'.
Proof. induction 1; cbn; congruence. Qed.

(** ** The pool *)
Lemma pm_rel k v v' m m' : same_prices m m' -> same_value v v' -> same_prices (pm_insert k v m) (pm_insert k v' m').
Proof.
  intros F V. induction F as [|[a x] [b y] m m' [E K] F IH]; cbn in *; [constructor; [split; [reflexivity|exact V]|constructor]|].
  subst b. destruct (dt_key k ?= dt_key a)%Z.
  - constructor; [split; [reflexivity|exact V]|exact F].
  - constructor; [split; [reflexivity|exact V]|]. constructor; [split; [reflexivity|exact K]|exact F].
  - constructor; [split; [reflexivity|exact K]|exact IH].
Qed.
Lemma put_rel a b k v v' es es' : Forall2 (same_keyed same_prices) es es' -> same_value v v' ->
  Forall2 (same_keyed same_prices) (put_price es a b k v) (put_price es' a b k v').
Proof.
  intros F V. induction F as [|[[x y] m] [[x' y'] m'] es es' [E K] F IH]; cbn in *.
  - constructor; [|constructor]. split; [reflexivity|]. constructor; [split; [reflexivity|exact V]|constructor].
  - injection E as <- <-. destruct ((x =? a) && (y =? b)); constructor; try assumption; (split; [reflexivity|]); cbn; [apply pm_rel; assumption|exact K].
Qed.
Definition same_found (x y : pool * comm) : Prop := same_pool (fst x) (fst y) /\ snd x = snd y.
Lemma found_rel p p' s ann ann' : same_pool p p' -> opt_rel same_annotation ann ann' ->
  same_found (pool_find_or_create p s ann) (pool_find_or_create p' s ann').
Proof.
  intros P A. destruct P as (C & N & G & E). unfold pool_find_or_create. destruct s as [|c0 s0]; [split; [exact (conj C (conj N (conj G E)))|reflexivity]|].
  unfold pool_find. rewrite <- C. set (s := c0 :: s0). assert (L := lookup_rel _ s _ _ N).
  destruct (lookup s (p_comms p)) as [c|] eqn:Q.
  - destruct ann as [a|], ann' as [a'|]; cbn in A; try contradiction; [|split; [exact (conj C (conj N (conj G E)))|reflexivity]].
    destruct (lookup s (p_ann p)) as [b|], (lookup s (p_ann p')) as [b'|]; cbn in L; try contradiction;
      (split; [|reflexivity]); cbn; [exact (conj C (conj N (conj G E)))|].
    split; [reflexivity|]. split; [apply insert_rel; assumption|split; assumption].
  - split; [|reflexivity]. unfold pool_create, add_commodity. cbn. rewrite <- C, <- G. split; [|split; [|split; [reflexivity|exact E]]].
    + cbn. f_equal. f_equal. destruct ann, ann'; cbn in A; try contradiction; reflexivity.
    + cbn. destruct ann, ann'; cbn in A; try contradiction; [apply insert_rel; assumption|exact N].
Qed.
Lemma deref_rel p p' c : same_pool p p' -> deref p c = deref p' c.
Proof. intros (C & _). unfold deref, pool_find. rewrite C. reflexivity. Qed.
Lemma add_price_rel p p' c w a a' : same_pool p p' -> same_amount a a' -> same_outcome same_pool (pool_add_price p c w a) (pool_add_price p' c w a').
Proof.
  intros P [E V]. unfold pool_add_price. rewrite <- (deref_rel _ _ _ P), <- E. eapply (same_outcome_bind eq); [apply same_outcome_refl; reflexivity|].
  intros x _ <-. destruct (comm_eqb _ _); [reflexivity|]. destruct (a_c a) as [t|]; [|reflexivity]. rewrite <- (deref_rel _ _ _ P).
  eapply (same_outcome_bind eq); [apply same_outcome_refl; reflexivity|]. intros y _ <-. destruct P as (C & N & G & F).
  split; [exact C|]. split; [exact N|]. split; [exact G|]. cbn. apply put_rel; assumption.
Qed.
Lemma same_null : same_amount amt_null amt_null.
Proof. apply same_amount_refl. exact wf_d_zero. Qed.
Definition same_bd (x y : breakdown * option price) : Prop :=
  (same_amount (bd_amount (fst x)) (bd_amount (fst y)))
  /\ opt_rel (fun a b => pr_commodity a = pr_commodity b /\ pr_when a = pr_when b /\ same_amount (pr_price a) (pr_price b)) (snd x) (snd y).
Lemma exchange_rel p p' a a' c c' u w : same_pool p p' -> same_amount a a' -> same_amount c c' ->
  same_outcome same_bd (exchange p a c u w) (exchange p' a' c' u w).
Proof.
  intros P A C. unfold exchange. rewrite <- (proj1 A). eapply (same_outcome_bind eq); [apply same_outcome_refl; reflexivity|].
  intros s _ <-. rewrite <- (deref_rel _ _ _ P). eapply (same_outcome_bind eq); [apply same_outcome_refl; reflexivity|]. intros x _ <-.
  unfold pool_get_by_index, get_commodity. rewrite <- (proj1 (proj2 (proj2 P))).
  eapply (same_outcome_bind eq).
  { eapply (same_outcome_bind eq); [apply same_outcome_refl; reflexivity|]. intros n _ <-. rewrite <- (deref_rel _ _ _ P). apply same_outcome_refl. reflexivity. }
  intros y _ <-. eapply same_outcome_bind.
  { instantiate (1 := same_amount). rewrite <- (proj1 (amt_zero_congr _ _ A)). destruct (u || amt_is_zero a); [exact (amt_abs_congr _ _ C)|].
    eapply same_outcome_bind; [apply amt_div_congr; [exact C|exact A]|]. intros q q' Q. apply amt_abs_congr, Q. }
  intros q q' Q. eapply same_outcome_bind.
  { instantiate (1 := same_amount). destruct u; [|exact C]. apply amt_mul_congr; [exact C|apply amt_abs_congr, A]. }
  intros f f' F. eapply same_outcome_bind.
  { instantiate (1 := same_amount). assert (L := lookup_rel _ (c_symbol y) _ _ (proj1 (proj2 P))).
    destruct (lookup _ (p_ann p)) as [n|], (lookup _ (p_ann p')) as [n'|]; cbn in L; try contradiction; [|exact F].
    destruct L as [L _]. destruct (an_price n), (an_price n'); cbn in L; try contradiction; [|exact same_null]. apply amt_mul_congr; assumption. }
  intros b b' B. split; [exact A|]. cbn [snd]. rewrite <- (proj1 C).
  assert (T : same_amount (match a_c c with None => amt_remove_commodity q | Some _ => q end) (match a_c c with None => amt_remove_commodity q' | Some _ => q' end)).
  { destruct (a_c c); [exact Q|apply amt_remove_congr, Q]. }
  revert T. generalize (match a_c c with None => amt_remove_commodity q | Some _ => q end) (match a_c c with None => amt_remove_commodity q' | Some _ => q' end).
  intros t t' T. rewrite <- (proj1 (amt_zero_congr _ _ T)), <- (proj1 T). destruct (negb (amt_is_zero t) && negb (comm_eqb (a_c a) (a_c t))); [|exact I].
  cbn. split; [reflexivity|split; [reflexivity|exact T]].
Qed.

(** ** Transactions *)
Definition same_pair {A A' B B'} (R : A -> A' -> Prop) (Q : B -> B' -> Prop) (x : A * B) (y : A' * B') : Prop := R (fst x) (fst y) /\ Q (snd x) (snd y).
Notation same_posts := (Forall2 same_post).
Lemma same_value_of p p' : same_post p p' -> opt_rel same_amount (post_value p) (post_value p').
Proof. intros (_ & A & C & _). unfold post_value. destruct (po_cost p), (po_cost p'); cbn in C; try contradiction; assumption. Qed.
Lemma sum_posts_rel ps ps' : same_posts ps ps' -> forall i b b' n, same_balance b b' ->
  same_outcome (same_pair same_balance eq) (sum_posts ps i b n) (sum_posts ps' i b' n).
Proof.
  induction 1 as [|p p' ps ps' P F IH]; intros i b b' n B; cbn [sum_posts]; [split; [exact B|reflexivity]|].
  assert (V := same_value_of _ _ P). destruct (post_value p) as [a|], (post_value p') as [a'|]; cbn in V; try contradiction.
  - eapply same_outcome_bind; [apply bal_add_congr; [exact B|exact V]|]. intros c c' C. apply IH, C.
  - destruct n; [reflexivity|]. apply IH, B.
Qed.
Lemma top_rel ps ps' : same_posts ps ps' -> opt_rel same_amount (top_amount ps) (top_amount ps').
Proof.
  induction 1 as [|p p' ps ps' (_ & A & _) F IH]; [exact I|]. cbn [top_amount].
  destruct (po_amount p), (po_amount p'); cbn in A; try contradiction; assumption.
Qed.
Lemma unwrap_rel {A B} (R : A -> B -> Prop) o o' : opt_rel R o o' -> same_outcome R (unwrap o) (unwrap o').
Proof. destruct o, o'; cbn; auto. Qed.
Lemma cost_loop_rel c u u' ps ps' : same_amount u u' -> same_posts ps ps' -> forall b b', same_balance b b' ->
  same_outcome (same_pair same_posts same_balance) (cost_loop c u ps b) (cost_loop c u' ps' b').
Proof.
  intros U. induction 1 as [|p p' ps ps' P F IH]; intros b b' B; cbn [cost_loop]; [split; [constructor|exact B]|].
  destruct P as (Pa & Am & Co & No).
  eapply same_outcome_bind; [apply unwrap_rel; exact Am|]. intros a a' A.
  eapply (same_outcome_bind (same_pair same_post same_balance)).
  - rewrite <- (proj1 A). destruct (comm_eqb (a_c a) c); [|split; [exact (conj Pa (conj Am (conj Co No)))|exact B]].
    eapply same_outcome_bind; [apply bal_sub_congr; [exact B|exact A]|]. intros b1 b1' B1.
    eapply same_outcome_bind; [apply amt_mul_congr; [exact U|exact A]|]. intros k k' K.
    eapply same_outcome_bind; [apply bal_add_congr; [exact B1|exact K]|]. intros b2 b2' B2.
    split; [|exact B2]. split; [exact Pa|]. split; [exact Am|]. split; [exact K|exact No].
  - intros [q b1] [q' b1'] [Q B1]. cbn [fst snd] in Q, B1. eapply same_outcome_bind; [apply IH, B1|]. intros [r b2] [r' b2'] [R B2].
    split; [constructor; assumption|exact B2].
Qed.
Lemma infer_rel ps ps' b b' : same_posts ps ps' -> same_balance b b' ->
  same_outcome (same_pair same_posts same_balance) (infer_costs ps b) (infer_costs ps' b').
Proof.
  intros P B. assert (D : same_outcome (same_pair same_posts same_balance) (Ok (ps, b)) (Ok (ps', b'))) by (split; assumption).
  assert (B' := B). unfold infer_costs. destruct B' as [|x x' ? ? X [|y y' ? ? Y [|? ? ? ? ? ?]]]; try exact D.
  assert (T := top_rel _ _ P). destruct (top_amount ps) as [t|], (top_amount ps') as [t'|]; cbn in T; try contradiction; [|exact D].
  rewrite <- (proj1 (amt_zero_congr _ _ X)), <- (proj1 (amt_zero_congr _ _ Y)). destruct (negb (amt_is_zero x) && negb (amt_is_zero y)); [|exact D].
  rewrite <- (proj1 X), <- (proj1 T). destruct (negb (comm_eqb (a_c x) (a_c t))); cbv zeta iota beta.
  - eapply same_outcome_bind; [apply amt_div_congr; [exact X|exact Y]|]. intros r r' R. rewrite <- (proj1 Y). apply cost_loop_rel; [apply amt_abs_congr, R|exact P|exact B].
  - eapply same_outcome_bind; [apply amt_div_congr; [exact Y|exact X]|]. intros r r' R. rewrite <- (proj1 X). apply cost_loop_rel; [apply amt_abs_congr, R|exact P|exact B].
Qed.
Lemma price_loop_rel d ps ps' : same_posts ps ps' -> forall p p', same_pool p p' ->
  same_outcome (same_pair same_pool same_posts) (price_loop d p ps) (price_loop d p' ps').
Proof.
  induction 1 as [|q q' ps ps' Q F IH]; intros p p' P; cbn [price_loop]; [split; [exact P|constructor]|].
  eapply (same_outcome_bind (same_pair same_pool same_post)).
  - destruct Q as (Pa & Am & Co & No). assert (Q : same_post q q') by (repeat split; assumption).
    destruct (po_cost q) as [c|] eqn:Ec, (po_cost q') as [c'|] eqn:Ec'; cbn in Co; try contradiction; [|split; assumption].
    destruct (po_amount q) as [a|], (po_amount q') as [a'|]; cbn in Am; try contradiction; [|reflexivity].
    rewrite <- (proj1 Am), <- (proj1 Co). destruct (comm_eqb (a_c a) (a_c c)); [reflexivity|].
    eapply (same_outcome_bind eq); [apply same_outcome_refl; reflexivity|]. intros dd _ <-.
    eapply same_outcome_bind; [apply exchange_rel; [exact P|exact Am|exact Co]|]. intros [bd np] [bd' np'] [Bd Np]. cbn [fst snd] in Bd, Np.
    eapply (same_outcome_bind same_pool).
    + destruct np as [r|], np' as [r'|]; cbn in Np; try contradiction; [|exact P]. destruct Np as (E1 & E2 & E3).
      unfold pool_add_price_struct. rewrite <- E1, <- E2. apply add_price_rel; assumption.
    + intros p1 p1' P1. split; [exact P1|]. cbn. split; [exact Pa|]. split; [exact Bd|]. cbn. rewrite Ec, Ec'. split; [exact Co|exact No].
  - intros [p1 r] [p1' r'] [P1 R]. cbn [fst snd] in P1, R. eapply same_outcome_bind; [apply IH, P1|]. intros [p2 s] [p2' s'] [P2 S].
    split; [exact P2|constructor; assumption].
Qed.
Lemma finalize_posts_rel d p p' ps ps' : same_pool p p' -> same_posts ps ps' ->
  same_outcome (same_pair same_pool same_posts) (finalize_posts d p ps) (finalize_posts d p' ps').
Proof.
  intros P F. unfold finalize_posts. rewrite <- (len_rel _ _ _ F).
  eapply same_outcome_bind; [apply sum_posts_rel; [exact F|constructor]|]. intros [b n] [b' n'] [B N]. cbn [fst snd] in B, N. subst n'.
  destruct (length ps =? 1); [reflexivity|].
  eapply (same_outcome_bind (same_pair same_posts same_balance)).
  { destruct n; [split; assumption|]. apply infer_rel; assumption. }
  intros [ps1 b1] [ps1' b1'] [F1 B1]. cbn [fst snd] in F1, B1.
  eapply same_outcome_bind; [apply price_loop_rel; [exact F1|exact P]|]. intros [p2 ps2] [p2' ps2'] [P2 F2]. cbn [fst snd] in P2, F2.
  destruct n as [i|]; [|split; assumption]. destruct B1 as [|x x' ? ? X [|? ? ? ? ? ?]]; try reflexivity.
  split; [exact P2|]. cbn. apply update_rel; [exact F2|]. intros q q' (Pa & Am & Co & No). split; [exact Pa|]. split; [apply amt_inverse_congr, X|split; [exact Co|exact No]].
Qed.
Lemma set_posts_rel x x' ps ps' : same_xact x x' -> same_posts ps ps' -> same_xact (set_posts x ps) (set_posts x' ps').
Proof. intros (A & B & C & D & _) F. repeat split; assumption. Qed.
Lemma finalize_rel j j' xi : same_journal j j' -> same_outcome same_journal (finalize j xi) (finalize j' xi).
Proof.
  intros (M & P & X). unfold finalize. assert (N := nth_rel _ _ _ xi X).
  destruct (nth_error (j_xacts j) xi) as [x|], (nth_error (j_xacts j') xi) as [x'|]; cbn in N; try contradiction; [|reflexivity].
  assert (N' := N). destruct N' as (D & _ & _ & _ & F). rewrite <- D.
  eapply same_outcome_bind; [apply finalize_posts_rel; [exact P|exact F]|]. intros [p ps] [p' ps'] [P1 F1].
  split; [exact M|]. split; [exact P1|]. cbn. apply update_rel; [exact X|]. intros a b H. apply set_posts_rel; assumption.
Qed.

(** ** The parser *)
Definition same_parsed (x y : pool * option amount) : Prop := same_pool (fst x) (fst y) /\ opt_rel same_amount (snd x) (snd y).
Lemma amount_of_rel q q' c : same_number q q' -> opt_rel same_amount (option_map (fun d => mkAmt d c) (d_from_str q)) (option_map (fun d => mkAmt d c) (d_from_str q')).
Proof. intros N. destruct (same_number_reads _ _ N) as [V _]. destruct (d_from_str q), (d_from_str q'); cbn in V; try contradiction; [|exact I]. split; [reflexivity|exact V]. Qed.
Lemma parts_rel p p' q q' s : same_pool p p' -> same_number q q' -> same_parsed (parse_amount_parts p q s) (parse_amount_parts p' q' s).
Proof.
  intros P N. unfold parse_amount_parts. assert (F := found_rel _ _ s None None P I).
  destruct (pool_find_or_create p s None) as [p1 c], (pool_find_or_create p' s None) as [p1' c']. destruct F as [F E]. cbn [fst snd] in F, E. subst c'.
  split; [exact F|]. apply amount_of_rel, N.
Qed.
Lemma cost_rel p p' t t' a a' : same_pool p p' -> same_parts t t' -> opt_rel same_amount a a' -> same_outcome same_parsed (parse_cost p t a) (parse_cost p' t' a').
Proof.
  intros P T A. destruct T as (_ & _ & _ & _ & _ & _ & Q & S & U). unfold parse_cost. destruct a as [a|], a' as [a'|]; cbn in A; try contradiction; [|split; [exact P|exact I]].
  rewrite <- (proj2 (same_number_reads _ _ Q)), <- S, <- U. destruct (is_empty (t_cost_quantity t)); [split; [exact P|exact I]|].
  assert (R := parts_rel _ _ _ _ (t_cost_symbol t) P Q).
  destruct (parse_amount_parts p _ _) as [p1 c], (parse_amount_parts p' _ _) as [p1' c']. destruct R as [R1 R2]. cbn [fst snd] in R1, R2.
  destruct c as [c|], c' as [c'|]; cbn in R2; try contradiction; [|split; [exact R1|exact I]].
  destruct (t_is_per_unit t); [|split; assumption]. eapply same_outcome_bind; [apply amt_mul_congr; [exact R2|exact A]|]. intros x y H. split; assumption.
Qed.
Lemma annotation_rel p p' d d' q q' s : same_pool p p' -> same_number q q' -> same_day d d' ->
  same_outcome (same_pair same_pool same_annotation) (annotation_parse p d q s) (annotation_parse p' d' q' s).
Proof.
  intros P N D. apply same_day_reads in D as [D1 D2]. unfold annotation_parse. rewrite <- D1, <- D2. assert (F := found_rel _ _ s None None P I).
  destruct (pool_find_or_create p s None) as [p1 c], (pool_find_or_create p' s None) as [p1' c']. destruct F as [F E]. cbn [fst snd] in F, E. subst c'.
  eapply (same_outcome_bind eq); [apply same_outcome_refl; reflexivity|]. intros x _ <-. split; [exact F|]. split; [apply amount_of_rel, N|reflexivity].
Qed.
Definition same_scan (o o' : outcome post_tokens) : Prop := same_outcome same_parts o o'.
Lemma same_parts_refl t : same_parts t t.
Proof. unfold same_parts, same_number, same_day. repeat split; auto. Qed.
Lemma parse_post_rel j j' xi l l' : same_journal j j' -> same_scan (scan_post l) (scan_post l') -> same_outcome same_journal (parse_post j xi l) (parse_post j' xi l').
Proof.
  intros (M & P & X) S. unfold parse_post. eapply same_outcome_bind; [exact S|]. intros t t' T. assert (T' := T).
  destruct T' as (Ta & Tq & Ts & Tpq & Tpc & Tpd & _). rewrite <- M, <- Ta, <- Ts, <- Tpc.
  eapply (same_outcome_bind eq); [apply same_outcome_refl; reflexivity|]. intros [m1 acct] _ <-.
  assert (R := parts_rel _ _ _ _ (t_symbol t) P Tq).
  destruct (parse_amount_parts (j_pool j) _ _) as [p1 a], (parse_amount_parts (j_pool j') _ _) as [p1' a']. destruct R as [R A]. cbn [fst snd] in R, A.
  eapply same_outcome_bind; [apply annotation_rel; [exact R|exact Tpq|exact Tpd]|]. intros [p2 an] [p2' an'] [P2 An]. cbn [fst snd] in P2, An.
  assert (F := found_rel p2 p2' (t_symbol t) (Some an) (Some an') P2 An).
  destruct (pool_find_or_create p2 _ _) as [p3 c], (pool_find_or_create p2' _ _) as [p3' c']. destruct F as [F _]. cbn [fst snd] in F.
  eapply same_outcome_bind; [apply cost_rel; [exact F|exact T|exact A]|]. intros [p4 co] [p4' co'] [P4 Co]. cbn [fst snd] in P4, Co.
  assert (N := nth_rel _ _ _ xi X).
  destruct (nth_error (j_xacts j) xi) as [x|], (nth_error (j_xacts j') xi) as [x'|]; cbn in N; try contradiction; [|reflexivity].
  assert (N' := N). destruct N' as (_ & _ & _ & _ & Fp). rewrite <- (len_rel _ _ _ Fp).
  eapply (same_outcome_bind eq); [apply same_outcome_refl; reflexivity|]. intros m2 _ <-. split; [reflexivity|]. split; [exact P4|]. cbn.
  apply update_rel; [exact X|]. intros y y' Y. apply set_posts_rel; [exact Y|]. apply app_rel; [apply Y|]. constructor; [|constructor].
  split; [reflexivity|]. split; [exact A|split; [exact Co|reflexivity]].
Qed.
Lemma note_rel j j' xi l : same_journal j j' -> same_outcome same_journal (parse_trailing_note j xi l) (parse_trailing_note j' xi l).
Proof.
  intros (M & P & X). unfold parse_trailing_note. destruct (is_empty (trim (skipn 1 l))); [split; [exact M|split; assumption]|].
  split; [exact M|]. split; [exact P|]. cbn. apply update_rel; [exact X|]. intros x x' Y. assert (Y' := Y). destruct Y as (A & B & C & D & F). remember (x_posts x) as ps eqn:E. remember (x_posts x') as ps' eqn:E'.
  destruct F as [|p p' q q' H F].
  - repeat split; try assumption. cbn. rewrite <- E, <- E'. constructor.
  - apply set_posts_rel; [exact Y'|]. cbn [length]. rewrite (len_rel _ _ _ F). apply update_rel; [constructor; assumption|]. intros u v (U1 & U2 & U3 & _). repeat split; assumption.
Qed.
Definition same_header (x y : str * str * str * str) : Prop :=
  let '(d, aux, payee, note) := x in let '(d', aux', payee', note') := y in same_day d d' /\ same_day aux aux' /\ payee = payee' /\ note = note'.
Lemma create_rel j j' l l' : same_journal j j' -> same_outcome same_header (tokenize_xact_header l) (tokenize_xact_header l') ->
  same_outcome same_journal (create_xact j l) (create_xact j' l').
Proof.
  intros (M & P & X) H. unfold create_xact. eapply same_outcome_bind; [exact H|]. intros [[[d aux] payee] note] [[[d' aux'] payee'] note'] (D & A & <- & <-).
  apply same_day_reads in D as [D1 D2], A as [A1 A2].
  eapply (same_outcome_bind (fun x y => x = y /\ x_posts x = [])).
  - unfold xact_create, parse_date. rewrite <- D1, <- D2, <- A1, <- A2. eapply (same_outcome_bind eq); [apply same_outcome_refl; reflexivity|]. intros dd _ <-.
    eapply (same_outcome_bind eq); [apply same_outcome_refl; reflexivity|]. intros aa _ <-. split; reflexivity.
  - intros x _ [<- E]. split; [exact M|]. split; [exact P|]. cbn. apply app_rel; [exact X|]. constructor; [|constructor].
    repeat split. rewrite E. constructor.
Qed.
Lemma header_refl l : same_outcome same_header (tokenize_xact_header l) (tokenize_xact_header l).
Proof. apply same_outcome_refl. intros [[[d aux] payee] note]. unfold same_header, same_day. auto. Qed.
Definition same_next (n n' : next) : Prop :=
  match n, n' with
  | Continue m j, Continue m' j' => m = m' /\ same_journal j j'
  | Stop j, Stop j' => same_journal j j'
  | _, _ => False
  end.
Lemma continue_rel m o o' : same_outcome same_journal o o' -> same_outcome same_next (let* j := o in Ok (Continue m j)) (let* j := o' in Ok (Continue m j)).
Proof. intros H. eapply same_outcome_bind; [exact H|]. intros j j' J. split; [reflexivity|exact J]. Qed.
Definition same_inc (inc inc' : str -> journal -> outcome journal) : Prop :=
  forall arg j j', same_journal j j' -> same_outcome same_journal (inc arg j) (inc' arg j').

Lemma price_directive_rel p p' l l' :
  same_pool p p' -> (exists d d' t t' s q q' c, scan_price_directive l = Ok (d, t, s, q, c) /\ scan_price_directive l' = Ok (d', t', s, q', c)
    /\ same_day d d' /\ same_clock t t' /\ same_number q q') ->
  same_outcome same_pool (parse_price_directive p l) (parse_price_directive p' l').
Proof.
  intros P (d & d' & t & t' & s & q & q' & c & E & E' & D & T & N). unfold parse_price_directive. rewrite E, E'. cbn [bind].
  apply same_day_reads in D as [D _]. apply same_clock_reads in T as [T1 T2]. rewrite <- D, <- T1, <- T2.
  eapply (same_outcome_bind eq); [apply same_outcome_refl; reflexivity|]. intros dd _ <-.
  eapply (same_outcome_bind eq); [apply same_outcome_refl; reflexivity|]. intros tt _ <-.
  assert (F := found_rel _ _ s None None P I).
  destruct (pool_find_or_create p s None) as [p1 cs], (pool_find_or_create p' s None) as [p1' cs']. destruct F as [F Ec]. cbn [fst snd] in F, Ec. subst cs'.
  eapply same_outcome_bind; [apply unwrap_rel, same_number_reads, N|]. intros v v' V.
  assert (F2 := found_rel _ _ c None None F I).
  destruct (pool_find_or_create p1 c None) as [p2 cc], (pool_find_or_create p1' c None) as [p2' cc']. destruct F2 as [F2 Ec]. cbn [fst snd] in F2, Ec. subst cc'.
  apply add_price_rel; [exact F2|]. split; [reflexivity|exact V].
Qed.
Lemma price_directive_refl p p' l : same_pool p p' -> same_outcome same_pool (parse_price_directive p l) (parse_price_directive p' l).
Proof.
  intros P. destruct (scan_price_directive l) as [[[[[d t] s] q] c]| |] eqn:E.
  - apply price_directive_rel; [exact P|]. exists d, d, t, t, s, q, q, c. unfold same_day, same_clock, same_number. auto 9.
  - unfold parse_price_directive. rewrite E. reflexivity.
  - unfold parse_price_directive. rewrite E. exact I.
Qed.
Lemma set_pool_rel j j' o o' : same_journal j j' -> same_outcome same_pool o o' -> same_outcome same_journal (let* p := o in Ok (set_pool j p)) (let* p := o' in Ok (set_pool j' p)).
Proof. intros (M & _ & X) H. eapply same_outcome_bind; [exact H|]. intros p p' P. split; [exact M|split; [exact P|exact X]]. Qed.

Lemma general_refl inc inc' j j' l : same_inc inc inc' -> same_journal j j' -> same_outcome same_journal (general_directive inc j l) (general_directive inc' j' l).
Proof.
  intros I J. unfold general_directive. destruct (take_word l) as [w r]. destruct w as [|c w0]; [reflexivity|].
  destruct (N.eq_dec c 105) as [->|Nc].
  - cbv iota. destruct (str_eqb (105%N :: w0) (lit "include")).
    + destruct (fst (take_word r)); [reflexivity|]. apply I, J.
    + destruct (str_eqb (105%N :: w0) (lit "import")); [reflexivity|]. apply set_pool_rel; [exact J|]. apply price_directive_refl, J.
  - destruct (N.eq_dec c 97) as [->|Na]; [reflexivity|].
    destruct c as [|c]; [reflexivity|]. do 7 (destruct c as [c|c|]; try reflexivity; try (exfalso; congruence)).
Qed.

Lemma price_parts_scan l date time s q t : price_parts l date time s q t ->
  scan_price_directive l = Ok (date, time, s, q, t) /\ exists r, l = 105%N :: r /\ take_word l = ([105%N], r).
Proof.
  intros [w1 d w2 clock tm s' w4 q' w5 t' rest W1 G2 G4 G5 Ed Es Eq Et R C]. split.
  - assert (W1' : spaces w1) by apply W1.
    destruct C as [(-> & -> & D)|(w3 & -> & E3 & D & G3)].
    + refine (scan_said _ 105%N w1 d w2 [] s' w4 q' w5 t' rest _ eq_refl W1' G2 G4 G5 Ed Es Eq Et R [] [] _); [reflexivity|]. left. auto.
    + refine (scan_said _ 105%N w1 d w2 (tm ++ w3) s' w4 q' w5 t' rest _ eq_refl W1' G2 G4 G5 Ed Es Eq Et R tm w3 _); [reflexivity|]. right. auto.
  - eexists. split; [reflexivity|]. destruct W1 as [N W]. destruct w1 as [|c w1]; [contradiction|].
    assert (B : is_ws c = true). { unfold spaces in W. cbn [forallb] in W. apply andb_prop in W as [W _]. exact W. }
    unfold take_word. replace (trim_start (lit "i" ++ (c :: w1) ++ d ++ w2 ++ clock ++ s' ++ w4 ++ q' ++ w5 ++ t' ++ rest)) with (105%N :: (c :: w1) ++ d ++ w2 ++ clock ++ s' ++ w4 ++ q' ++ w5 ++ t' ++ rest) by reflexivity.
    cbn [app find_char]. rewrite B. reflexivity.
Qed.
Lemma top_digit inc j c r : is_digit c = true -> top_line inc j (c :: r) = let* j' := create_xact j (c :: r) in Ok (Continue (InXact (length (j_xacts j))) j').
Proof.
  intros D. unfold top_line. rewrite D. unfold is_digit in D. apply andb_prop in D as [D1 D2]. apply N.leb_le in D1, D2.
  assert (X : forall n, (n < 48 \/ 57 < n)%N -> (c =? n)%N = false) by (intros n Hn; apply N.eqb_neq; lia).
  unfold str_eqb. rewrite !X by lia. reflexivity.
Qed.
Lemma xact_other j xi c r : ~ In c [32; 13; 10]%N -> xact_line j xi (c :: r) = Panic PExplicit.
Proof.
  intros H. unfold xact_line. destruct c as [|c]; [reflexivity|].
  do 6 (destruct c as [c|c|]; try reflexivity; try (exfalso; apply H; cbn; auto; fail)).
Qed.
Lemma step_rel inc inc' m j j' l l' : same_inc inc inc' -> same_journal j j' -> same_line l l' -> same_outcome same_next (step inc m j l) (step inc' m j' l').
Proof.
  intros HI J L. destruct L as [l|l l' d d' aux aux' payee note S S' H H' D A|r r' t t' P P' T|l l' date date' time time' s q q' t P P' D C N|l l' C C'|l l' C C'].
  - destruct m as [|xi], l as [l|]; cbn [step].
    + unfold top_line. destruct (str_eqb l [13%N; 10%N] || str_eqb l [10%N]); [split; [reflexivity|exact J]|]. destruct l as [|c l]; [reflexivity|].
      destruct (_ || _); [split; [reflexivity|exact J]|]. destruct (c =? 45)%N; [split; [reflexivity|exact J]|].
      destruct (is_digit c).
      { rewrite <- (len_rel _ _ _ (proj2 (proj2 J))). apply continue_rel, create_rel; [exact J|apply header_refl]. }
      destruct (_ || _); [reflexivity|]. apply continue_rel, general_refl; assumption.
    + exact J.
    + unfold xact_line. assert (Fi : same_outcome same_next (let* j0 := finalize j xi in Ok (Continue Top j0)) (let* j0 := finalize j' xi in Ok (Continue Top j0))) by (apply continue_rel, finalize_rel, J).
      destruct l as [|c l]; [reflexivity|]. destruct (N.eq_dec c 32) as [->|N32].
      * destruct (trim_start (32%N :: l)) as [|d x] eqn:E; [exact Fi|]. destruct (N.eq_dec d 59) as [->|N59]; [apply continue_rel, note_rel, J|].
        assert (Po : same_outcome same_next (let* j0 := parse_post j xi (d :: x) in Ok (Continue (InXact xi) j0)) (let* j0 := parse_post j' xi (d :: x) in Ok (Continue (InXact xi) j0))).
        { apply continue_rel, parse_post_rel; [exact J|]. apply same_outcome_refl, same_parts_refl. }
        destruct d as [|d]; [exact Po|]. do 6 (destruct d as [d|d|]; try exact Po; try (exfalso; congruence)).
      * destruct (N.eq_dec c 13) as [->|N13]; [exact Fi|]. destruct (N.eq_dec c 10) as [->|N10]; [exact Fi|].
        destruct c as [|c]; [reflexivity|]. do 6 (destruct c as [c|c|]; try reflexivity; try (exfalso; congruence)).
    + apply continue_rel, finalize_rel, J.
  - destruct l as [|c l]; [discriminate|]. destruct l' as [|c' l']; [discriminate|]. cbn in S, S'.
    destruct m as [|xi]; cbn [step].
    + rewrite !top_digit by assumption. rewrite <- (len_rel _ _ _ (proj2 (proj2 J))). apply continue_rel, create_rel; [exact J|].
      rewrite (header_scanned _ _ _ _ _ H), (header_scanned _ _ _ _ _ H'). repeat split; assumption.
    + rewrite !xact_other; [reflexivity| |]; (intros [X|[X|[X|[]]]]; subst; discriminate).
  - destruct m as [|xi]; cbn [step].
    + unfold top_line. cbn. reflexivity.
    + assert (E : forall l tok, posting_line l tok -> exists c x, trim_start l = c :: x /\ c <> 59%N).
      { clear. intros l tok [w0 a w1 W0 W1 ((c & x & -> & Cw & C59) & _) _ _|w0 a w1 ? ? ? ? ? ? ? ? ? ? ? ? w2 W0 W1 W2 ((c & x & -> & Cw & C59) & _) _ _ _ _ _];
          rewrite trim_start_app by exact W0; cbn [app trim_start]; eexists c, _; (split; [|exact C59]); unfold trim_start; cbn [drop_while]; rewrite Cw; reflexivity. }
      assert (X : forall r tok, posting_line (32%N :: r) tok -> forall j xi, xact_line j xi (32%N :: r) = (let* j0 := parse_post j xi (trim_start (32%N :: r)) in Ok (Continue (InXact xi) j0))).
      { clear -E. intros r tok P j xi. unfold xact_line. destruct (E _ _ P) as (c & x & -> & C). destruct c as [|c]; [reflexivity|]. do 6 (destruct c as [c|c|]; try reflexivity; try (exfalso; congruence)). }
      rewrite (X _ _ P), (X _ _ P'). apply continue_rel, parse_post_rel; [exact J|].
      assert (Sc : forall l tok, posting_line l tok -> scan_post (trim_start l) = Ok tok).
      { intros l tok Q. rewrite <- (posting_scanned _ _ Q). unfold scan_post. rewrite trim_idem. reflexivity. }
      rewrite (Sc _ _ P), (Sc _ _ P'). exact T.
  - apply price_parts_scan in P as [Sc (x & -> & Tw)]. apply price_parts_scan in P' as [Sc' (x' & -> & Tw')].
    destruct m as [|xi]; cbn [step].
    + unfold top_line. change (str_eqb (105%N :: x) [13%N; 10%N] || str_eqb (105%N :: x) [10%N]) with false. change (str_eqb (105%N :: x') [13%N; 10%N] || str_eqb (105%N :: x') [10%N]) with false.
      cbv iota. change ((105 =? 59) || (105 =? 35) || (105 =? 42) || (105 =? 124))%N with false. change (105 =? 45)%N with false. change (is_digit 105%N) with false. change ((105 =? 32) || (105 =? 9))%N with false. cbv iota.
      apply continue_rel. unfold general_directive. rewrite Tw, Tw'. change (str_eqb [105%N] (lit "include")) with false. change (str_eqb [105%N] (lit "import")) with false. cbv iota.
      apply set_pool_rel; [exact J|]. apply price_directive_rel; [apply J|]. exists date, date', time, time', s, q, q', t. auto 9.
    + reflexivity.
  - destruct C as (c & r & -> & C), C' as (c' & r' & -> & C').
    assert (K : forall c, one_of ";#*|-" c = true -> In c [59; 35; 42; 124; 45]%N).
    { clear. intros c H. unfold one_of in H. apply existsb_exists in H as (d & I & E). apply N.eqb_eq in E. subst d. exact I. }
    apply K in C, C'. clear K. destruct m as [|xi]; cbn [step].
    + assert (T : forall inc j c r, In c [59; 35; 42; 124; 45]%N -> top_line inc j (c :: r) = Ok (Continue Top j)).
      { clear. intros inc j c r H. repeat destruct H as [<-|H]; try contradiction; reflexivity. }
      rewrite !T by assumption. split; [reflexivity|exact J].
    + rewrite !xact_other; [reflexivity| |]; intros X; cbn in *; intuition (subst; discriminate).
  - assert (K : forall l, In l [nl; 13%N :: nl] -> l = nl \/ l = 13%N :: nl) by (intros ? [<-|[<-|[]]]; auto).
    apply K in C, C'. destruct C as [-> | ->], C' as [-> | ->], m as [|xi]; cbn [step]; try (split; [reflexivity|exact J]); apply continue_rel, finalize_rel, J.
Qed.
Lemma parse_lines_rel inc inc' l l' : same_inc inc inc' -> same_source l l' -> forall m j j', same_journal j j' ->
  same_outcome same_journal (parse_lines inc m j l) (parse_lines inc' m j' l').
Proof.
  intros In F. induction F as [|a b l l' H F IH]; intros m j j' J; cbn [parse_lines].
  - destruct m; [exact J|apply finalize_rel, J].
  - eapply same_outcome_bind; [apply step_rel; [exact In|exact J|exact H]|]. intros [m1 j1|j1] [m2 j2|j2] K; cbn in K; try contradiction; [|exact K].
    destruct K as [<- K]. apply IH, K.
Qed.
Lemma include_rel fs fs' cwd : same_files fs fs' -> forall depth, same_inc (include_file depth cwd fs) (include_file depth cwd fs').
Proof.
  intros F. induction depth as [|d IH]; intros arg j j' J; cbn [include_file]; [exact I|].
  eapply (same_outcome_bind (opt_rel same_source)).
  - unfold included. assert (G : same_outcome (opt_rel same_source) (Ok (fs (resolve cwd arg))) (Ok (fs' (resolve cwd arg)))) by apply F.
    destruct (path_components (resolve cwd arg)) as [|a [|b l]]; [reflexivity| |exact G].
    destruct (resolve cwd arg) as [|c x]; [exact I|]. destruct c as [|c]; [exact I|]. do 6 (destruct c as [c|c|]; try exact I; try exact G).
  - intros o o' O. destruct o as [s|], o' as [s'|]; cbn in O; try contradiction; [|exact J]. apply parse_lines_rel; assumption.
Qed.
Theorem reading_alike depth cwd fs fs' src src' j j' : same_files fs fs' -> same_source src src' -> same_journal j j' ->
  same_outcome same_journal (read_into_journal depth cwd fs src j) (read_into_journal depth cwd fs' src' j').
Proof. intros F S J. apply parse_lines_rel; [apply include_rel, F|exact S|exact J]. Qed.

(** ** The reports *)
Lemma post_at_rel xs xs' r : Forall2 same_xact xs xs' -> opt_rel same_post (get_post xs r) (get_post xs' r).
Proof.
  intros F. unfold get_post. assert (N := nth_rel _ _ _ (fst r) F). destruct (nth_error xs (fst r)), (nth_error xs' (fst r)); cbn in N; try contradiction; [|exact I].
  apply nth_rel, N.
Qed.
Lemma eq_rel {A} (l : list A) : Forall2 eq l l.
Proof. induction l; constructor; auto. Qed.
Lemma amount_rel xs xs' refs : Forall2 same_xact xs xs' -> same_outcome same_balance (account_amount xs refs) (account_amount xs' refs).
Proof.
  intros F. unfold account_amount. eapply (fold_congr eq); [apply eq_rel| |constructor]. intros b b' r _ B <-.
  assert (P := post_at_rel _ _ r F). destruct (get_post xs r) as [p|], (get_post xs' r) as [p'|]; cbn in P; try contradiction; [|reflexivity].
  destruct P as (_ & A & _). destruct (po_amount p), (po_amount p'); cbn in A; try contradiction; [apply bal_add_congr; assumption|exact B].
Qed.
Lemma insert_key_rel {A B} (R : A -> B -> Prop) x y l l' : same_keyed R x y -> Forall2 (same_keyed R) l l' -> Forall2 (same_keyed R) (insert_key x l) (insert_key y l').
Proof.
  intros X F. induction F as [|a b l l' H F IH]; cbn [insert_key]; [constructor; [exact X|constructor]|].
  rewrite <- (proj1 X), <- (proj1 H). destruct (str_leb (fst x) (fst a)); constructor; auto.
Qed.
Lemma sort_key_rel {A B} (R : A -> B -> Prop) l l' : Forall2 (same_keyed R) l l' -> Forall2 (same_keyed R) (sort_key l) (sort_key l').
Proof. induction 1; cbn [sort_key]; [constructor|]. apply insert_key_rel; assumption. Qed.
Lemma map_rel {A B C} (R : B -> C -> Prop) (f : A -> B) (g : A -> C) l : (forall x, In x l -> R (f x) (g x)) -> Forall2 R (map f l) (map g l).
Proof. induction l; cbn; intros H; constructor; auto. Qed.
Lemma total_rel xs xs' : Forall2 same_xact xs xs' -> forall a, same_outcome same_balance (account_total xs a) (account_total xs' a).
Proof.
  intros F. apply account_ind'. intros n cs ps IH. cbn [account_total ac_children ac_posts].
  eapply same_outcome_bind.
  - eapply (fold_congr (same_keyed (same_outcome same_balance)) same_balance); [apply sort_key_rel, map_rel| |constructor].
    + intros c Hc. split; [reflexivity|exact (IH c Hc)].
    + intros t t' s s' T [_ S]. eapply same_outcome_bind; [exact S|]. intros b b' B. apply bal_add_bal_congr; assumption.
  - intros t t' T. eapply same_outcome_bind; [apply amount_rel, F|]. intros b b' B. apply bal_add_bal_congr; assumption.
Qed.
Lemma text_shown b : balance_text b = shown_amounts b.
Proof. unfold balance_text, shown_amounts. rewrite flat_map_concat_map. reflexivity. Qed.
Lemma lines_rel xs xs' : Forall2 same_xact xs xs' -> forall a p, same_outcome (Forall2 same_shown) (children_lines xs p a) (children_lines xs' p a).
Proof.
  intros F. apply (account_ind' (fun a => forall p, same_outcome (Forall2 same_shown) (children_lines xs p a) (children_lines xs' p a))).
  intros n cs ps IH p. cbn [children_lines ac_children].
  eapply same_outcome_bind; [apply total_rel, F|]. intros b b' B.
  eapply (fold_congr (same_keyed (same_outcome (Forall2 same_shown)))); [apply sort_key_rel, map_rel| |].
  - intros c Hc. split; [reflexivity|exact (IH c Hc _)].
  - intros t t' s s' T [_ S]. eapply same_outcome_bind; [exact S|]. intros l l' L. apply app_rel; assumption.
  - constructor; [|constructor]. exists (fullname p), b, b'. unfold account_line. rewrite !text_shown. auto.
Qed.
Theorem report_alike j j' : same_journal j j' -> same_outcome (Forall2 same_shown) (balance_report j) (balance_report j') /\ report_accounts j = report_accounts j'.
Proof. intros (M & _ & X). unfold balance_report, report_accounts. rewrite <- M. split; [apply lines_rel, X|reflexivity]. Qed.
Lemma same_new : same_journal journal_new journal_new.
Proof. repeat split; constructor. Qed.
Lemma files_rel depth cwd fs fs' files : same_files fs fs' -> same_outcome same_journal (read_journal_files depth cwd fs files) (read_journal_files depth cwd fs' files).
Proof.
  intros F. unfold read_journal_files. eapply (fold_congr eq); [apply eq_rel| |exact same_new]. intros j j' f _ J <-. unfold parse_file. assert (S := F f).
  destruct (fs f), (fs' f); cbn in S; try contradiction; [|reflexivity]. apply reading_alike; assumption.
Qed.
(** Either both runs show lines of the same values, or they end alike. *)
Theorem run_alike depth cwd fs fs' args : same_files fs fs' ->
  same_outcome (fun out out' => out = out' \/ Forall2 same_shown out out') (run depth cwd fs args) (run depth cwd fs' args).
Proof.
  intros F. unfold run. eapply (same_outcome_bind eq); [apply same_outcome_refl; reflexivity|]. intros [commands files] _ <-.
  unfold execute_command. eapply (same_outcome_bind eq); [apply same_outcome_refl; reflexivity|]. intros verb _ <-.
  eapply same_outcome_bind; [apply files_rel, F|]. intros j j' J. destruct (report_alike _ _ J) as [R A].
  assert (RR : same_outcome (fun out out' => out = out' \/ Forall2 same_shown out out') (balance_report j) (balance_report j')).
  { destruct (balance_report j), (balance_report j'); cbn in *; auto; contradiction. }
  rewrite <- A. destruct verb as [|c v]; [reflexivity|].
  destruct (N.eq_dec c 97) as [->|N97]; [left; reflexivity|]. destruct (N.eq_dec c 98) as [->|N98]; [destruct (_ || _); [exact RR|reflexivity]|].
  destruct c as [|c]; [reflexivity|]. do 7 (destruct c as [c|c|]; try reflexivity; try (exfalso; congruence)).
Qed.

(** ** Prices *)
Lemma bfs_ends : knows_ends bfs.
Proof.
  intros g g' _ E a b. unfold bfs. assert (L : length (g_edges g) = length (g_edges g')). { rewrite <- (map_length fst), E. apply map_length. }
  assert (S : forall x, successors g x = successors g' x).
  { intros x. unfold successors. revert E. generalize (g_edges g) (g_edges g'). clear. intros l. induction l as [|e l IH]; intros [|e' l'] E; try discriminate; [reflexivity|].
    cbn in E. injection E as E1 E2. cbn [filter]. rewrite <- E1. destruct (fst (fst e) =? x); cbn [map]; rewrite (IH _ E2); [rewrite E1|]; reflexivity. }
  rewrite <- L. assert (X : forall fr seen, bfs_expand g fr seen = bfs_expand g' fr seen).
  { induction fr as [|p fr IH]; intros seen; cbn [bfs_expand]; [reflexivity|]. destruct p; [rewrite IH; reflexivity|]. rewrite S, IH. reflexivity. }
  clear L. assert (Y : forall n fr seen, bfs_loop n g b fr seen = bfs_loop n g' b fr seen).
  { induction n as [|n IH]; intros fr seen; cbn [bfs_loop]; [reflexivity|]. rewrite X. destruct (bfs_expand g' fr seen). rewrite IH. reflexivity. }
  apply Y.
Qed.
Definition same_priced (x y : datetime * dec) : Prop := fst x = fst y /\ same_value (snd x) (snd y).
Lemma latest_rel m m' : same_prices m m' -> opt_rel same_priced (get_latest_price m) (get_latest_price m').
Proof.
  induction 1 as [|x y m m' H F IH]; [exact I|]. cbn [get_latest_price]. destruct F; [exact H|exact IH].
Qed.
Lemma direct_rel g g' a b : same_graph g g' -> opt_rel same_priced (get_direct_price g a b) (get_direct_price g' a b).
Proof.
  intros [_ F]. unfold get_direct_price. induction F as [|[[x y] m] [[x' y'] m'] l l' [E H] F IH]; [exact I|]. cbn in E, H. injection E as <- <-.
  cbn [find_edge]. destruct ((x =? a) && (y =? b)); [apply latest_rel, H|exact IH].
Qed.
Lemma rate_rel g g' path : same_graph g g' -> forall s least r r', same_value r r' ->
  same_outcome same_priced (rate_loop g s path least r) (rate_loop g' s path least r').
Proof.
  intros G. induction path as [|t path IH]; intros s least r r' R; cbn [rate_loop]; [split; [reflexivity|exact R]|].
  destruct (t =? s); [apply IH, R|]. eapply same_outcome_bind; [apply unwrap_rel, direct_rel, G|]. intros [d q] [d' q'] [E Q]. cbn [fst snd] in E, Q. subst d'.
  eapply same_outcome_bind; [apply d_mul_congr; [exact R|exact Q]|]. intros x y X. apply IH, X.
Qed.
Theorem price_alike astar p p' s t now moment oldest : knows_ends astar -> same_pool p p' ->
  same_outcome (opt_rel (fun x y => fst x = fst y /\ same_amount (snd x) (snd y)))
    (pool_find_price astar p s t now moment oldest) (pool_find_price astar p' s t now moment oldest).
Proof.
  intros K P. unfold pool_find_price. destruct (comm_eqb s t); [reflexivity|]. rewrite <- !(deref_rel _ _ _ P).
  eapply (same_outcome_bind eq); [apply same_outcome_refl; reflexivity|]. intros cs _ <-.
  eapply (same_outcome_bind eq); [apply same_outcome_refl; reflexivity|]. intros ct _ <-.
  unfold find_price. assert (G : same_graph (p_hist p) (p_hist p')) by apply P.
  rewrite <- (K (p_hist p) (p_hist p') (proj1 G)).
  2: { destruct G as [_ F]. clear -F. induction F as [|? ? ? ? [E _] F IH]; [reflexivity|]. cbn. rewrite E, IH. reflexivity. }
  destruct (astar (p_hist p) (c_index cs) (c_index ct)) as [[n path]|]; [|exact I].
  eapply (same_outcome_bind same_priced).
  - destruct (n =? 1).
    + assert (D := direct_rel _ _ (c_index cs) (c_index ct) G). destruct (get_direct_price _ _ _), (get_direct_price (p_hist p') _ _); cbn in D; try contradiction; [exact D|reflexivity].
    + apply rate_rel; [exact G|]. apply same_value_refl. apply wf_d_of_int. reflexivity.
  - intros [d q] [d' q'] [E Q]. split; [exact E|]. split; [reflexivity|exact Q].
Qed.
