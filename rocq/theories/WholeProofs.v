(** Written journals are accepted and read as what they say. *)
From Coq Require Import String List NArith ZArith Bool Lia ZifyBool ZifyNat ZifyN.
From Verif Require Import Base Decimal Dates Amount Balance Scanner History Pool Account Journal Xact Parser Lib.
From Verif Require Import SpecDecimal SpecAmount SpecDates SpecPool SpecAccount SpecXact SpecJournal SpecText SpecReading SpecScan SpecWhole.
From Verif Require Import BaseFacts DecimalFacts BalanceFacts ArithProofs AccountFacts AccountProofs PoolFacts XactFacts XactProofs JournalFacts ReadingFacts ScanFacts ScanProofs PostProofs HeaderProofs.
Import ListNotations.
Open Scope nat_scope.

(** ** Finalising *)
Lemma firsts_only c l : Forall (fun d => d = c) l -> firsts l = [] \/ firsts l = [c].
Proof.
  induction 1 as [|d l -> _ IH]; cbn [firsts]; [left; reflexivity|right].
  destruct IH as [->| ->]; [reflexivity|]. cbn [filter]. destruct (comm_dec c c); [reflexivity|congruence].
Qed.
Lemma complete_accepted date pool posts c :
  complete posts -> Forall (fun p => po_cost p = None) posts -> fits_amts (worths posts) -> only_in c (worths posts) -> length posts <> 1 ->
  finalize_posts date pool posts = Ok (pool, posts).
Proof.
  intros C NC F O L. destruct (bal_of_list (worths posts)) as (b & Eb & [Hc _]); [apply F|intros d n; apply fits_amts_prefix, F|].
  unfold finalize_posts. rewrite sum_posts_complete by exact C. rewrite Eb. cbn [bind].
  destruct (Nat.eqb_spec (length posts) 1); [contradiction|].
  assert (infer_costs posts b = Ok (posts, b)) as ->.
  { assert (X : Forall (fun d => d = c) (map a_c (worths posts))) by (apply Forall_map; exact O).
    destruct (firsts_only c _ X) as [Y|Y]; rewrite Y in Hc; destruct b as [|x [|y b]]; try discriminate; reflexivity. }
  cbn [bind]. rewrite price_loop_plain by exact NC. reflexivity.
Qed.

(** A posting as read, before finalising. *)
Definition raw_is (wp : wposting) (p : post) : Prop :=
  po_account p = components (wp_account wp) /\ po_cost p = None /\ po_note p = None
  /\ match wp_amount wp with
     | Some (u, k, s) => exists a, po_amount p = Some a /\ amount_is a u k s
     | None => po_amount p = None
     end.
Lemma raw_worth wp p : raw_is wp p -> worth p = po_amount p.
Proof. intros (_ & C & _). unfold worth. rewrite C. reflexivity. Qed.

Lemma raw_units ws ps : Forall2 raw_is ws ps ->
  map aunits (worths ps) = flat_map (fun p => match wp_amount p with Some (u, _, _) => [u] | None => [] end) ws.
Proof.
  induction 1 as [|wp p ws ps R F IH]; [reflexivity|]. rewrite worths_cons, map_app, IH, (raw_worth _ _ R). cbn [flat_map]. f_equal.
  destruct R as (_ & _ & _ & R). destruct (wp_amount wp) as [[[u k] s]|].
  - destruct R as (a & -> & _ & <- & _). reflexivity.
  - rewrite R. reflexivity.
Qed.
Lemma raw_worths ws ps (P : amount -> Prop) : Forall2 raw_is ws ps ->
  Forall (fun wp => forall u k s, wp_amount wp = Some (u, k, s) -> forall a, amount_is a u k s -> P a) ws -> Forall P (worths ps).
Proof.
  intros F H. induction F as [|wp p ws ps R F IH]; [constructor|]. inversion H as [|? ? H1 H2]; subst. rewrite worths_cons, (raw_worth _ _ R).
  apply Forall_app. split; [|apply IH, H2]. destruct R as (_ & _ & _ & R). destruct (wp_amount wp) as [[[u k] s]|].
  - destruct R as (a & -> & A). constructor; [|constructor]. eapply H1; [reflexivity|exact A].
  - rewrite R. constructor.
Qed.
Lemma units_scaled d s : wf_dec d -> d_s d <= s -> s <= 28 -> (Z.abs (units d) = scaled_abs s d * 10 ^ Z.of_nat (28 - s))%Z.
Proof.
  intros [[M _] S] L1 L2. unfold units, scaled_abs.
  assert (E : (10 ^ Z.of_nat (28 - d_s d) = 10 ^ Z.of_nat (s - d_s d) * 10 ^ Z.of_nat (28 - s))%Z) by (rewrite <- Z.pow_add_r by lia; f_equal; lia).
  assert (P1 := Z.pow_nonneg 10 (Z.of_nat (s - d_s d)) ltac:(lia)). assert (P2 := Z.pow_nonneg 10 (Z.of_nat (28 - s)) ltac:(lia)).
  rewrite E. rewrite Z.abs_mul, (Z.abs_eq (_ * _)) by (apply Z.mul_nonneg_nonneg; assumption). rewrite Z.mul_assoc. f_equal. f_equal. destruct (d_neg d); lia.
Qed.
Lemma units_scaled_sum s l : Forall wf_amt l -> Forall (fun a => d_s (a_q a) <= s) l -> s <= 28 ->
  (sumZ (map Z.abs (map aunits l)) = sumZ (map (scaled_abs s) (map a_q l)) * 10 ^ Z.of_nat (28 - s))%Z.
Proof.
  intros W S L. induction W as [|a l Wa W IH]; [reflexivity|]. inversion S; subst. cbn [map sumZ fold_right].
  change (fold_right Z.add 0%Z) with sumZ. rewrite IH by assumption. unfold aunits at 1. rewrite (units_scaled _ s) by assumption. ring.
Qed.
Lemma in_comm_sum_le c l f : (forall a, In a l -> 0 <= f a)%Z -> (sumZ (map f (in_comm c l)) <= sumZ (map f l))%Z.
Proof.
  induction l as [|a l IH]; intros H; [cbn; lia|]. specialize (IH (fun x h => H x (or_intror h))). pose proof (H a (or_introl eq_refl)).
  unfold in_comm in *. cbn [filter]. destruct (comm_dec (a_c a) c); cbn [map sumZ fold_right]; change (fold_right Z.add 0%Z) with sumZ; lia.
Qed.
Lemma scaled_abs_nonneg s d : wf_dec d -> (0 <= scaled_abs s d)%Z.
Proof. intros [[M _] _]. unfold scaled_abs. apply Z.mul_nonneg_nonneg; [exact M|]. apply Z.pow_nonneg. lia. Qed.

Lemma raw_fits w ps : well_formed w -> Forall2 raw_is (wx_posts w) ps -> fits_amts (worths ps).
Proof.
  intros (_ & _ & _ & scale & L & K & B) F.
  assert (W : Forall wf_amt (worths ps)).
  { eapply raw_worths; [exact F|]. apply Forall_forall. intros wp _ u k s _ a A. apply A. }
  assert (S : Forall (fun a => d_s (a_q a) <= scale) (worths ps)).
  { eapply raw_worths; [exact F|]. eapply Forall_impl; [|exact K]. intros wp H u k s E a (_ & _ & <- & _). eapply H, E. }
  split; [exact W|]. intros c. exists scale. split; [exact L|]. split.
  - apply Forall_map. unfold in_comm. rewrite Forall_forall in *. intros a Ha. apply filter_In in Ha as [Ha _]. auto.
  - pose proof (units_scaled_sum scale _ W S L) as E. rewrite (raw_units _ _ F) in E. fold (written_units w) in E.
    rewrite E in B. apply Z.mul_lt_mono_pos_r in B; [|apply Z.pow_pos_nonneg; lia].
    eapply Z.le_lt_trans; [|exact B]. rewrite !map_map. apply in_comm_sum_le. rewrite Forall_forall in W. intros a Ha. apply scaled_abs_nonneg, W, Ha.
Qed.
Lemma raw_only w ps sym : Forall (fun p => forall u k s, wp_amount p = Some (u, k, s) -> s = sym) (wx_posts w) ->
  Forall2 raw_is (wx_posts w) ps -> only_in (commodity_of sym) (worths ps).
Proof.
  intros H F. eapply raw_worths; [exact F|]. eapply Forall_impl; [|exact H]. intros wp Hs u k s E a (_ & _ & _ & ->). rewrite (Hs _ _ _ E). reflexivity.
Qed.
Lemma only_in_comm c l : only_in c l -> in_comm c l = l.
Proof.
  unfold only_in, in_comm. induction 1 as [|a l E _ IH]; [reflexivity|]. cbn [filter]. destruct (comm_dec (a_c a) c); [|contradiction]. rewrite IH. reflexivity.
Qed.
Lemma elided_or_not (ws : list wposting) :
  Forall (fun wp => wp_amount wp <> None) ws
  \/ exists l1 wp l2, ws = l1 ++ wp :: l2 /\ wp_amount wp = None /\ Forall (fun wp => wp_amount wp <> None) l1.
Proof.
  induction ws as [|wp ws [IH|(l1 & x & l2 & -> & E & F)]]; [left; constructor| |].
  - destruct (wp_amount wp) eqn:E; [left; constructor; [congruence|exact IH]|right]. exists [], wp, ws. auto.
  - destruct (wp_amount wp) eqn:E'; right; [exists (wp :: l1), x, l2|exists [], wp, (l1 ++ x :: l2)]; (split; [reflexivity|]); (split; [assumption|]); [|constructor].
    constructor; [congruence|exact F].
Qed.
Lemma raw_complete ws ps : Forall2 raw_is ws ps -> Forall (fun wp => wp_amount wp <> None) ws -> complete ps.
Proof.
  induction 1 as [|wp p ws ps R F IH]; intros H; [constructor|]. inversion H; subst. constructor; [|apply IH; assumption].
  rewrite (raw_worth _ _ R). destruct R as (_ & _ & _ & R). destruct (wp_amount wp) as [[[u k] s]|]; [|congruence]. destruct R as (a & -> & _). discriminate.
Qed.
Lemma raw_written w ws ps : Forall2 raw_is ws ps -> Forall (fun wp => wp_amount wp <> None) ws -> Forall2 (posting_is w) ws ps.
Proof.
  induction 1 as [|wp p ws ps R F IH]; intros H; [constructor|]. inversion H; subst. constructor; [|apply IH; assumption].
  destruct R as (A & B & C & R). split; [exact A|]. split; [exact B|]. split; [exact C|]. destruct (wp_amount wp) as [[[u k] s]|]; [|congruence]. exact R.
Qed.
Lemma Forall2_len {A B} (R : A -> B -> Prop) l l' : Forall2 R l l' -> length l = length l'.
Proof. induction 1; cbn; congruence. Qed.
Lemma finalize_written w date pool ps : well_formed w -> Forall2 raw_is (wx_posts w) ps ->
  exists ps', finalize_posts date pool ps = Ok (pool, ps') /\ Forall2 (posting_is w) (wx_posts w) ps'.
Proof.
  intros WF F. pose proof (raw_fits w ps WF F) as Fi. destruct WF as (L2 & U & (sym & Hs) & _).
  pose proof (raw_only w ps sym Hs F) as O. pose proof (Forall2_len _ _ _ F) as Len.
  assert (NC : Forall (fun p => po_cost p = None) ps). { clear -F. induction F as [|? ? ? ? (_ & C & _)]; constructor; auto. }
  destruct (elided_or_not (wx_posts w)) as [A|(l1 & wp & l2 & E & N & A1)].
  - exists ps. split; [|apply raw_written; assumption]. apply (complete_accepted _ _ _ (commodity_of sym)); auto; [eapply raw_complete; eassumption|lia].
  - assert (A2 : Forall (fun wp => wp_amount wp <> None) l2).
    { apply Forall_forall. intros x Hx Nx. apply In_nth_error in Hx as (i & Hi).
      assert (X : length l1 = length l1 + S i); [|lia]. apply U; rewrite E.
      - rewrite nth_error_app2 by lia. rewrite Nat.sub_diag. cbn. rewrite N. reflexivity.
      - rewrite nth_error_app2 by lia. replace (length l1 + S i - length l1) with (S i) by lia. cbn. rewrite Hi. cbn. rewrite Nx. reflexivity. }
    rewrite E in F. apply Forall2_app_inv_l in F as (p1 & p' & F1 & F' & ->). inversion F' as [|? p ? p2 R F2]; subst p'. subst.
    pose proof R as (Ra & Rc & Rn & Rm). rewrite N in Rm.
    assert (OE : one_elided (p1 ++ p :: p2) p1 p p2).
    { split; [reflexivity|]. split; [rewrite (raw_worth _ _ R); exact Rm|]. split; eapply raw_complete; eassumption. }
    destruct (elided_accepted date pool _ p1 p p2 (commodity_of sym) OE NC Fi O ltac:(lia)) as (a & Ef & Ca & Wa & Ua & Sa).
    eexists. split; [exact Ef|]. rewrite E. apply Forall2_app; [apply raw_written; assumption|]. constructor; [|apply raw_written; assumption].
    split; [exact Ra|]. split; [reflexivity|]. split; [exact Rn|]. exists a. split; [reflexivity|]. rewrite N.
    assert (F : Forall2 raw_is (wx_posts w) (p1 ++ p :: p2)) by (rewrite E; apply Forall2_app; [exact F1|constructor; assumption]). split; [|split].
    + rewrite Ua. unfold total. rewrite (only_in_comm _ _ O). f_equal. f_equal. f_equal.
      apply (raw_units _ _ F).
    + eapply Forall_impl; [|exact Hs]. intros q Hq u k s Eq. rewrite (Hq _ _ _ Eq). exact Ca.
    + intros n Hn. rewrite E in Hn. apply Sa. rewrite <- E in Hn. eapply raw_worths; [exact F|]. eapply Forall_impl; [|exact Hn]. intros q Hq u k s Eq b (_ & _ & <- & _). eapply Hq, Eq.
Qed.

(** ** Lines *)
Lemma scan_post_trim l : scan_post (trim_start l) = scan_post l.
Proof. rewrite !scan_post_eq, trim_idem. reflexivity. Qed.
Lemma scan_post_head l tok : scan_post l = Ok tok -> exists c r, trim_start l = c :: r /\ c <> 59%N.
Proof.
  rewrite scan_post_eq. destruct (trim_start l) as [|c r]; [discriminate|]. destruct (N.eqb_spec c 59); [discriminate|]. eauto.
Qed.
Lemma posting_account l tok : posting_line l tok -> t_account tok <> [].
Proof. intros H. destruct H; cbn [t_account]; match goal with H : account_text _ |- _ => destruct H as [(? & ? & -> & _) _] end; discriminate. Qed.
Lemma parse_posting j xi l wp x : writes_posting l wp -> wf_tree (j_master j) -> nth_error (j_xacts j) xi = Some x ->
  exists m pl p, parse_post j xi (trim_start l) = Ok (mkJournal m pl (add_post (j_xacts j) xi p)) /\ wf_tree m /\ raw_is wp p.
Proof.
  intros (r & q & s & -> & L & A) W Ex. unfold parse_post. rewrite scan_post_trim, (posting_scanned _ _ L). cbn [bind t_account t_quantity t_symbol t_price_date t_price_quantity t_price_commodity].
  destruct (register_then_find (j_master j) (wp_account wp) W (posting_account _ _ L)) as (m1 & acct & Er & W1 & _ & Ea & Xa & _).
  rewrite Er. cbn [bind]. unfold parse_amount_parts. pose proof (foc_comm (j_pool j) s None) as C.
  destruct (pool_find_or_create (j_pool j) s None) as [p1 c]. cbn [snd] in C. subst c.
  set (amt := option_map _ _). unfold annotation_parse. cbn [pool_find_or_create is_empty bind].
  destruct (pool_find_or_create p1 s _) as [p3 c3]. unfold parse_cost. cbn [t_cost_quantity is_empty].
  assert (Z : (match amt with Some _ => Ok (p3, None) | None => Ok (p3, None) end : outcome (pool * option amount)) = Ok (p3, None)) by (destruct amt; reflexivity).
  rewrite Z. cbn [bind]. rewrite Ex. destruct (push_post_spec m1 acct (xi, length (x_posts x)) W1 Xa) as (m2 & Ep & W2 & _). rewrite Ep. cbn [bind].
  exists m2, p3, (mkPost acct amt None None). split; [reflexivity|]. split; [exact W2|].
  split; [exact Ea|]. split; [reflexivity|]. split; [reflexivity|]. cbn [po_amount]. destruct (wp_amount wp) as [[[u k] s']|].
  - destruct A as [-> D]. destruct (denotes_read q u k s D) as (d & E & I). subst amt. rewrite E. eexists. split; [reflexivity|exact I].
  - destruct A as [-> ->]. reflexivity.
Qed.
Lemma posting_step inc j xi l wp x : writes_posting l wp -> wf_tree (j_master j) -> nth_error (j_xacts j) xi = Some x ->
  exists m pl p, step inc (InXact xi) j (Some l) = Ok (Continue (InXact xi) (mkJournal m pl (add_post (j_xacts j) xi p))) /\ wf_tree m /\ raw_is wp p.
Proof.
  intros Wp W Ex. destruct (parse_posting j xi l wp x Wp W Ex) as (m & pl & p & E & Wm & R). exists m, pl, p. split; [|auto].
  destruct Wp as (r & q & s & -> & L & _). destruct (scan_post_head _ _ (posting_scanned _ _ L)) as (c & t & Et & Nc).
  cbn [step]. rewrite xact_line_eq. change ((32 =? 32)%N) with true. cbv iota. rewrite Et in *. apply N.eqb_neq in Nc. rewrite Nc, E. reflexivity.
Qed.
Lemma add_post_last xs x p : add_post (xs ++ [x]) (length xs) p = xs ++ [mkXact (x_date x) (x_aux_date x) (x_payee x) (x_note x) (x_posts x ++ [p])].
Proof. unfold add_post. rewrite (update_nth_mid (fun x => _) xs x []). reflexivity. Qed.
Lemma nth_last {A} (xs : list A) x : nth_error (xs ++ [x]) (length xs) = Some x.
Proof. rewrite nth_error_app2 by lia. rewrite Nat.sub_diag. reflexivity. Qed.
Lemma postings_prefix inc ls wps : Forall2 writes_posting ls wps -> forall j xs x, wf_tree (j_master j) -> j_xacts j = xs ++ [x] ->
  exists m pl ps, prefix inc (InXact (length xs)) j (map Some ls)
      = Ok (Continue (InXact (length xs)) (mkJournal m pl (xs ++ [mkXact (x_date x) (x_aux_date x) (x_payee x) (x_note x) (x_posts x ++ ps)])))
    /\ wf_tree m /\ Forall2 raw_is wps ps.
Proof.
  induction 1 as [|l wp ls wps Hl F IH]; intros j xs x W Ej; cbn [map prefix].
  - exists (j_master j), (j_pool j), []. split; [|split; [exact W|constructor]]. rewrite app_nil_r. destruct j as [m pl xs']. cbn in *. subst xs'. destruct x; reflexivity.
  - destruct (posting_step inc j (length xs) l wp x Hl W) as (m & pl & p & -> & Wm & R); [rewrite Ej; apply nth_last|].
    cbn [bind]. rewrite Ej, add_post_last. edestruct IH as (m' & pl' & ps & -> & W' & R'); [exact Wm|reflexivity|].
    cbn [x_date x_aux_date x_payee x_note x_posts]. rewrite <- app_assoc. exists m', pl', (p :: ps). split; [reflexivity|]. split; [exact W'|]. constructor; assumption.
Qed.
Lemma finalize_last w m pl xs d a py n ps : well_formed w -> Forall2 raw_is (wx_posts w) ps ->
  exists ps', finalize (mkJournal m pl (xs ++ [mkXact d a py n ps])) (length xs) = Ok (mkJournal m pl (xs ++ [mkXact d a py n ps']))
    /\ Forall2 (posting_is w) (wx_posts w) ps'.
Proof.
  intros WF F. destruct (finalize_written w d pl _ WF F) as (ps' & E & P). exists ps'. split; [|exact P].
  unfold finalize. cbn [j_xacts j_pool j_master]. rewrite nth_last. cbn [x_date x_posts]. rewrite E. cbn [bind]. rewrite (update_nth_mid (fun x => _) xs _ []). reflexivity.
Qed.
Lemma header_step inc j l w : writes_header l w ->
  step inc Top j (Some l) = Ok (Continue (InXact (length (j_xacts j))) (mkJournal (j_master j) (j_pool j)
    (j_xacts j ++ [mkXact (Some (wx_date w)) (wx_aux w) (wx_payee w) (match wx_note w with [] => None | _ => Some (wx_note w) end) []]))).
Proof.
  intros (dt & auxt & H & D & A). pose proof (header_read j l dt _ auxt _ _ _ H D A) as E.
  assert (X : exists c r, l = c :: r /\ is_digit c = true).
  { inversion H; subst. destruct D as (y & m & n & -> & F & Ly & _). destruct y as [|c y]; [discriminate|]. cbn [app forallb] in *. apply andb_prop in F as [F _]. eauto. }
  destruct X as (c & r & -> & Dc). cbn [step]. unfold top_line.
  assert (B : (48 <= c <= 57)%N) by (unfold is_digit in Dc; lia).
  assert (str_eqb (c :: r) [13%N; 10%N] || str_eqb (c :: r) [10%N] = false) as ->.
  { apply orb_false_iff. split; apply not_true_is_false; intros X; apply str_eqb_eq in X; injection X as -> _; lia. }
  replace ((c =? 59)%N || (c =? 35)%N || (c =? 42)%N || (c =? 124)%N) with false by lia. replace (c =? 45)%N with false by lia.
  rewrite Dc, E. reflexivity.
Qed.
Lemma end_step inc j xi l : end_line l -> step inc (InXact xi) j (Some l) = let* j' := finalize j xi in Ok (Continue Top j').
Proof.
  intros [->|[->|(r & -> & S)]]; [reflexivity|reflexivity|]. cbn [step]. rewrite xact_line_eq. change ((32 =? 32)%N) with true. cbv iota.
  assert (trim_start (32%N :: r) = []) as -> by (apply trim_start_ws; exact S). reflexivity.
Qed.
Lemma journal_written inc lines ws : writes_journal lines ws -> Forall well_formed ws -> forall j, wf_tree (j_master j) ->
  exists m pl new, parse_lines inc Top j (map Some lines) = Ok (mkJournal m pl (j_xacts j ++ new)) /\ wf_tree m /\ Forall2 xact_is ws new.
Proof.
  induction 1 as [|l lines ws Hl H IH|h ps e lines w ws Hh Hp He H IH|h ps w Hh Hp]; intros WF j W.
  - exists (j_master j), (j_pool j), []. split; [|split; [exact W|constructor]]. cbn. rewrite app_nil_r. destruct j; reflexivity.
  - cbn [map parse_lines]. rewrite inert_step by exact Hl. cbn [bind]. apply IH; assumption.
  - inversion WF as [|? ? WFw WFs]; subst. cbn [map parse_lines]. rewrite (header_step inc j h w Hh). cbn [bind]. rewrite map_app, parse_app.
    match goal with |- context [ mkJournal (j_master j) (j_pool j) (j_xacts j ++ [?x]) ] =>
      destruct (postings_prefix inc ps (wx_posts w) Hp (mkJournal (j_master j) (j_pool j) (j_xacts j ++ [x])) (j_xacts j) x W eq_refl) as (m & pl & rs & Ep & Wm & R) end.
    rewrite Ep. cbn [bind map parse_lines]. rewrite end_step by exact He. cbn [x_date x_aux_date x_payee x_note x_posts app].
    edestruct (finalize_last w) as (ps' & -> & P); [exact WFw|exact R|]. cbn [bind j_master j_pool x_date x_aux_date x_payee x_note].
    edestruct (IH WFs) as (m' & pl' & new & E & W' & N); [|rewrite E; cbn [j_xacts]; rewrite <- app_assoc; cbn [app]]; [exact Wm|].
    eexists m', pl', _. split; [reflexivity|]. split; [exact W'|]. constructor; [|exact N].
    split; [reflexivity|]. split; [reflexivity|]. split; [reflexivity|]. split; [destruct (wx_note w); reflexivity|exact P].
  - inversion WF as [|? ? WFw WFs]; subst. cbn [map parse_lines]. rewrite (header_step inc j h w Hh). cbn [bind].
    rewrite <- (app_nil_r (map Some ps)), parse_app.
    match goal with |- context [ mkJournal (j_master j) (j_pool j) (j_xacts j ++ [?x]) ] =>
      destruct (postings_prefix inc ps (wx_posts w) Hp (mkJournal (j_master j) (j_pool j) (j_xacts j ++ [x])) (j_xacts j) x W eq_refl) as (m & pl & rs & Ep & Wm & R) end.
    rewrite Ep. cbn [bind map parse_lines]. cbn [x_date x_aux_date x_payee x_note x_posts app].
    edestruct (finalize_last w) as (ps' & -> & P); [exact WFw|exact R|]. cbn [bind j_master j_pool x_date x_aux_date x_payee x_note].
    eexists m, pl, _. split; [reflexivity|]. split; [exact Wm|]. constructor; [|constructor].
    split; [reflexivity|]. split; [reflexivity|]. split; [reflexivity|]. split; [destruct (wx_note w); reflexivity|exact P].
Qed.

(** ** Text *)
Lemma split_lines_acc_line b acc : ~ In 10%N b -> split_lines_acc acc (b ++ nl) = [rev acc ++ b ++ nl].
Proof.
  revert acc; induction b as [|c b IH]; intros acc N; cbn [app split_lines_acc nl].
  - rewrite N.eqb_refl. reflexivity.
  - destruct (N.eqb_spec c 10); [subst; elim N; left; reflexivity|]. rewrite IH by (intros X; apply N; right; exact X). cbn [rev]. rewrite <- app_assoc. reflexivity.
Qed.
Lemma split_lines_acc_end b acc : ~ In 10%N b -> rev acc ++ b <> [] -> split_lines_acc acc b = [rev acc ++ b].
Proof.
  revert acc; induction b as [|c b IH]; intros acc N Ne; cbn [split_lines_acc].
  - destruct acc; [elim Ne; reflexivity|]. rewrite app_nil_r. reflexivity.
  - destruct (N.eqb_spec c 10); [subst; elim N; left; reflexivity|]. rewrite IH; [cbn [rev]; rewrite <- app_assoc; reflexivity|intros X; apply N; right; exact X|].
    cbn [rev]. rewrite <- app_assoc. destruct (rev acc); discriminate.
Qed.
Lemma split_complete lines t : Forall one_line lines -> split_lines (concat lines ++ t) = lines ++ split_lines t.
Proof.
  induction 1 as [|l lines (b & -> & N) F IH]; [reflexivity|]. cbn [concat]. rewrite <- !app_assoc, app_assoc.
  rewrite split_lines_app by (right; exists b; reflexivity). rewrite IH. cbn [app]. f_equal. unfold split_lines. rewrite split_lines_acc_line by exact N. reflexivity.
Qed.
Lemma split_lines_of t lines : lines_of t lines -> split_lines t = lines.
Proof.
  intros (-> & [F|(ls & l & -> & F & Ne & N)]).
  - rewrite <- (app_nil_r (concat lines)), split_complete by exact F. apply app_nil_r.
  - rewrite concat_app, split_complete by exact F. cbn [concat]. rewrite app_nil_r. unfold split_lines. rewrite split_lines_acc_end by assumption. reflexivity.
Qed.
Lemma journal_accepted depth cwd fs t lines ws j : lines_of t lines -> writes_journal lines ws -> Forall well_formed ws -> reachable_journal j ->
  exists j' new, parse_text depth cwd fs t j = Ok j' /\ j_xacts j' = j_xacts j ++ new /\ Forall2 xact_is ws new.
Proof.
  intros L H WF R. assert (W : wf_tree (j_master j)) by (apply reachable_inv in R; apply R).
  destruct (journal_written (include_file depth cwd fs) lines ws H WF j W) as (m & pl & new & E & _ & N).
  eexists. exists new. split; [|split; [|exact N]].
  - unfold parse_text, read_into_journal, text_source. rewrite (split_lines_of _ _ L). exact E.
  - reflexivity.
Qed.
