(** Whole files with numbers of moderate size are read without overflow. *)
From Coq Require Import String List NArith ZArith Bool Lia.
From Verif Require Import Base Decimal Dates Amount Balance Scanner History Pool Account Journal Xact Parser.
From Verif Require Import SpecText SpecDecimal SpecAmount SpecReading SpecLine SpecValue SpecReport SpecRefused SpecModerate.
From Verif Require Import BaseFacts DecimalFacts BalanceFacts ArithProofs ValueProofs LineReadProofs LiteralProofs LinesProofs ScanFacts ModerateFacts ModerateProofs.
Import ListNotations.
Local Open Scope Z_scope.

(** ** Scanning, accounts, headers and prices do not calculate *)
Create HintDb calm.
Lemma calm_panic {A} p : p <> PArith -> calm (@Panic A p). Proof. intros H [= E]. apply H, E. Qed.
Lemma calm_diverge {A} : calm (@Diverge A). Proof. discriminate. Qed.
Global Hint Resolve calm_ok calm_unwrap calm_diverge : calm.
Global Hint Extern 1 (calm (Panic _)) => discriminate : calm.
Ltac calms := repeat (match goal with
  | |- calm (bind _ _) => apply calm_bind; [|intros ? _]
  | |- calm (match ?x with _ => _ end) => destruct x
  end; auto with calm); auto with calm.
Lemma calm_drop_bytes n s : calm (drop_bytes n s).
Proof. revert n; induction s as [|c s IH]; intros [|n]; cbn [drop_bytes]; calms. Qed.
Global Hint Resolve calm_drop_bytes : calm.
Lemma calm_header s : calm (tokenize_xact_header s).
Proof. unfold tokenize_xact_header, tokenize_note. calms. Qed.
Lemma calm_scan_amount s : calm (scan_amount s).
Proof. unfold scan_amount. calms. Qed.
Lemma calm_scan_until s c : calm (scan_until s c).
Proof. unfold scan_until. calms. Qed.
Global Hint Resolve calm_header calm_scan_amount calm_scan_until : calm.
Lemma calm_annotation_loop fuel : forall q t d s, calm (annotation_loop fuel q t d s).
Proof. induction fuel as [|f IH]; intros q t d [|c s]; cbn [annotation_loop]; calms. Qed.
Global Hint Resolve calm_annotation_loop : calm.
Lemma calm_scan_post s : calm (scan_post s).
Proof. unfold scan_post, scan_annotations, scan_cost. calms. Qed.
Lemma calm_scan_price s : calm (scan_price_directive s).
Proof. unfold scan_price_directive. calms. Qed.
Global Hint Resolve calm_scan_post calm_scan_price : calm.
Lemma calm_find_or_create auto fuel : forall self name, calm (find_or_create fuel self name auto).
Proof. induction fuel as [|f IH]; intros [n cs ps] name; cbn [find_or_create]; calms. Qed.
Global Hint Resolve calm_find_or_create : calm.
Lemma calm_register m name : calm (register_account m name).
Proof. unfold register_account. calms. Qed.
Lemma calm_push_post p r : forall a, calm (push_post a p r).
Proof. induction p as [|k p IH]; intros [n cs ps]; cbn [push_post]; calms. Qed.
Lemma calm_deref p c : calm (deref p c).
Proof. unfold deref. calms. Qed.
Global Hint Resolve calm_register calm_push_post calm_deref : calm.
Lemma calm_price_directive p l : calm (parse_price_directive p l).
Proof. unfold parse_price_directive, pool_add_price. calms. Qed.
Lemma calm_annotation_parse p d q s : calm (annotation_parse p d q s).
Proof. unfold annotation_parse. calms. Qed.
Lemma calm_create_xact j s : calm (create_xact j s).
Proof. unfold create_xact, xact_create, parse_date. calms. Qed.
Global Hint Resolve calm_price_directive calm_annotation_parse calm_create_xact : calm.

Lemma foc_ann p s : p_ann (fst (pool_find_or_create p s None)) = p_ann p.
Proof. destruct s as [|c s]; [reflexivity|]. cbn [pool_find_or_create]. destruct (pool_find p (c :: s)); [reflexivity|]. unfold pool_create. destruct (add_commodity _ _). reflexivity. Qed.
Lemma foc_ann_some p s a t an : lookup t (p_ann (fst (pool_find_or_create p s (Some a)))) = Some an -> an = a \/ lookup t (p_ann p) = Some an.
Proof.
  destruct s as [|c s]; [auto|]. cbn [pool_find_or_create]. destruct (pool_find p (c :: s)).
  - destruct (lookup (c :: s) (p_ann p)); [auto|]. cbn [fst p_ann]. rewrite lookup_insert. destruct (str_eqb _ _); [intros [= <-]; auto|auto].
  - unfold pool_create. destruct (add_commodity _ _). cbn [fst p_ann]. rewrite lookup_insert. destruct (str_eqb _ _); [intros [= <-]; auto|auto].
Qed.
Lemma pool_price_ann p c w a p' : pool_add_price p c w a = Ok p' -> p_ann p' = p_ann p.
Proof. unfold pool_add_price. intros H. inv_bind H. destruct (comm_eqb _ _); [discriminate|]. destruct (a_c a); [|discriminate]. inv_bind H. injection H as <-. reflexivity. Qed.
Lemma price_directive_ann p l p' : parse_price_directive p l = Ok p' -> p_ann p' = p_ann p.
Proof.
  unfold parse_price_directive. intros H. inv_bind H. destruct v as [[[[d t] c] q] pc]. inv_bind H. inv_bind H. pose proof (foc_ann p c) as E1. destruct (pool_find_or_create p c None) as [p1 c1]. inv_bind H.
  pose proof (foc_ann p1 pc) as E2. destruct (pool_find_or_create p1 pc None) as [p2 c2]. apply pool_price_ann in H. cbn [fst] in *. congruence.
Qed.
Lemma create_xact_shape j l j' : create_xact j l = Ok j' -> exists x, j' = set_xacts j (j_xacts j ++ [x]) /\ x_posts x = [].
Proof.
  unfold create_xact. intros H. inv_bind H. destruct v as [[[d a] p] n]. inv_bind H. injection H as <-. exists v. split; [reflexivity|]. unfold xact_create in EQ0. inv_bind EQ0. inv_bind EQ0. injection EQ0 as <-. reflexivity.
Qed.
Lemma update_last {A} (f : A -> A) pre x : update_nth (length pre) f (pre ++ [x]) = pre ++ [f x].
Proof. induction pre as [|y pre IH]; cbn [length app update_nth]; [reflexivity|rewrite IH; reflexivity]. Qed.

(** ** Reading *)
Section Reading.
  Variables (B : Z) (k N : nat).
  Hypothesis Bounds : moderate_bounds B k N.
  Notation amount_small := (amount_small B k).
  Notation cost_small := (cost_small B k).
  Notation lots_small := (lots_small B k).
  Notation done_small := (done_small B k N).

  Lemma read_small s d : moderate B k s -> d_from_str s = Some d -> small k (B * p10 k) d.
  Proof.
    intros Md H. destruct (quantity_text_read _ _ H) as (neg & whole & frac & Q & Es & Em). destruct (Md _ _ _ Q) as [L1 L2]. rewrite p10_eq in L2.
    assert (P : 0 <= number (whole ++ frac)).
    { destruct Q as ((sg & bd & _ & _ & _ & H1 & H2 & _) & _). apply number_nonneg. rewrite forallb_app, H1, H2. reflexivity. }
    rewrite Z.abs_eq in Em by exact P. unfold small. rewrite Es, Em. split; [exact P|]. split; [exact L1|]. rewrite p10_eq. replace (p10 k) with (p10 (length frac) * p10 (k - length frac)) by (rewrite <- p10_add; f_equal; lia).
    pose proof (p10_pos (k - length frac)). nia.
  Qed.

  Lemma parts_small p q c p1 amt : moderate B k q -> parse_amount_parts p q c = (p1, amt) -> p_ann p1 = p_ann p /\ forall a, amt = Some a -> small k (B * p10 k) (a_q a).
  Proof.
    intros Md. unfold parse_amount_parts. pose proof (foc_ann p c) as E. destruct (pool_find_or_create p c None) as [p1' c']. intros [= <- <-]. split; [exact E|].
    intros a Ha. destruct (d_from_str q) as [d|] eqn:Ed; [|discriminate]. injection Ha as <-. eapply read_small; eassumption.
  Qed.
  Lemma post_small j xi r : lots_small (j_pool j) -> (forall tok, post_read r tok -> moderate B k (t_quantity tok) /\ moderate B k (t_price_quantity tok) /\ moderate B k (t_cost_quantity tok)) ->
    calm (parse_post j xi (trim_start r))
    /\ forall j', parse_post j xi (trim_start r) = Ok j' -> lots_small (j_pool j') /\ exists p, j_xacts j' = add_post (j_xacts j) xi p /\ amount_small p /\ cost_small p.
  Proof.
    intros Lt Md. unfold parse_post. assert (Es : scan_post (trim_start r) = scan_post r) by (rewrite !LinesProofs.scan_post_eq, trim_idem; reflexivity). rewrite Es.
    pose proof (calm_scan_post r) as Cs. destruct (scan_post r) as [tok|q|] eqn:E; cbn [bind]; [|split; [intros [= ->]; apply Cs; reflexivity|discriminate]|split; discriminate].
    apply post_iff in E. destruct (Md _ E) as (M1 & M2 & M3). clear Cs Md.
    pose proof (calm_register (j_master j) (t_account tok)) as Cr. destruct (register_account (j_master j) (t_account tok)) as [[m1 acct]|q|]; cbn [bind]; [|split; [intros [= ->]; apply Cr; reflexivity|discriminate]|split; discriminate].
    destruct (parse_amount_parts (j_pool j) (t_quantity tok) (t_symbol tok)) as [p1 amt] eqn:Ea. destruct (parts_small _ _ _ _ _ M1 Ea) as [A1 S1].
    pose proof (calm_annotation_parse p1 (t_price_date tok) (t_price_quantity tok) (t_price_commodity tok)) as Ca.
    destruct (annotation_parse _ _ _ _) as [[p2 ann]|q|] eqn:En; cbn [bind]; [|split; [intros [= ->]; apply Ca; reflexivity|discriminate]|split; discriminate].
    assert (An : p_ann p2 = p_ann p1 /\ forall pr, an_price ann = Some pr -> small k (B * p10 k) (a_q pr)).
    { unfold annotation_parse in En. pose proof (foc_ann p1 (t_price_commodity tok)) as F. destruct (pool_find_or_create p1 (t_price_commodity tok) None) as [p1' c']. inv_bind En. injection En as <- <-. split; [exact F|].
      intros pr Hp. cbn [an_price] in Hp. destruct (d_from_str (t_price_quantity tok)) as [d|] eqn:Ed; [|discriminate]. injection Hp as <-. cbn [a_q]. exact (read_small _ _ M2 Ed). }
    destruct An as [A2 S2]. pose proof (fun t an => foc_ann_some p2 (t_symbol tok) ann t an) as A3. destruct (pool_find_or_create p2 (t_symbol tok) (Some ann)) as [p3 c3]. cbn [fst] in A3.
    assert (Lt3 : lots_small p3).
    { intros t an pr H Hp. apply A3 in H as [->|H]; [exact (S2 _ Hp)|]. rewrite A2, A1 in H. exact (Lt _ _ _ H Hp). }
    assert (Ck : calm (parse_cost p3 tok amt) /\ forall p4 c, parse_cost p3 tok amt = Ok (p4, c) -> lots_small p4 /\ forall a, c = Some a -> small (2 * k) (B * B * p10 (2 * k)) (a_q a)).
    { unfold parse_cost. destruct amt as [a|]; [|split; [discriminate|intros ? ? [= <- <-]; split; [exact Lt3|discriminate]]].
      destruct (is_empty _); [split; [discriminate|intros ? ? [= <- <-]; split; [exact Lt3|discriminate]]|].
      destruct (parse_amount_parts p3 _ _) as [p5 c] eqn:Ec. destruct (parts_small _ _ _ _ _ M3 Ec) as [A5 S5].
      assert (Lt5 : lots_small p5) by (intros t an pr H; rewrite A5 in H; exact (Lt3 _ _ _ H)).
      destruct c as [c|]; [|split; [discriminate|intros ? ? [= <- <-]; split; [exact Lt5|discriminate]]]. specialize (S5 _ eq_refl). specialize (S1 _ eq_refl).
      destruct (t_is_per_unit tok).
      - destruct (mul_small k (B * p10 k) (B * p10 k) (a_q c) (a_q a)) as (r' & Er & Sr); try assumption.
        + exact (k_le B k N Bounds).
        + pose proof (w1_le B k N Bounds). lia.
        + pose proof (w1_le B k N Bounds). lia.
        + rewrite (w1_sq B k N). exact (w2_lt B k N Bounds).
        + unfold amt_mul. rewrite Er. cbn [bind]. rewrite (w1_sq B k N) in Sr. split; [discriminate|]. intros ? ? [= <- <-]. split; [exact Lt5|]. intros ? [= <-]. exact Sr.
      - split; [discriminate|]. intros ? ? [= <- <-]. split; [exact Lt5|]. intros ? [= <-]. exact (written_small B k N Bounds _ S5). }
    destruct Ck as [Ck Rk]. destruct (parse_cost p3 tok amt) as [[p4 cost]|q|]; cbn [bind]; [|split; [intros [= ->]; apply Ck; reflexivity|discriminate]|split; discriminate].
    destruct (Rk _ _ eq_refl) as [Lt4 S4]. destruct (nth_error (j_xacts j) xi) as [x|]; [|split; discriminate].
    pose proof (calm_push_post acct (xi, length (x_posts x)) m1) as Cp. destruct (push_post _ _ _) as [m2|q|]; cbn [bind]; [|split; [intros [= ->]; apply Cp; reflexivity|discriminate]|split; discriminate].
    split; [discriminate|]. intros j' [= <-]. cbn [j_pool j_xacts]. split; [exact Lt4|]. eexists. split; [reflexivity|]. split; [intros a Ha; apply S1, Ha|intros a Ha; apply S4, Ha].
  Qed.

  (** The state of the reader: [c] bounds the lines of the current transaction so far. *)
  Definition settled (xs : list xact) : Prop := Forall (fun x => Forall done_small (x_posts x)) xs.
  Definition ready (m : mode) (c : nat) (j : journal) : Prop :=
    lots_small (j_pool j)
    /\ match m with
       | Top => settled (j_xacts j)
       | InXact xi => exists pre x, j_xacts j = pre ++ [x] /\ xi = length pre /\ settled pre /\ (length (x_posts x) <= c)%nat /\ Forall amount_small (x_posts x) /\ Forall cost_small (x_posts x)
       end.
  Lemma finalize_ready j xi c : (c <= N)%nat -> ready (InXact xi) c j -> calm (finalize j xi) /\ forall j', finalize j xi = Ok j' -> ready Top 0 j'.
  Proof.
    intros Lc (Lt & pre & x & Ex & -> & Sp & Lx & A & C). unfold finalize. rewrite Ex, nth_error_app2, Nat.sub_diag by lia. cbn [nth_error].
    destruct (finalize_calm B k N Bounds (x_date x) (j_pool j) (x_posts x) Lt ltac:(lia) A C) as [Cf Rf].
    destruct (finalize_posts _ _ _) as [[pl ps]|q|]; cbn [bind]; [|split; [intros [= ->]; apply Cf; reflexivity|discriminate]|split; discriminate].
    split; [discriminate|]. intros j' [= <-]. destruct (Rf _ _ eq_refl) as [E F]. split; cbn [j_pool j_xacts]; [intros s an pr H; rewrite E in H; exact (Lt _ _ _ H)|].
    rewrite update_last. apply Forall_app. split; [exact Sp|]. constructor; [exact F|constructor].
  Qed.

  Definition indented (l : option str) : Prop := exists r, l = Some (32%N :: r).
  Definition left_over (c : nat) (src : source) : Prop := forall b s2, src = b ++ s2 -> (forall l, In l b -> indented l) -> (c + length b <= N)%nat.
  Definition good (c : nat) (src : source) : Prop := moderate_source B k N src /\ left_over c src.
  Lemma good_start src : moderate_source B k N src -> good 0 src.
  Proof. intros H. split; [exact H|]. intros b s2 E I. apply (proj2 H [] b s2 E I). Qed.
  Lemma good_tail l c src : good c (l :: src) -> good 0 src.
  Proof.
    intros [[H1 H2] _]. apply good_start. split; [intros x I; apply H1; right; exact I|]. intros s1 b s2 E I. apply (H2 (l :: s1) b s2); [rewrite E; reflexivity|exact I].
  Qed.
  Lemma good_next r c src : good c (Some (32%N :: r) :: src) -> good (S c) src.
  Proof.
    intros G. split; [exact (proj1 (good_tail _ _ _ G))|]. intros b s2 E I. assert (X := proj2 G (Some (32%N :: r) :: b) s2). cbn [length] in X. rewrite <- plus_n_Sm in X. apply X; [rewrite E; reflexivity|].
    intros l [<-|Hl]; [exists r; reflexivity|apply I, Hl].
  Qed.
  Lemma good_le c src : good c src -> (c <= N)%nat.
  Proof. intros [_ G]. specialize (G [] src eq_refl). cbn [length] in G. rewrite Nat.add_0_r in G. apply G. intros l []. Qed.

  Definition gentle (inc : str -> journal -> outcome journal) : Prop := forall arg j, ready Top 0 j -> calm (inc arg j) /\ forall j', inc arg j = Ok j' -> ready Top 0 j'.
  Lemma top_ready inc j l : gentle inc -> ready Top 0 j -> calm (top_line inc j l) /\ forall n, top_line inc j l = Ok n -> exists m j', n = Continue m j' /\ ready m 0 j'.
  Proof.
    intros HI R. unfold top_line. destruct (_ || _); [split; [discriminate|intros ? [= <-]; eauto]|]. destruct l as [|c r]; [split; discriminate|].
    destruct (_ || _); [split; [discriminate|intros ? [= <-]; eauto]|]. destruct (c =? 45)%N; [split; [discriminate|intros ? [= <-]; eauto]|]. destruct (is_digit c).
    { pose proof (calm_create_xact j (c :: r)) as Cx. destruct (create_xact j (c :: r)) as [j'|q|] eqn:E; cbn [bind]; [|split; [intros [= ->]; apply Cx; reflexivity|discriminate]|split; discriminate].
      split; [discriminate|]. intros ? [= <-]. exists (InXact (length (j_xacts j))), j'. split; [reflexivity|]. destruct (create_xact_shape _ _ _ E) as (x & -> & Px). destruct R as [Lt St].
      split; [exact Lt|]. exists (j_xacts j), x. rewrite Px. repeat split; auto. }
    destruct (_ || _); [split; discriminate|]. unfold general_directive. destruct (take_word (c :: r)) as [dir rest].
    assert (Pr : calm (let* j' := (let* p := parse_price_directive (j_pool j) (c :: r) in Ok (set_pool j p)) in Ok (Continue Top j')) /\ forall n, (let* j' := (let* p := parse_price_directive (j_pool j) (c :: r) in Ok (set_pool j p)) in Ok (Continue Top j')) = Ok n -> exists m j', n = Continue m j' /\ ready m 0 j').
    { pose proof (calm_price_directive (j_pool j) (c :: r)) as Cx. destruct (parse_price_directive _ _) as [p|q|] eqn:E; cbn [bind]; [|split; [intros [= ->]; apply Cx; reflexivity|discriminate]|split; discriminate].
      split; [discriminate|]. intros ? [= <-]. exists Top, (set_pool j p). split; [reflexivity|]. apply price_directive_ann in E. destruct R as [Lt St]. split; [|exact St]. intros s an pr H. cbn [set_pool j_pool] in H. rewrite E in H. exact (Lt _ _ _ H). }
    assert (In : forall arg, calm (let* j' := inc arg j in Ok (Continue Top j')) /\ forall n, (let* j' := inc arg j in Ok (Continue Top j')) = Ok n -> exists m j', n = Continue m j' /\ ready m 0 j').
    { intros arg. destruct (HI arg j R) as [Ci Ri]. destruct (inc arg j) as [j'|q|]; cbn [bind]; [|split; [intros [= ->]; apply Ci; reflexivity|discriminate]|split; discriminate]. split; [discriminate|]. intros ? [= <-]. eauto. }
    repeat match goal with
    | |- calm (bind (Panic _) _) /\ _ => split; discriminate
    | |- _ => first [exact Pr | apply In]
    | |- context [match ?x with _ => _ end] => destruct x
    end.
  Qed.
  Lemma xact_ready j xi l c src : good c (Some l :: src) -> ready (InXact xi) c j ->
    calm (xact_line j xi l) /\ forall n, xact_line j xi l = Ok n -> exists m j' c', n = Continue m j' /\ ready m c' j' /\ good c' src.
  Proof.
    intros G R. assert (Fin : calm (ReadingFacts.fin j xi) /\ forall n, ReadingFacts.fin j xi = Ok n -> exists m j' c', n = Continue m j' /\ ready m c' j' /\ good c' src).
    { unfold ReadingFacts.fin. destruct (finalize_ready j xi c (good_le _ _ G) R) as [Cf Rf]. destruct (finalize j xi) as [j'|q|]; cbn [bind]; [|split; [intros [= ->]; apply Cf; reflexivity|discriminate]|split; discriminate].
      split; [discriminate|]. intros ? [= <-]. exists Top, j', 0%nat. split; [reflexivity|]. split; [apply Rf; reflexivity|exact (good_tail _ _ _ G)]. }
    destruct l as [|e r]; [split; discriminate|]. rewrite ReadingFacts.xact_line_eq. destruct (N.eqb_spec e 32) as [->|N32].
    2:{ destruct (_ || _)%bool; [exact Fin|split; discriminate]. }
    change (32%N :: r) with ([32%N] ++ r). rewrite trim_start_app by reflexivity. destruct (trim_start r) as [|d s] eqn:Tr; [exact Fin|]. apply good_next in G as G'. destruct (N.eqb_spec d 59) as [->|N59].
    - destruct R as (Lt & pre & x & Ex & -> & Sp & Lx & A & C). unfold parse_trailing_note. destruct (is_empty _); cbn [bind].
      + split; [discriminate|]. intros ? [= <-]. exists (InXact (length pre)), j, (S c). split; [reflexivity|]. split; [|exact G']. split; [exact Lt|]. exists pre, x. repeat split; auto.
      + split; [discriminate|]. intros ? [= <-]. eexists _, _, (S c). split; [reflexivity|]. split; [|exact G']. split; [exact Lt|]. cbn [j_xacts set_xacts]. rewrite Ex, update_last. eexists pre, _. split; [reflexivity|].
        split; [reflexivity|]. split; [exact Sp|]. clear - Lx A C. destruct (x_posts x) as [|p ps] eqn:Ep.
        * cbn [xact_add_note x_posts]. rewrite Ep. cbn [length]. repeat split; [lia|constructor|constructor].
        * rewrite <- Ep in *. clear Ep p ps. cbn [set_posts x_posts]. rewrite update_nth_length. split; [lia|]. set (i := (length (x_posts x) - 1)%nat). clearbody i. clear Lx. generalize dependent i.
          induction (x_posts x) as [|p ps IH]; intros [|i]; cbn [update_nth]; inversion A; inversion C; subst; split; constructor; try assumption; apply IH; assumption.
    - rewrite <- Tr. assert (Md := fun tok P => proj1 (proj1 G) _ (or_introl eq_refl) r tok eq_refl P). destruct R as (Lt & pre & x & Ex & -> & Sp & Lx & A & C).
      destruct (post_small j (length pre) r Lt Md) as [Cp Rp]. destruct (parse_post _ _ _) as [j'|q|]; cbn [bind]; [|split; [intros [= ->]; apply Cp; reflexivity|discriminate]|split; discriminate].
      destruct (Rp _ eq_refl) as (Lt' & p & E' & A' & C'). split; [discriminate|]. intros ? [= <-]. exists (InXact (length pre)), j', (S c). split; [reflexivity|]. split; [|exact G']. split; [exact Lt'|].
      unfold add_post in E'. rewrite Ex, update_last in E'. eexists pre, _. split; [exact E'|]. split; [reflexivity|]. split; [exact Sp|]. cbn [set_posts x_posts]. rewrite app_length. cbn [length].
      split; [lia|]. split; apply Forall_app; split; try assumption; constructor; [exact A'|constructor|exact C'|constructor].
  Qed.
  Lemma lines_ready inc src : gentle inc -> forall m c j, good c src -> ready m c j -> calm (parse_lines inc m j src) /\ forall j', parse_lines inc m j src = Ok j' -> ready Top 0 j'.
  Proof.
    intros HI. induction src as [|l src IH]; intros m c j G R; cbn [parse_lines].
    - destruct m as [|xi]; [split; [discriminate|intros ? [= <-]; exact R]|]. apply (finalize_ready j xi c); [exact (good_le _ _ G)|exact R].
    - assert (X : calm (step inc m j l) /\ forall n, step inc m j l = Ok n -> (exists m' j' c', n = Continue m' j' /\ ready m' c' j' /\ good c' src) \/ exists j', n = Stop j' /\ ready Top 0 j').
      { destruct m as [|xi], l as [l|]; cbn [step].
        - destruct (top_ready inc j l HI R) as [Ct Rt]. split; [exact Ct|]. intros n E. destruct (Rt n E) as (m' & j' & -> & R'). left. exists m', j', 0%nat. split; [reflexivity|]. split; [exact R'|exact (good_tail _ _ _ G)].
        - split; [discriminate|]. intros ? [= <-]. right. exists j. split; [reflexivity|exact R].
        - destruct (xact_ready j xi l c src G R) as [Ct Rt]. split; [exact Ct|]. intros n E. left. exact (Rt n E).
        - destruct (finalize_ready j xi c (good_le _ _ G) R) as [Cf Rf]. destruct (finalize j xi) as [j'|q|]; cbn [bind]; [|split; [intros [= ->]; apply Cf; reflexivity|discriminate]|split; discriminate].
          split; [discriminate|]. intros ? [= <-]. left. exists Top, j', 0%nat. split; [reflexivity|]. split; [apply Rf; reflexivity|exact (good_tail _ _ _ G)]. }
      destruct X as [Cx Rx]. destruct (step inc m j l) as [n|q|]; cbn [bind]; [|split; [intros [= ->]; apply Cx; reflexivity|discriminate]|split; discriminate].
      destruct (Rx _ eq_refl) as [(m' & j' & c' & -> & R' & G')|(j' & -> & R')]; [exact (IH m' c' j' G' R')|]. split; [discriminate|]. intros ? [= <-]. exact R'.
  Qed.
  Lemma include_gentle cwd fs depth : (forall p f, fs p = Some f -> moderate_source B k N f) -> gentle (include_file depth cwd fs).
  Proof.
    intros Hf. induction depth as [|d IH]; intros arg j R; cbn [include_file]; [split; discriminate|].
    assert (X : calm (included cwd fs arg) /\ forall f, included cwd fs arg = Ok (Some f) -> moderate_source B k N f).
    { unfold included. set (p := resolve cwd arg). assert (Y : calm (Ok (fs p)) /\ forall f, Ok (fs p) = Ok (Some f) -> moderate_source B k N f) by (split; [discriminate|]; intros f [= E]; exact (Hf _ _ E)).
      clearbody p. destruct (path_components p) as [|x [|y z]]; [split; discriminate| |exact Y].
      assert (Z : calm (@Ok (option source) None) /\ forall f, @Ok (option source) None = Ok (Some f) -> moderate_source B k N f) by (split; discriminate).
      repeat match goal with |- _ => first [exact Y | exact Z] | |- context [match ?v with _ => _ end] => is_var v; destruct v end. }
    destruct X as [Cx Rx]. destruct (included cwd fs arg) as [[f|]|q|]; cbn [bind]; [|split; [discriminate|intros ? [= <-]; exact R]|split; [intros [= ->]; apply Cx; reflexivity|discriminate]|split; discriminate].
    apply (lines_ready _ _ IH Top 0); [apply good_start, Rx; reflexivity|exact R].
  Qed.
  Lemma ready_iff j : ready Top 0 j <-> moderate_journal B k N j.
  Proof.
    unfold ready, moderate_journal, settled, all_posts. rewrite and_comm. apply and_iff_compat_r. split.
    - intros H p a I E. apply in_flat_map in I as (x & Ix & Ip). rewrite Forall_forall in H. specialize (H _ Ix). rewrite Forall_forall in H. exact (H _ Ip _ E).
    - intros H. apply Forall_forall. intros x Ix. apply Forall_forall. intros p Ip a E. apply (H p a); [|exact E]. apply in_flat_map. eauto.
  Qed.
  Theorem moderate_reading depth cwd fs src j : moderate_source B k N src -> (forall p f, fs p = Some f -> moderate_source B k N f) -> moderate_journal B k N j ->
    read_into_journal depth cwd fs src j <> Panic PArith /\ forall j', read_into_journal depth cwd fs src j = Ok j' -> moderate_journal B k N j'.
  Proof.
    intros Ms Hf Mj. apply ready_iff in Mj. destruct (lines_ready _ src (include_gentle cwd fs depth Hf) Top 0 j (good_start _ Ms) Mj) as [H1 H2]. split; [exact H1|]. intros j' E. apply ready_iff, H2, E.
  Qed.
End Reading.

(** ** Reports *)
Lemma sum_scaled s w l : Forall (small s w) l -> SpecDecimal.sumZ (map (scaled_abs s) l) <= Z.of_nat (length l) * w.
Proof.
  induction 1 as [|d l (H1 & H2 & H3) _ IH]; cbn [map length]; [cbn; lia|]. change (SpecDecimal.sumZ (scaled_abs s d :: map (scaled_abs s) l)) with (scaled_abs s d + SpecDecimal.sumZ (map (scaled_abs s) l)).
  unfold scaled_abs at 1. nia.
Qed.
Lemma amounts_of_length ps : (length (SpecReport.amounts_of ps) <= length ps)%nat.
Proof. induction ps as [|p ps IH]; cbn [SpecReport.amounts_of flat_map length]; [lia|]. rewrite app_length. destruct (po_amount p); cbn [length]; unfold SpecReport.amounts_of in IH; lia. Qed.
Lemma in_comm_length c l : (length (in_comm c l) <= length l)%nat.
Proof. induction l as [|a l IH]; cbn [in_comm filter length]; [lia|]. destruct (comm_dec _ _); cbn [length]; unfold in_comm in IH; lia. Qed.
Theorem moderate_fits B k N j : moderate_bounds B k N -> moderate_journal B k N j -> Z.of_nat (length (all_posts j)) * (Z.of_nat N * (B * B * 10 ^ Z.of_nat (2 * k))) < 2 ^ 96 ->
  fits_amts (SpecReport.amounts_of (all_posts j)).
Proof.
  intros Bd [Mj _] T. rewrite p10_eq in T. assert (S : Forall (fun a => small (2 * k) (Z.of_nat N * (B * B * p10 (2 * k))) (a_q a)) (SpecReport.amounts_of (all_posts j))).
  { apply Forall_forall. intros a I. unfold SpecReport.amounts_of in I. apply in_flat_map in I as (p & Ip & Ia). destruct (po_amount p) as [b|] eqn:E; [|destruct Ia]. destruct Ia as [<-|[]]. exact (Mj _ _ Ip E). }
  split.
  - eapply Forall_impl; [|exact S]. intros a. apply small_wf; [exact (k2_le B k N Bd)|exact (nw2 B k N Bd)].
  - intros c. exists (2 * k)%nat. split; [exact (k2_le B k N Bd)|].
    assert (S' : Forall (small (2 * k) (Z.of_nat N * (B * B * p10 (2 * k)))) (map a_q (in_comm c (SpecReport.amounts_of (all_posts j))))).
    { apply Forall_map, Forall_forall. intros a I. apply filter_In in I as [I _]. rewrite Forall_forall in S. exact (S _ I). }
    split; [eapply Forall_impl; [|exact S']; intros d H; apply H|].
    pose proof (sum_scaled _ _ _ S') as X. rewrite map_length in X. pose proof (in_comm_length c (SpecReport.amounts_of (all_posts j))). pose proof (amounts_of_length (all_posts j)).
    pose proof (n_pos B k N Bd). pose proof (w2_pos B k N Bd). set (w := Z.of_nat N * (B * B * p10 (2 * k))) in *. assert (0 <= w) by (unfold w; nia).
    set (len := length (in_comm c _)) in *. assert (Z.of_nat len <= Z.of_nat (length (all_posts j))) by lia. clearbody w len. generalize dependent (2 ^ 96). intros M T. nia.
Qed.
