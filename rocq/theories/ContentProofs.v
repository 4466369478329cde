(** The transactions of an accepted source are what its lines say. *)
From Coq Require Import String List NArith ZArith Bool Lia ZifyBool ZifyNat ZifyN.
From Verif Require Import Base BaseFacts Decimal Dates Amount Balance Scanner History Pool Account Journal Xact Parser.
From Verif Require Import SpecText SpecDecimal SpecAmount SpecReading SpecScan SpecDates SpecAccount SpecXact SpecJournal SpecOutline SpecLine SpecValue SpecContent.
From Verif Require Import DecimalFacts BalanceFacts ScanFacts ScanProofs DatesFacts AccountFacts AccountProofs PoolFacts XactFacts XactProofs JournalFacts PostProofs ArithProofs ValueProofs LineReadProofs.
From Verif Require ReadingFacts LinesProofs OutlineProofs.
Import ListNotations.
Open Scope nat_scope.

(** ** Numbers *)
Lemma qchars_number q : forallb is_qchar q = true -> match d_from_str q with Some d => exists u k, denotes q u k /\ wf_dec d /\ units d = u /\ d_s d = k | None => ~ number_text q end.
Proof.
  intros Q. destruct (d_from_str q) as [d|] eqn:E.
  - destruct (d_from_str_sound _ _ E) as (W & neg & whole & frac & (sign & body & -> & Sg & B & Dw & Df & Ne) & Sd & U).
    assert (Lt : (number (whole ++ frac) < 2 ^ 96)%Z).
    { destruct W as [W _]. unfold d_signed in U. destruct neg, (d_neg d); lia. }
    assert (Un : units d = ((if neg then - number (whole ++ frac) else number (whole ++ frac)) * 10 ^ Z.of_nat (28 - length frac))%Z).
    { unfold units. rewrite <- Sd, <- U. reflexivity. }
    assert (Nu : no_underscores body = body).
    { rewrite forallb_app in Q. apply andb_prop in Q as [_ Q]. clear -Q. unfold no_underscores. induction body as [|c body IH]; [reflexivity|]. cbn in Q. apply andb_prop in Q as [Q1 Q2].
      cbn [filter]. destruct (N.eqb_spec c underscore_c) as [->|]; [discriminate|]. cbn [negb]. f_equal. apply IH, Q2. }
    rewrite Nu in B.
    assert (Sg' : sign = [] /\ neg = false \/ sign = [minus_c] /\ neg = true).
    { destruct Sg as [Sg|[(-> & _)|Sg]]; auto. cbn in Q. discriminate. }
    exists (units d), (d_s d). split; [|auto]. destruct B as [(-> & ->)|B].
    + exists sign, neg, whole, [], []. rewrite !app_nil_r in *. cbn [length] in *. destruct W as [_ W]. repeat split; auto. rewrite Sd. exact Un.
    + exists sign, neg, whole, [point_c], frac. destruct W as [_ W]. rewrite B. repeat split; auto. rewrite Sd. exact Un.
  - intros (u & k & D). destruct (denotes_read _ _ _ [] D) as (d & E' & _). congruence.
Qed.

(** ** Postings *)
Definition plain_tokens (tok : post_tokens) : Prop := forallb is_qchar (t_quantity tok) = true /\ forallb is_qchar (t_cost_quantity tok) = true.
Lemma amount_plain s q y r : SpecLine.amount_read s q y r -> forallb is_qchar q = true.
Proof.
  assert (Q : forall s q r, quantity_read s q r -> forallb is_qchar q = true).
  { intros s0 q0 r0 (r1 & (_ & F & _) & _). rewrite <- F. apply forallb_ext. intros c. symmetry. apply is_qchar_eq. }
  intros (c & x & _ & [[_ (r1 & H & _)]|[_ (r1 & _ & H)]]); eapply Q, H.
Qed.
Lemma post_plain l tok : post_read l tok -> plain_tokens tok.
Proof.
  intros [|]; split; cbn; try reflexivity; [eapply amount_plain; eassumption|].
  match goal with H : cost_read _ _ _ _ |- _ => inversion H; subst; try reflexivity end; eapply amount_plain; eassumption.
Qed.
Lemma no_number_empty : ~ number_text [].
Proof.
  intros (u & k & sign & neg & whole & pt & frac & E & _ & _ & _ & _ & Ne & _). destruct sign; [|discriminate]. destruct whole; [|discriminate]. destruct pt; [|discriminate]. destruct frac; [|discriminate]. elim Ne. reflexivity.
Qed.
Lemma amount_tells q s : forallb is_qchar q = true -> amount_told q s (option_map (fun d => mkAmt d (comm_of s)) (d_from_str q)).
Proof.
  intros Q. apply qchars_number in Q. destruct (d_from_str q) as [d|]; cbn [option_map]; [left|right; auto].
  destruct Q as (u & k & D & W & U & S). exists u, k. eexists. split; [exact D|]. split; [reflexivity|]. repeat split; auto; apply W.
Qed.
Lemma cost_tells p tok a p' c : forallb is_qchar (t_cost_quantity tok) = true -> (forall x, a = Some x -> wf_amt x /\ a_c x = comm_of (t_symbol tok)) ->
  parse_cost p tok a = Ok (p', c) -> cost_told tok a c.
Proof.
  intros Q A H. unfold parse_cost in H. destruct a as [x|]; [|injection H as _ <-; left; auto]. destruct (A x eq_refl) as [Wx Cx].
  destruct (t_cost_quantity tok) as [|e cq] eqn:Eq; cbn [is_empty] in H; [injection H as _ <-; left; split; [right; rewrite Eq; apply no_number_empty|reflexivity]|].
  unfold parse_amount_parts in H. pose proof (foc_comm p (t_cost_symbol tok) None) as C. destruct (pool_find_or_create p (t_cost_symbol tok) None) as [p1 c0]. cbn [snd] in C. subst c0.
  apply qchars_number in Q. destruct (d_from_str (e :: cq)) as [d|]; cbn [option_map] in H; [|injection H as _ <-; left; rewrite Eq; auto].
  right. destruct Q as (u & k & D & W & U & S). exists x, u, k. rewrite Eq. destruct (t_is_per_unit tok).
  - inv_bind H. injection H as _ <-. exists v. split; [reflexivity|]. split; [exact D|]. split; [reflexivity|]. destruct (amt_mul_wf _ _ _ EQ) as [Wv Cv].
    split; [rewrite Cv; cbn [a_c]; rewrite Cx; destruct (t_cost_symbol tok), (t_symbol tok); reflexivity|].
    unfold amt_mul in EQ. inv_bind EQ. injection EQ as <-. cbn [a_q] in *. pose proof (d_mul_nearest _ _ _ W Wx EQ0) as X. rewrite U in X. rewrite Z.mul_comm. exact X.
  - injection H as _ <-. eexists. split; [reflexivity|]. split; [exact D|]. split; [reflexivity|]. repeat split; auto; apply W.
Qed.
Lemma post_tells j xi l j' : wf_tree (j_master j) -> parse_post j xi l = Ok j' ->
  exists tok p, post_read l tok /\ post_told tok p /\ po_note p = None /\ adds_posting j xi p j'.
Proof.
  intros T H. destruct (scan_post l) as [tok| |] eqn:S; [|unfold parse_post in H; rewrite S in H; discriminate|unfold parse_post in H; rewrite S in H; discriminate].
  destruct (parse_post_parts _ _ _ _ _ S H) as (m1 & acct & p2 & ann & p4 & p & R & Hp & _ & Hc & _ & A). apply post_iff in S. destruct (post_plain _ _ S) as [Q1 Q2].
  exists tok, p. split; [exact S|]. assert (Ea : acct = components (t_account tok)).
  { destruct (t_account tok) as [|x y] eqn:Et; [discriminate|]. destruct (register_spec (j_master j) (x :: y) T) as (m' & Er & _); [discriminate|]. congruence. }
  pose proof (amount_tells _ (t_symbol tok) Q1) as Am. split; [split; [|split]|].
  - rewrite Hp. exact Ea.
  - rewrite Hp. exact Am.
  - eapply cost_tells; [exact Q2| |exact Hc]. intros x Ex. rewrite Hp in Ex. cbn [po_amount] in Ex. rewrite Ex in Am. destruct Am as [(u & k & y & _ & [= <-] & W & _ & _ & C)|(_ & E)]; [|discriminate]. auto.
  - split; [rewrite Hp; reflexivity|exact A].
Qed.
Lemma told_wf tok p : post_told tok p -> wf_post p.
Proof.
  intros (_ & A & C). split; intros x E; rewrite E in *.
  - destruct A as [(u & k & y & _ & [= <-] & W & _)|(_ & E')]; [exact W|discriminate].
  - destruct C as [(_ & E')|(y & v & k & z & _ & _ & [= <-] & H)]; [discriminate|]. destruct (t_is_per_unit tok); [apply H|apply H].
Qed.

(** ** Completion *)
Lemma finalize_completes date pool ps pool' ps' : Forall wf_post ps -> fits_amts (worths ps) -> finalize_posts date pool ps = Ok (pool', ps') -> completed ps ps'.
Proof.
  intros W F H. assert (K := H). apply finalize_inv in K as (_ & bal & _ & [(C & _)|(l1 & p & l2 & b & E & _)]).
  - destruct (complete_cases _ _ _ _ _ C W F H) as [[-> N]|(x & y & q & T & R & G)]; [apply cp_written; assumption|eapply cp_implied; eassumption].
  - destruct (elided_value _ _ _ _ _ _ _ _ E F H) as (a & c & O & -> & Ca & Wa & U). eapply cp_elided; eassumption.
Qed.

(** ** Headers *)
Lemma header_tells j c r j' : is_digit c = true -> create_xact j (c :: r) = Ok j' ->
  exists x, j' = set_xacts j (j_xacts j ++ [x]) /\ draft_told (c :: r, []) x.
Proof.
  intros D H. unfold create_xact in H. inv_bind H. destruct v as [[[d aux] payee] note]. inv_bind H. injection H as <-. exists v. split; [reflexivity|]. apply header_iff in EQ.
  assert (Nd : d <> []).
  { destruct EQ as (_ & r1 & r2 & (E & _ & R) & _). intros ->. cbn in E. subst r1. unfold one_of in R. cbn in R. unfold is_digit in D. lia. }
  unfold xact_create in EQ0. destruct d as [|d0 d]; [congruence|]. cbn [is_empty] in EQ0. inv_bind EQ0. inv_bind EQ1. injection EQ1 as <-. inv_bind EQ0. injection EQ0 as <-.
  exists (match note with [] => None | _ => Some note end), [], []. split; [|split; [reflexivity|split; [exists []; split; [constructor|destruct note; reflexivity]|constructor]]].
  exists (d0 :: d), aux, payee, note. split; [exact EQ|]. cbn [x_date x_aux_date x_payee]. split; [|split; [|split; [destruct payee; reflexivity|reflexivity]]].
  - unfold parse_date, unwrap in EQ2. destruct (parse_date_opt (d0 :: d)) as [e|] eqn:P; [|discriminate]. injection EQ2 as <-. exists e. split; [apply parse_date_iff, P|reflexivity].
  - destruct aux as [|a0 aux]; cbn [is_empty] in EQ1; [injection EQ1 as <-; left; auto|]. inv_bind EQ1. injection EQ1 as <-. right.
    unfold parse_date, unwrap in EQ0. destruct (parse_date_opt (a0 :: aux)) as [e|] eqn:P; [|discriminate]. injection EQ0 as <-. exists e. split; [apply parse_date_iff, P|reflexivity].
Qed.

(** ** Notes *)
Lemma last_more ns n d a t : last_note ns d a -> note_text n t -> last_note (ns ++ [n]) d (match t with [] => a | _ => Some t end).
Proof.
  intros (ts & F & ->) T. exists (ts ++ [t]). split; [apply Forall2_app; [exact F|constructor; [exact T|constructor]]|].
  rewrite filter_app, map_app. cbn [filter]. destruct t as [|c t]; cbn [is_empty negb map]; [rewrite app_nil_r; reflexivity|]. symmetry. apply last_last.
Qed.
Lemma note_tells j h es r s x pre j' : j_xacts j = pre ++ [x] -> draft_told (h, es) x -> trim_start r = 59%N :: s -> parse_trailing_note j (length pre) (59%N :: s) = Ok j' ->
  exists x', j_xacts j' = pre ++ [x'] /\ draft_told (h, es ++ [Note_line r]) x'.
Proof.
  intros E (note & ns & gs & Hh & Es & Ln & F) T H. cbn [fst snd] in *. unfold parse_trailing_note in H. cbn [skipn] in H.
  assert (Nt : note_text r (trim s)).
  { exists s. split; [apply skip_trim, T|apply strip_trim; reflexivity]. }
  destruct gs as [|g gs'] eqn:G.
  - assert (X : x_posts x = []) by (inversion F; reflexivity).
    pose proof (last_more _ _ _ _ _ Ln Nt) as L2. cbn [flat_map] in Es. rewrite app_nil_r in Es.
    destruct (trim s) as [|t0 t] eqn:Et; cbn [is_empty] in H; injection H as <-.
    + exists x. split; [exact E|]. exists note, (ns ++ [r]), []. split; [exact Hh|]. split; [cbn [snd flat_map]; rewrite app_nil_r, map_app, Es; reflexivity|]. split; [exact L2|]. rewrite X. constructor.
    + eexists. split; [cbn [j_xacts set_xacts]; rewrite E; match goal with |- update_nth _ ?f _ = _ => rewrite (update_nth_mid f pre x []) end; reflexivity|]. rewrite X.
      exists note, (ns ++ [r]), []. split; [destruct Hh as (d & aux & payee & n & A); exists d, aux, payee, n; exact A|]. split; [cbn [snd flat_map]; rewrite app_nil_r, map_app, Es; reflexivity|]. split; [exact L2|]. cbn. rewrite X. constructor.
  - assert (Ng : g :: gs' <> []) by discriminate. rewrite <- G in *. clear G g gs'. destruct (exists_last Ng) as (gs' & [l nn] & ->). apply Forall2_app_inv_l in F as (ps & q & F1 & F2 & Ep).
    match type of Es with ?t => change (id t) in Es end. inversion F2 as [|? p ? ? (tok & R & Pt & Lp) F3]; subst. inversion F3; subst. unfold id in Es. cbn [fst snd] in *. pose proof (last_more _ _ _ _ _ Lp Nt) as L2.
    assert (Es2 : es ++ [Note_line r] = map Note_line ns ++ flat_map (fun e => Posting_line (fst e) :: map Note_line (snd e)) (gs' ++ [(l, nn ++ [r])])).
    { rewrite Es, !flat_map_app. cbn [flat_map fst snd]. rewrite !app_nil_r, map_app, <- !app_assoc. repeat (cbn [app]; rewrite <- ?app_assoc). reflexivity. }
    destruct (trim s) as [|t0 t] eqn:Et; cbn [is_empty] in H; injection H as <-.
    + exists x. split; [exact E|]. exists note, ns, (gs' ++ [(l, nn ++ [r])]). split; [exact Hh|]. split; [exact Es2|]. split; [exact Ln|]. rewrite Ep. apply Forall2_app; [exact F1|]. constructor; [|constructor]. exists tok. auto.
    + eexists. split; [cbn [j_xacts set_xacts]; rewrite E; match goal with |- update_nth _ ?f _ = _ => rewrite (update_nth_mid f pre x []) end; reflexivity|].
      assert (Ex : (match x_posts x with [] => xact_add_note x (t0 :: t) | _ => set_posts x (update_nth (length (x_posts x) - 1) (fun p => post_add_note p (t0 :: t)) (x_posts x)) end) = set_posts x (ps ++ [post_add_note p (t0 :: t)])).
      { rewrite Ep. replace (length (ps ++ [p]) - 1) with (length ps) by (rewrite app_length; cbn; lia). rewrite (update_nth_mid (fun p => post_add_note p (t0 :: t)) ps p []). destruct ps; reflexivity. }
      rewrite Ex. exists note, ns, (gs' ++ [(l, nn ++ [r])]). split; [destruct Hh as (d & aux & payee & n & A); exists d, aux, payee, n; exact A|]. split; [exact Es2|]. split; [exact Ln|].
      cbn [x_posts set_posts]. apply Forall2_app; [exact F1|]. constructor; [|constructor]. exists tok. split; [exact R|]. split; [exact Pt|exact L2].
Qed.
Lemma posting_tells j h es r c s x pre j' : wf_tree (j_master j) -> j_xacts j = pre ++ [x] -> draft_told (h, es) x -> trim_start r = c :: s -> parse_post j (length pre) (c :: s) = Ok j' ->
  exists x', j_xacts j' = pre ++ [x'] /\ draft_told (h, es ++ [Posting_line r]) x'.
Proof.
  intros T E (note & ns & gs & Hh & Es & Ln & F) Tr H. destruct (post_tells _ _ _ _ T H) as (tok & p & R & Pt & Np & A).
  assert (R' : post_read r tok).
  { apply post_iff. apply post_iff in R. rewrite <- R. rewrite <- Tr. rewrite !LinesProofs.scan_post_eq, trim_idem. reflexivity. }
  exists (set_posts x (x_posts x ++ [p])). split.
  - assert (Ea : j_xacts j' = add_post (j_xacts j) (length pre) p).
    { unfold parse_post in H. inv_bind H. inv_bind H. destruct v0. destruct (parse_amount_parts _ _ _) as [? ?]. inv_bind H. destruct v0. destruct (pool_find_or_create _ _ _) as [? ?]. inv_bind H. destruct v0.
      destruct (nth_error (j_xacts j) (length pre)) as [x0|] eqn:Nx; [|discriminate]. inv_bind H. injection H as <-. cbn [j_xacts]. rewrite E in Nx |- *. rewrite nth_error_app2, Nat.sub_diag in Nx by lia. injection Nx as <-.
      destruct A as [(x1 & Nx1 & Nx2) _]. rewrite E, nth_error_app2, Nat.sub_diag in Nx1 by lia. injection Nx1 as <-. cbn [j_xacts] in Nx2. rewrite E in Nx2. unfold add_post in *.
      rewrite (update_nth_mid _ pre x []) in Nx2 |- *. rewrite (update_nth_mid _ pre x []). rewrite nth_error_app2, Nat.sub_diag in Nx2 by lia. cbn [nth_error] in Nx2. unfold set_posts in *. injection Nx2 as Nx2. apply app_inv_head in Nx2. injection Nx2 as ->. reflexivity. }
    rewrite Ea, E. unfold add_post. apply (update_nth_mid (fun x => set_posts x (x_posts x ++ [p])) pre x []).
  - exists note, ns, (gs ++ [(r, [])]). split; [destruct Hh as (d & aux & payee & n & B); exists d, aux, payee, n; exact B|]. cbn [fst snd] in *.
    split; [rewrite Es, flat_map_app; cbn; rewrite <- app_assoc; reflexivity|]. split; [exact Ln|]. cbn [x_posts set_posts]. apply Forall2_app; [exact F|]. constructor; [|constructor].
    exists tok. split; [exact R'|]. split; [exact Pt|]. rewrite Np. exists []. split; [constructor|reflexivity].
Qed.
Lemma draft_wf o x : draft_told o x -> Forall wf_post (x_posts x).
Proof. intros (note & ns & gs & _ & _ & _ & F). induction F as [|? ? ? ? (tok & _ & P & _) F IH]; constructor; [eapply told_wf, P|exact IH]. Qed.
Lemma final_tells j o x pre j' : j_xacts j = pre ++ [x] -> draft_told o x -> finalize j (length pre) = Ok j' -> exists x', j_xacts j' = pre ++ [x'] /\ xact_told o x'.
Proof.
  intros E D H. unfold finalize in H. rewrite E, nth_error_app2, Nat.sub_diag in H by lia. cbn [nth_error] in H. inv_bind H. destruct v as [pl ps]. injection H as <-. cbn [j_xacts].
  rewrite (update_nth_mid (fun x => set_posts x ps) pre x []). exists (set_posts x ps). split; [reflexivity|]. exists (x_posts x). cbn [set_posts x_date x_aux_date x_payee x_note x_posts].
  split; [destruct x; exact D|]. split; [apply finalize_inv in EQ; apply EQ|]. split; [eapply finalize_frame, EQ|]. intros F. eapply finalize_completes; [eapply draft_wf, D|exact F|exact EQ].
Qed.

(** ** Reading *)
Section Content.
  Variables (cwd : str) (fs : filesystem).
  Definition inc_content (arg : str) (its : list entries) : Prop :=
    exists p, names_file cwd arg p /\ ((its = [] /\ (fs p = None \/ ~ file_path p)) \/ (exists f, fs p = Some f /\ content cwd fs None f its)).
  Definition contents (inc : str -> journal -> outcome journal) : Prop :=
    forall arg j j', inv Top j -> inc arg j = Ok j' ->
      exists its new, inc_content arg its /\ j_xacts j' = j_xacts j ++ new /\ Forall2 xact_told its new.
  Definition at_content (m : mode) (cur : option entries) (j : journal) (pre : list xact) : Prop :=
    match m, cur with
    | Top, None => j_xacts j = pre
    | InXact xi, Some o => exists x, j_xacts j = pre ++ [x] /\ length pre = xi /\ draft_told o x
    | _, _ => False
    end.
  Definition has_content (cur : option entries) (src : source) (pre : list xact) (j' : journal) : Prop :=
    exists its new, content cwd fs cur src its /\ j_xacts j' = pre ++ new /\ Forall2 xact_told its new.
  Lemma has_as cur src cur' src' pre j' : (forall its, content cwd fs cur src its -> content cwd fs cur' src' its) -> has_content cur src pre j' -> has_content cur' src' pre j'.
  Proof. intros H (its & new & O & R). exists its, new. split; [apply H, O|exact R]. Qed.
  Lemma lines_content inc src : contents inc -> JournalFacts.keeps inv inc -> forall m cur j pre j', inv m j -> at_content m cur j pre -> parse_lines inc m j src = Ok j' ->
    has_content cur src pre j'.
  Proof.
    intros HI HK. induction src as [|l src IH]; intros m cur j pre j' I S H; cbn [parse_lines] in H.
    - destruct m as [|xi], cur as [o|]; try (destruct S; fail).
      + injection H as <-. cbn in S. exists [], []. rewrite app_nil_r. split; [constructor|]. split; [exact S|constructor].
      + destruct S as (x & E & <- & D). destruct (final_tells _ _ _ _ _ E D H) as (x' & E' & T). exists [o], [x']. split; [constructor|]. split; [exact E'|]. constructor; [exact T|constructor].
    - inv_bind H.
      assert (I2 := step_preserves inv inv_create inv_post inv_note inv_final inv_price inc m j l v HK I EQ).
      assert (Done : forall xi o j1, at_content (InXact xi) (Some o) j pre -> finalize j xi = Ok j1 -> inv Top j1 -> parse_lines inc Top j1 src = Ok j' ->
        exists its new, content cwd fs None src its /\ j_xacts j' = pre ++ new /\ Forall2 xact_told (o :: its) new).
      { intros xi o j1 (x & E & <- & D) Fi I1 P. destruct (final_tells _ _ _ _ _ E D Fi) as (x' & E' & T).
        destruct (IH Top None j1 (pre ++ [x']) j' I1 E' P) as (its & new & O & Ej & T'). exists its, (x' :: new). split; [exact O|]. split; [rewrite Ej, <- app_assoc; reflexivity|].
        constructor; assumption. }
      destruct m as [|xi], cur as [o|]; try (destruct S; fail).
      + cbn in S. destruct l as [l|]; cbn [step] in EQ.
        2:{ injection EQ as <-. injection H as <-. exists [], []. rewrite app_nil_r. split; [constructor|]. split; [exact S|constructor]. }
        unfold top_line in EQ. destruct (str_eqb l [13%N; 10%N] || str_eqb l [10%N]) eqn:B.
        { injection EQ as <-. eapply has_as; [|apply (IH Top None j pre j' I S H)]. intros its O. constructor; [|exact O].
          exists l. split; [reflexivity|]. apply orb_prop in B as [B|B]; apply str_eqb_eq in B; auto. }
        destruct l as [|c r]; [discriminate|].
        destruct ((c =? 59) || (c =? 35) || (c =? 42) || (c =? 124))%N eqn:K.
        { injection EQ as <-. eapply has_as; [|apply (IH Top None j pre j' I S H)]. intros its O. constructor; [|exact O].
          exists (c :: r). split; [reflexivity|]. right. right. exists c, r. split; [reflexivity|].
          repeat (apply orb_prop in K as [K|K]); apply N.eqb_eq in K; subst c; cbn; auto. }
        destruct (N.eqb_spec c 45) as [->|N45].
        { injection EQ as <-. eapply has_as; [|apply (IH Top None j pre j' I S H)]. intros its O. constructor; [|exact O].
          exists (45%N :: r). split; [reflexivity|]. right. right. exists 45%N, r. split; [reflexivity|]. cbn; auto 8. }
        destruct (is_digit c) eqn:D.
        { inv_bind EQ. injection EQ as <-. cbn in I2. destruct (header_tells _ _ _ _ D EQ0) as (x & -> & Dr).
          eapply has_as; [|eapply (IH (InXact (length (j_xacts j))) (Some (c :: r, []))); [exact I2| |exact H]].
          - intros its O. apply ct_header; assumption.
          - exists x. cbn [j_xacts set_xacts]. rewrite S. auto. }
        destruct ((c =? 32) || (c =? 9))%N; [discriminate|]. inv_bind EQ. injection EQ as <-. cbn in I2.
        destruct (OutlineProofs.general_kinds _ _ _ _ EQ0) as [(arg & Hl & Hinc)|(Hp & pl & Hd & ->)].
        * destruct (HI arg j v0 I Hinc) as (its1 & new1 & (p & Np & O1) & E1 & T1).
          destruct (IH Top None v0 (pre ++ new1) j' I2) with (2 := H) as (its & new & O & E & T); [cbn; congruence|].
          exists (its1 ++ its), (new1 ++ new). split; [|split; [rewrite E, <- app_assoc; reflexivity|apply Forall2_app; assumption]].
          destruct O1 as [(-> & Mi)|(f & Ef & O1)]; [eapply ct_missing|eapply ct_include]; eassumption.
        * eapply has_as; [|apply (IH Top None (set_pool j pl) pre j' I2 S H)]. intros its O. apply ct_price; assumption.
      + destruct l as [l|]; cbn [step] in EQ.
        2:{ inv_bind EQ. injection EQ as <-. destruct (Done xi o v0 S EQ0 I2 H) as (its & new & O & R). exists (o :: its), new. split; [constructor; exact O|exact R]. }
        destruct l as [|c r]; [discriminate|]. rewrite ReadingFacts.xact_line_eq in EQ. destruct (N.eqb_spec c 32) as [->|N32].
        * change (32%N :: r) with ([32%N] ++ r) in EQ. rewrite trim_start_app in EQ by reflexivity.
          destruct (trim_start_spec r) as (w & Er & W & Sw). destruct (trim_start r) as [|d s] eqn:Tr.
          -- unfold ReadingFacts.fin in EQ. inv_bind EQ. injection EQ as <-. destruct (Done xi o v0 S EQ0 I2 H) as (its & new & O & R).
             exists (o :: its), new. split; [|exact R]. apply ct_blank; [|reflexivity|exact O]. rewrite app_nil_r in Er. subst w. exact W.
          -- cbn in Sw. destruct o as [h ps]. destruct S as (x & Ex & <- & Dr). destruct (N.eqb_spec d 59) as [->|N59].
             ++ inv_bind EQ. injection EQ as <-. destruct (note_tells _ _ _ _ _ _ _ _ Ex Dr Tr EQ0) as (x' & Ex' & Dr').
                eapply has_as; [|eapply (IH (InXact (length pre)) (Some (h, ps ++ [Note_line r]))); [exact I2| |exact H]].
                ** intros its O. apply ct_note; [|exact O]. exists w, s. auto.
                ** exists x'. auto.
             ++ inv_bind EQ. injection EQ as <-. destruct (posting_tells _ _ _ _ _ _ _ _ _ (i_tree _ _ I) Ex Dr Tr EQ0) as (x' & Ex' & Dr').
                eapply has_as; [|eapply (IH (InXact (length pre)) (Some (h, ps ++ [Posting_line r]))); [exact I2| |exact H]].
                ** intros its O. apply (ct_posting _ _ _ _ _ d); [exists w, s; auto|exact N59|exact O].
                ** exists x'. auto.
        * destruct ((c =? 13) || (c =? 10))%N eqn:B; [|discriminate]. unfold ReadingFacts.fin in EQ. inv_bind EQ. injection EQ as <-.
          destruct (Done xi o v0 S EQ0 I2 H) as (its & new & O & R). exists (o :: its), new. split; [|exact R]. apply ct_return; [|exact O]. cbn.
          apply orb_prop in B as [B|B]; apply N.eqb_eq in B; auto.
  Qed.
  Lemma include_contents depth : contents (include_file depth cwd fs).
  Proof.
    induction depth as [|d IH]; intros arg j j' I H; cbn [include_file] in H; [discriminate|]. inv_bind H.
    set (p := resolve cwd arg). assert (Np : names_file cwd arg p) by (apply ReadingFacts.names_resolve; reflexivity).
    destruct v as [src|].
    - apply ReadingFacts.included_some in EQ. 
      destruct (lines_content (include_file d cwd fs) src IH) with (4 := H) (cur := @None entries) (pre := j_xacts j) as (its & new & O & R).
      + apply (include_preserves inv inv_create inv_post inv_note inv_final inv_price).
      + exact I.
      + reflexivity.
      + exists its, new. split; [|exact R]. exists p. split; [exact Np|]. right. exists src. auto.
    - injection H as <-. exists [], []. rewrite app_nil_r. split; [|split; [reflexivity|constructor]]. exists p. split; [exact Np|]. left. split; [reflexivity|].
      destruct (fs p) as [f|] eqn:Ef; [right|left; reflexivity]. intros Fp. rewrite (ReadingFacts.included_file _ _ _ _ Np Fp) in EQ. congruence.
  Qed.
End Content.
Theorem read_content depth cwd fs src j j' : reachable_journal j -> read_into_journal depth cwd fs src j = Ok j' ->
  exists its new, content cwd fs None src its /\ j_xacts j' = j_xacts j ++ new /\ Forall2 xact_told its new.
Proof.
  intros R H. eapply (lines_content cwd fs (include_file depth cwd fs) src); [apply include_contents| |apply reachable_inv, R|reflexivity|exact H].
  apply (include_preserves inv inv_create inv_post inv_note inv_final inv_price).
Qed.

(** ** The content is determined by the lines *)
Lemma content_unique cwd fs : (forall p, fs p <> None -> file_path p) -> forall cur src its, content cwd fs cur src its ->
  forall its', content cwd fs cur src its' -> its' = its.
Proof.
  intros P cur src its H. induction H as [ |x|src|x src its H IH|l src its K H IH|l src its K H IH|l arg p src its K Np M H IH|l arg p f src its its2 K Np Ef H IH H2 IH2|c r src its D H IH
    |h ps r src its K H IH|h ps r c src its K N H IH|x l src its K Hd H IH|x l src its Hd H IH]; intros its' G; inversion G; subst; try reflexivity;
  repeat match goal with
  | A : inert None |- _ => destruct A as (? & ? & _); discriminate
  | A : inert (Some _) |- _ => apply OutlineProofs.inert_words in A as [? ?]
  | A : read_as_price _ |- _ => apply OutlineProofs.price_words in A as [? ?]
  | A : is_digit ?c = true, B : context [OutlineProofs.first_word (?c :: ?r)] |- _ => lazymatch goal with X : hd 0%N (OutlineProofs.first_word (c :: r)) <> 105%N |- _ => fail | _ => pose proof (OutlineProofs.digit_words c r A) end
  end;
  repeat match goal with
  | A : include_line ?l ?a |- _ => apply OutlineProofs.include_words in A as [? ?]
  | A : names_file _ _ _ |- _ => apply ReadingFacts.names_resolve in A
  end;
  try match goal with A : OutlineProofs.first_word _ = lit "include", B : hd 0%N (OutlineProofs.first_word _) <> 105%N |- _ => rewrite A in B; elim B; reflexivity end;
  try match goal with A : is_digit ?c = true, B : OutlineProofs.first_word (?c :: ?r) = lit "include" |- _ => elim (OutlineProofs.digit_words c r A); rewrite B; reflexivity end;
  try congruence;
  try (match goal with A : first_mark ?r _, B : spaces (32%N :: ?r) |- _ => destruct (OutlineProofs.mark_not_blank _ _ A B) end);
  try (cbn in *; intuition discriminate);
  try (match goal with A : content cwd fs ?c src ?o, B : forall its', content cwd fs ?c src its' -> _ |- _ => rewrite (B _ A); reflexivity end);
  try (apply IH; assumption).
  all: try match goal with A : first_mark ?r ?c, B : first_mark ?r ?d |- _ => assert (c = d) by (eapply OutlineProofs.mark_unique; eassumption); subst; congruence end.
  all: try (cbn in *; congruence).
  - exfalso. match goal with A : fs ?q = None \/ _ |- _ => destruct A as [A|A]; [congruence|apply A, P; congruence] end.
  - exfalso. match goal with A : fs ?q = None \/ _ |- _ => destruct A as [A|A]; [congruence|apply A, P; congruence] end.
  - match goal with E1 : fs _ = Some f, E2 : fs _ = Some ?g |- _ => assert (g = f) by congruence; subst g end.
    match goal with A : content cwd fs None f ?o, B : content cwd fs None src ?o2 |- ?o ++ ?o2 = _ => rewrite (IH _ A), (IH2 _ B) end. reflexivity.
Qed.
