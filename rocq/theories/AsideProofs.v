(** Dates, payees, notes, comments and prices do not change accounts and amounts. *)
From Coq Require Import String List NArith ZArith Bool Lia.
From Verif Require Import Base Decimal Dates Amount Balance Scanner History Pool Account Journal Xact Parser Report Options Lib.
From Verif Require Import SpecText SpecReading SpecDates SpecScan SpecOutline SpecLine SpecValue SpecRefused SpecSpelling SpecAside.
From Verif Require Import BaseFacts DatesFacts ScanFacts ReportFacts ValueProofs SpellingProofs LineReadProofs LiteralProofs.
From Verif Require ReadingFacts LinesProofs RefusedProofs.
Import ListNotations.
Open Scope nat_scope.

Lemma eq_outcome {A} (o o' : outcome A) : same_outcome eq o o' <-> o = o'.
Proof. destruct o, o'; cbn; split; intros; subst; try congruence; try contradiction; auto. Qed.
Ltac eq_step := eapply (same_outcome_bind eq); [apply same_outcome_refl; reflexivity|].

(** ** The pool *)
Notation ann_beside := (same_keyed (fun a a' : annotation => an_price a = an_price a')).
Definition found_beside (x y : pool * comm) : Prop := pool_beside (fst x) (fst y) /\ snd x = snd y.
Lemma found_aside p p' s ann ann' : pool_beside p p' -> opt_rel (fun a a' => an_price a = an_price a') ann ann' ->
  found_beside (pool_find_or_create p s ann) (pool_find_or_create p' s ann').
Proof.
  intros P A. destruct P as (C & N & G). unfold pool_find_or_create. destruct s as [|c0 s0]; [split; [exact (conj C (conj N G))|reflexivity]|].
  unfold pool_find. rewrite <- C. set (s := c0 :: s0). assert (L := lookup_rel _ s _ _ N).
  destruct (lookup s (p_comms p)) as [c|] eqn:Q.
  - destruct ann as [a|], ann' as [a'|]; cbn in A; try contradiction; [|split; [exact (conj C (conj N G))|reflexivity]].
    destruct (lookup s (p_ann p)) as [b|], (lookup s (p_ann p')) as [b'|]; cbn in L; try contradiction;
      (split; [|reflexivity]); cbn; [exact (conj C (conj N G))|].
    split; [reflexivity|]. split; [apply insert_rel; assumption|assumption].
  - split; [|reflexivity]. unfold pool_create, add_commodity. cbn. rewrite <- C, <- G. split; [|split; [|reflexivity]].
    + cbn. f_equal. f_equal. destruct ann, ann'; cbn in A; try contradiction; reflexivity.
    + cbn. destruct ann, ann'; cbn in A; try contradiction; [apply insert_rel; assumption|exact N].
Qed.
Lemma deref_aside p p' c : pool_beside p p' -> deref p c = deref p' c.
Proof. intros (C & _). unfold deref, pool_find. rewrite C. reflexivity. Qed.
Lemma add_price_aside p p' c w w' a a' : pool_beside p p' -> a_c a = a_c a' -> same_outcome pool_beside (pool_add_price p c w a) (pool_add_price p' c w' a').
Proof.
  intros P E. unfold pool_add_price. rewrite <- (deref_aside _ _ _ P), <- E. eq_step.
  intros x _ <-. destruct (comm_eqb _ _); [reflexivity|]. destruct (a_c a) as [t|]; [|reflexivity]. rewrite <- (deref_aside _ _ _ P).
  eq_step. intros y _ <-. exact P.
Qed.
Definition bd_beside (x y : breakdown * option price) : Prop :=
  bd_amount (fst x) = bd_amount (fst y) /\ opt_rel (fun a b => pr_commodity a = pr_commodity b /\ pr_price a = pr_price b) (snd x) (snd y).
Lemma exchange_aside p p' a c u w w' : pool_beside p p' -> same_outcome bd_beside (exchange p a c u w) (exchange p' a c u w').
Proof.
  intros P. unfold exchange. eq_step. intros s _ <-. rewrite <- (deref_aside _ _ _ P). eq_step. intros x _ <-.
  unfold pool_get_by_index, get_commodity. rewrite <- (proj2 (proj2 P)).
  eapply (same_outcome_bind eq).
  { eq_step. intros n _ <-. rewrite <- (deref_aside _ _ _ P). apply same_outcome_refl. reflexivity. }
  intros y _ <-. eq_step. intros q _ <-. eq_step. intros f _ <-. eapply (same_outcome_bind eq).
  { assert (L := lookup_rel _ (c_symbol y) _ _ (proj1 (proj2 P))).
    destruct (lookup _ (p_ann p)) as [n|], (lookup _ (p_ann p')) as [n'|]; cbn in L; try contradiction; [|reflexivity].
    rewrite L. apply same_outcome_refl. reflexivity. }
  intros b _ <-. split; [reflexivity|]. cbn [snd].
  match goal with |- opt_rel _ (if ?x then _ else _) _ => destruct x end; [|exact I]. split; reflexivity.
Qed.

(** ** Transactions *)
Notation posts_beside := (Forall2 post_beside).
Lemma value_aside p p' : post_beside p p' -> post_value p = post_value p'.
Proof. intros (_ & A & C). unfold post_value. rewrite A, C. reflexivity. Qed.
Lemma sum_aside ps ps' : posts_beside ps ps' -> forall i b n, sum_posts ps i b n = sum_posts ps' i b n.
Proof.
  induction 1 as [|p p' ps ps' P F IH]; intros i b n; cbn [sum_posts]; [reflexivity|]. rewrite <- (value_aside _ _ P).
  destruct (post_value p); [destruct (bal_add b a); cbn [bind]; auto|]. destruct n; auto.
Qed.
Lemma top_aside ps ps' : posts_beside ps ps' -> top_amount ps = top_amount ps'.
Proof. induction 1 as [|p p' ps ps' (_ & A & _) F IH]; [reflexivity|]. cbn [top_amount]. rewrite A, IH. reflexivity. Qed.
Lemma cost_loop_aside c u ps ps' : posts_beside ps ps' -> forall b, same_outcome (same_pair posts_beside eq) (cost_loop c u ps b) (cost_loop c u ps' b).
Proof.
  induction 1 as [|p p' ps ps' P F IH]; intros b; cbn [cost_loop]; [split; [constructor|reflexivity]|].
  assert (P' := P). destruct P' as (Pa & Am & Co). rewrite <- Am. eq_step. intros a _ <-.
  eapply (same_outcome_bind (same_pair post_beside eq)).
  - destruct (comm_eqb (a_c a) c); [|split; [exact P|reflexivity]]. eq_step. intros b1 _ <-. eq_step. intros k _ <-. eq_step. intros b2 _ <-.
    split; [|reflexivity]. split; [exact Pa|]. split; [exact Am|reflexivity].
  - intros [q b1] [q' b1'] [Q B1]. cbn [fst snd] in Q, B1. subst b1'. eapply same_outcome_bind; [apply IH|]. intros [r b2] [r' b2'] [R B2].
    split; [constructor; assumption|exact B2].
Qed.
Lemma infer_aside ps ps' b : posts_beside ps ps' -> same_outcome (same_pair posts_beside eq) (infer_costs ps b) (infer_costs ps' b).
Proof.
  intros P. assert (D : same_outcome (same_pair posts_beside eq) (Ok (ps, b)) (Ok (ps', b))) by (split; [exact P|reflexivity]).
  unfold infer_costs. destruct b as [|x [|y [|z b]]]; try exact D. rewrite <- (top_aside _ _ P). destruct (top_amount ps) as [t|]; [|exact D].
  destruct (_ && _); [|exact D]. destruct (negb (comm_eqb (a_c x) (a_c t))); cbv zeta iota beta; eq_step; intros r _ <-; apply cost_loop_aside, P.
Qed.
Lemma price_loop_aside d d' ps ps' : (d = None <-> d' = None) -> posts_beside ps ps' -> forall p p', pool_beside p p' ->
  same_outcome (same_pair pool_beside posts_beside) (price_loop d p ps) (price_loop d' p' ps').
Proof.
  intros D. induction 1 as [|q q' ps ps' Q F IH]; intros p p' P; cbn [price_loop]; [split; [exact P|constructor]|].
  eapply (same_outcome_bind (same_pair pool_beside post_beside)).
  - assert (Q' := Q). destruct Q' as (Pa & Am & Co). rewrite <- Co, <- Am. destruct (po_cost q) as [c|] eqn:Ec; [|split; assumption].
    destruct (po_amount q) as [a|] eqn:Ea; [|reflexivity]. destruct (comm_eqb (a_c a) (a_c c)); [reflexivity|].
    eapply (same_outcome_bind (fun _ _ => True)).
    { destruct D as [D1 D2]. destruct d, d'; cbn; try exact I; try reflexivity; [specialize (D2 eq_refl)|specialize (D1 eq_refl)]; discriminate. }
    intros dd dd' _. eapply same_outcome_bind; [apply (exchange_aside p p' a c false _ (mkDT dd' midnight) P)|]. intros [bd np] [bd' np'] [Bd Np]. cbn [fst snd] in Bd, Np.
    eapply (same_outcome_bind pool_beside).
    + destruct np as [r|], np' as [r'|]; cbn in Np; try contradiction; [|exact P]. destruct Np as (E1 & E2).
      unfold pool_add_price_struct. rewrite <- E1. apply add_price_aside; [exact P|congruence].
    + intros p1 p1' P1. split; [exact P1|]. cbn. split; [exact Pa|]. cbn. split; congruence.
  - intros [p1 r] [p1' r'] [P1 R]. cbn [fst snd] in P1, R. eapply same_outcome_bind; [apply IH, P1|]. intros [p2 s] [p2' s'] [P2 S].
    split; [exact P2|constructor; assumption].
Qed.
Lemma finalize_posts_aside d d' p p' ps ps' : (d = None <-> d' = None) -> pool_beside p p' -> posts_beside ps ps' ->
  same_outcome (same_pair pool_beside posts_beside) (finalize_posts d p ps) (finalize_posts d' p' ps').
Proof.
  intros D P F. unfold finalize_posts. rewrite <- (len_rel _ _ _ F), <- (sum_aside _ _ F). eq_step. intros [b n] _ <-.
  destruct (length ps =? 1); [reflexivity|].
  eapply (same_outcome_bind (same_pair posts_beside eq)).
  { destruct n; [split; [exact F|reflexivity]|]. apply infer_aside; assumption. }
  intros [ps1 b1] [ps1' b1'] [F1 B1]. cbn [fst snd] in F1, B1. subst b1'.
  eapply same_outcome_bind; [apply price_loop_aside; [exact D|exact F1|exact P]|]. intros [p2 ps2] [p2' ps2'] [P2 F2]. cbn [fst snd] in P2, F2.
  destruct n as [i|]; [|split; assumption]. destruct b1 as [|x [|? ?]]; try reflexivity.
  split; [exact P2|]. cbn. apply update_rel; [exact F2|]. intros q q' (Pa & Am & Co). split; [exact Pa|]. split; [reflexivity|exact Co].
Qed.
Lemma finalize_aside j j' xi : journal_beside j j' -> same_outcome journal_beside (finalize j xi) (finalize j' xi).
Proof.
  intros (M & P & X). unfold finalize. assert (N := nth_rel _ _ _ xi X).
  destruct (nth_error (j_xacts j) xi) as [x|], (nth_error (j_xacts j') xi) as [x'|]; cbn in N; try contradiction; [|reflexivity].
  destruct N as (D & F).
  eapply same_outcome_bind; [apply finalize_posts_aside; [exact D|exact P|exact F]|]. intros [p ps] [p' ps'] [P1 F1].
  split; [exact M|]. split; [exact P1|]. cbn. apply update_rel; [exact X|]. intros a b [H _]. split; [exact H|exact F1].
Qed.

(** ** The parser *)
Definition parsed_beside (x y : pool * option amount) : Prop := pool_beside (fst x) (fst y) /\ snd x = snd y.
Lemma parts_aside p p' q s : pool_beside p p' -> parsed_beside (parse_amount_parts p q s) (parse_amount_parts p' q s).
Proof.
  intros P. unfold parse_amount_parts. assert (F := found_aside _ _ s None None P I).
  destruct (pool_find_or_create p s None) as [p1 c], (pool_find_or_create p' s None) as [p1' c']. destruct F as [F E]. cbn [fst snd] in F, E. subst c'.
  split; [exact F|reflexivity].
Qed.
Lemma cost_aside p p' t t' a : pool_beside p p' -> parts_beside t t' -> same_outcome parsed_beside (parse_cost p t a) (parse_cost p' t' a).
Proof.
  intros P T. destruct T as (_ & _ & _ & _ & _ & Q & S & U). unfold parse_cost. destruct a as [a|]; [|split; [exact P|reflexivity]].
  rewrite <- Q, <- S, <- U. destruct (is_empty (t_cost_quantity t)); [split; [exact P|reflexivity]|].
  assert (R := parts_aside _ _ (t_cost_quantity t) (t_cost_symbol t) P).
  destruct (parse_amount_parts p _ _) as [p1 c], (parse_amount_parts p' _ _) as [p1' c']. destruct R as [R1 R2]. cbn [fst snd] in R1, R2. subst c'.
  destruct c as [c|]; [|split; [exact R1|reflexivity]].
  destruct (t_is_per_unit t); [|split; [exact R1|reflexivity]]. eq_step. intros x _ <-. split; [exact R1|reflexivity].
Qed.
Lemma good_date d : no_date_or_good d -> exists o, (if is_empty d then Ok None else let* d := unwrap (parse_date_opt d) in Ok (Some d)) = Ok o.
Proof.
  intros [->|[e E]]; [eexists; reflexivity|]. apply parse_date_iff in E. rewrite E. destruct (is_empty d); eexists; reflexivity.
Qed.
Lemma annotation_aside p p' d d' q s : pool_beside p p' -> d = d' \/ no_date_or_good d /\ no_date_or_good d' ->
  same_outcome (same_pair pool_beside (fun a a' => an_price a = an_price a')) (annotation_parse p d q s) (annotation_parse p' d' q s).
Proof.
  intros P D. unfold annotation_parse. assert (F := found_aside _ _ s None None P I).
  destruct (pool_find_or_create p s None) as [p1 c], (pool_find_or_create p' s None) as [p1' c']. destruct F as [F E]. cbn [fst snd] in F, E. subst c'.
  destruct D as [<-|[D D']].
  - eq_step. intros x _ <-. split; [exact F|reflexivity].
  - apply good_date in D as [o ->], D' as [o' ->]. split; [exact F|reflexivity].
Qed.
Lemma parse_post_aside j j' xi l l' : journal_beside j j' ->
  same_outcome (fun t t' => parts_beside t t' /\ (t_price_date t = t_price_date t' \/ no_date_or_good (t_price_date t) /\ no_date_or_good (t_price_date t'))) (scan_post l) (scan_post l') ->
  same_outcome journal_beside (parse_post j xi l) (parse_post j' xi l').
Proof.
  intros (M & P & X) S. unfold parse_post. eapply same_outcome_bind; [exact S|]. intros t t' [T Td]. assert (T' := T).
  destruct T' as (Ta & Tq & Ts & Tpq & Tpc & _). rewrite <- M, <- Ta, <- Ts, <- Tpc, <- Tq, <- Tpq.
  eq_step. intros [m1 acct] _ <-.
  assert (R := parts_aside _ _ (t_quantity t) (t_symbol t) P).
  destruct (parse_amount_parts (j_pool j) _ _) as [p1 a], (parse_amount_parts (j_pool j') _ _) as [p1' a']. destruct R as [R A]. cbn [fst snd] in R, A. subst a'.
  eapply same_outcome_bind; [apply annotation_aside; [exact R|exact Td]|]. intros [p2 an] [p2' an'] [P2 An]. cbn [fst snd] in P2, An.
  assert (F := found_aside p2 p2' (t_symbol t) (Some an) (Some an') P2 An).
  destruct (pool_find_or_create p2 _ _) as [p3 c], (pool_find_or_create p2' _ _) as [p3' c']. destruct F as [F _]. cbn [fst snd] in F.
  eapply same_outcome_bind; [apply cost_aside; [exact F|exact T]|]. intros [p4 co] [p4' co'] [P4 Co]. cbn [fst snd] in P4, Co. subst co'.
  assert (N := nth_rel _ _ _ xi X).
  destruct (nth_error (j_xacts j) xi) as [x|], (nth_error (j_xacts j') xi) as [x'|]; cbn in N; try contradiction; [|reflexivity].
  destruct N as (_ & Fp). rewrite <- (len_rel _ _ _ Fp).
  eq_step. intros m2 _ <-. split; [reflexivity|]. split; [exact P4|]. cbn.
  apply update_rel; [exact X|]. intros y y' [Yd Yp]. split; [exact Yd|]. cbn. apply app_rel; [exact Yp|]. constructor; [|constructor]. repeat split.
Qed.
Lemma note_aside j j' xi l l' : journal_beside j j' -> same_outcome journal_beside (parse_trailing_note j xi l) (parse_trailing_note j' xi l').
Proof.
  intros (M & P & X). unfold parse_trailing_note.
  assert (K : forall n n' : option str, Forall2 xact_beside
     (match n with None => j_xacts j | Some n => update_nth xi (fun x => match x_posts x with [] => xact_add_note x n | _ => set_posts x (update_nth (length (x_posts x) - 1) (fun p => post_add_note p n) (x_posts x)) end) (j_xacts j) end)
     (match n' with None => j_xacts j' | Some n => update_nth xi (fun x => match x_posts x with [] => xact_add_note x n | _ => set_posts x (update_nth (length (x_posts x) - 1) (fun p => post_add_note p n) (x_posts x)) end) (j_xacts j') end)).
  { assert (L : forall n ps ps', posts_beside ps ps' -> posts_beside ps (update_nth (length ps' - 1) (fun p => post_add_note p n) ps')).
    { intros n ps ps' F. generalize (length ps' - 1). induction F as [|p p' ps ps' Q F IH]; intros [|k]; cbn; constructor; auto. }
    assert (L' : forall n n' ps ps', posts_beside ps ps' -> posts_beside (update_nth (length ps - 1) (fun p => post_add_note p n) ps) (update_nth (length ps' - 1) (fun p => post_add_note p n') ps')).
    { intros n n' ps ps' F. rewrite (len_rel _ _ _ F). apply update_rel; [exact F|]. intros a b H. exact H. }
    assert (U : forall f, (forall x, xact_beside x (f x)) -> forall k l l', Forall2 xact_beside l l' -> Forall2 xact_beside l (update_nth k f l')).
    { intros f Hf k l0 l1 F. revert k. induction F as [|x x' l0 l1 Y F IH]; intros [|k]; cbn; constructor; auto. destruct Y as [Y1 Y2], (Hf x') as [Z1 Z2].
      split; [rewrite Y1; exact Z1|]. clear - Y2 Z2. revert Z2. generalize (x_posts (f x')). induction Y2 as [|a b l l' H F IH]; intros m Z; inversion Z; subst; constructor; auto.
      destruct H as (A & B & C). match goal with H : post_beside b _ |- _ => destruct H as (D & E & G) end. repeat split; congruence. }
    assert (Rf : forall ps, posts_beside ps ps) by (intros ps; induction ps; constructor; [repeat split|assumption]).
    assert (Fn : forall n x, xact_beside x (match x_posts x with [] => xact_add_note x n | _ => set_posts x (update_nth (length (x_posts x) - 1) (fun p => post_add_note p n) (x_posts x)) end)).
    { intros n x. destruct (x_posts x) eqn:E; (split; [split; intros H; exact H|]); [cbn; rewrite E; constructor|]. cbn [x_posts set_posts]. rewrite E. apply L, Rf. }
    assert (Sy : forall l l', Forall2 xact_beside l l' -> Forall2 xact_beside l' l).
    { intros l0 l1. induction 1 as [|x y l0 l1 [Y1 Y2] F IH]; constructor; [|exact IH]. split; [symmetry; exact Y1|]. clear - Y2. induction Y2 as [|a b l l' (A & B & C) F IH]; constructor; [repeat split; congruence|exact IH]. }
    intros [n|] [n'|]; [|apply Sy, U, Sy, X; apply Fn|apply U, X; apply Fn|exact X].
    apply U; [apply Fn|]. apply Sy, U; [apply Fn|]. apply Sy, X. }
  destruct (is_empty (trim (skipn 1 l))), (is_empty (trim (skipn 1 l'))); (split; [exact M|split; [exact P|]]); cbn [j_xacts set_xacts].
  - exact X.
  - exact (K None (Some (trim (skipn 1 l')))).
  - exact (K (Some (trim (skipn 1 l))) None).
  - exact (K (Some (trim (skipn 1 l))) (Some (trim (skipn 1 l')))).
Qed.
Lemma create_dated j c r : is_digit c = true -> ~ header_refused (c :: r) -> exists x d, create_xact j (c :: r) = Ok (set_xacts j (j_xacts j ++ [x])) /\ x_posts x = [] /\ x_date x = Some d.
Proof.
  intros D R. assert (K := RefusedProofs.header_cases j c r D). destruct (create_xact j (c :: r)) as [j1|p|] eqn:E; [|contradiction|contradiction]. clear K.
  unfold create_xact in E. destruct (tokenize_xact_header (c :: r)) as [[[[d aux] payee] note]| |] eqn:T; try discriminate. cbn [bind] in E.
  apply header_iff in T as (_ & r1 & r2 & (E1 & _ & R1) & _).
  unfold xact_create in E. destruct d as [|d0 d].
  { cbn in E1. subst r1. exfalso. cbn in R1. unfold is_digit in D. apply andb_prop in D as [D1 D2]. apply N.leb_le in D1, D2. unfold one_of in R1. cbn in R1.
    destruct (N.eqb_spec c 32), (N.eqb_spec c 61); lia. }
  cbn [is_empty] in E. destruct (parse_date (d0 :: d)) as [e| |]; try discriminate. cbn [bind] in E.
  match type of E with (let* _ := (let* _ := ?o in _) in _) = _ => destruct o as [ax| |]; try discriminate end. cbn [bind] in E. injection E as <-.
  eexists _, e. repeat split.
Qed.
Definition next_beside (n n' : next) : Prop :=
  match n, n' with
  | Continue m j, Continue m' j' => m = m' /\ journal_beside j j'
  | Stop j, Stop j' => journal_beside j j'
  | _, _ => False
  end.
Lemma continue_aside m o o' : same_outcome journal_beside o o' -> same_outcome next_beside (let* j := o in Ok (Continue m j)) (let* j := o' in Ok (Continue m j)).
Proof. intros H. eapply same_outcome_bind; [exact H|]. intros j j' J. split; [reflexivity|exact J]. Qed.
Definition inc_beside (inc inc' : str -> journal -> outcome journal) : Prop :=
  forall arg j j', journal_beside j j' -> same_outcome journal_beside (inc arg j) (inc' arg j').
Lemma price_directive_aside p p' l l' : pool_beside p p' -> l = l' \/ (exists s t, good_price l s t /\ good_price l' s t) ->
  same_outcome pool_beside (parse_price_directive p l) (parse_price_directive p' l').
Proof.
  intros P H.
  assert (G : forall w w' s v v' c, same_outcome pool_beside
     (let '(p1, c1) := pool_find_or_create p s None in let '(p2, cc) := pool_find_or_create p1 c None in pool_add_price p2 c1 w (mkAmt v cc))
     (let '(p1, c1) := pool_find_or_create p' s None in let '(p2, cc) := pool_find_or_create p1 c None in pool_add_price p2 c1 w' (mkAmt v' cc))).
  { intros w w' s v v' c. assert (F := found_aside _ _ s None None P I).
    destruct (pool_find_or_create p s None) as [p1 cs], (pool_find_or_create p' s None) as [p1' cs']. destruct F as [F Ec]. cbn [fst snd] in F, Ec. subst cs'.
    assert (F2 := found_aside _ _ c None None F I).
    destruct (pool_find_or_create p1 c None) as [p2 cc], (pool_find_or_create p1' c None) as [p2' cc']. destruct F2 as [F2 Ec]. cbn [fst snd] in F2, Ec. subst cc'.
    apply add_price_aside; [exact F2|reflexivity]. }
  destruct H as [<-|(s & t & (_ & _ & d & tm & q & neg & wh & fr & R & (e & De) & Tm & Q) & (_ & _ & d' & tm' & q' & neg' & wh' & fr' & R' & (e' & De') & Tm' & Q'))].
  - unfold parse_price_directive. eq_step. intros [[[[d t] s] q] c] _ <-. eq_step. intros dd _ <-. eq_step. intros tt _ <-.
    specialize (G (mkDT dd tt) (mkDT dd tt) s). destruct (pool_find_or_create p s None) as [p1 cs], (pool_find_or_create p' s None) as [p1' cs'].
    eq_step. intros v _ <-. apply (G v v c).
  - assert (K : forall tm, no_time_or_good tm -> exists v, (if is_empty tm then Ok midnight else unwrap (parse_time_opt tm)) = Ok v).
    { intros x [->|[v V]]; [eexists; reflexivity|]. apply parse_time_iff in V. rewrite V. destruct (is_empty x); eexists; reflexivity. }
    apply K in Tm as [v Tm], Tm' as [v' Tm']. apply price_iff in R, R'. apply parse_date_iff in De, De'.
    assert (X : exists x, d_from_str q = Some x) by (apply quantity_text_iff; eauto). assert (X' : exists x, d_from_str q' = Some x) by (apply quantity_text_iff; eauto).
    destruct X as [x X], X' as [x' X'].
    unfold parse_price_directive. rewrite R, R'. cbn [bind]. rewrite De, De'. cbn [bind unwrap]. rewrite Tm, Tm'. cbn [bind]. rewrite X, X'. cbn [bind unwrap].
    specialize (G (mkDT e v) (mkDT e' v') s x x' t). destruct (pool_find_or_create p s None) as [p1 cs], (pool_find_or_create p' s None) as [p1' cs']. exact G.
Qed.
Lemma set_pool_aside j j' o o' : journal_beside j j' -> same_outcome pool_beside o o' -> same_outcome journal_beside (let* p := o in Ok (set_pool j p)) (let* p := o' in Ok (set_pool j' p)).
Proof. intros (M & _ & X) H. eapply same_outcome_bind; [exact H|]. intros p p' P. split; [exact M|split; [exact P|exact X]]. Qed.
Lemma general_aside inc inc' j j' l : inc_beside inc inc' -> journal_beside j j' -> same_outcome journal_beside (general_directive inc j l) (general_directive inc' j' l).
Proof.
  intros I J. unfold general_directive. destruct (take_word l) as [w r]. destruct w as [|c w0]; [reflexivity|].
  destruct (N.eq_dec c 105) as [->|Nc].
  - cbv iota. destruct (str_eqb (105%N :: w0) (lit "include")).
    + destruct (fst (take_word r)); [reflexivity|]. apply I, J.
    + destruct (str_eqb (105%N :: w0) (lit "import")); [reflexivity|]. apply set_pool_aside; [exact J|]. apply price_directive_aside; [apply J|left; reflexivity].
  - destruct (N.eq_dec c 97) as [->|Na]; [reflexivity|].
    destruct c as [|c]; [reflexivity|]. do 7 (destruct c as [c|c|]; try reflexivity; try (exfalso; congruence)).
Qed.
Lemma price_line_general inc j l : read_as_price l -> general_directive inc j l = (let* p := parse_price_directive (j_pool j) l in Ok (set_pool j p)).
Proof.
  intros (w & x & r & -> & S & W & R & H & N1 & N2). unfold general_directive. rewrite ReadingFacts.take_word_app by assumption.
  destruct x as [|c x]; [discriminate|]. cbn in H. subst c.
  destruct (str_eqb (105%N :: x) (lit "include")) eqn:E1; [apply str_eqb_eq in E1; contradiction|].
  destruct (str_eqb (105%N :: x) (lit "import")) eqn:E2; [apply str_eqb_eq in E2; contradiction|]. reflexivity.
Qed.
Lemma top_price_line inc j l : hd 0%N l = 105%N -> read_as_price l -> top_line inc j l = (let* j' := (let* p := parse_price_directive (j_pool j) l in Ok (set_pool j p)) in Ok (Continue Top j')).
Proof.
  intros H R. destruct l as [|c l]; [discriminate|]. cbn in H. subst c. rewrite <- (price_line_general inc) by exact R.
  unfold top_line. change (str_eqb (105%N :: l) [13%N; 10%N] || str_eqb (105%N :: l) [10%N]) with false. reflexivity.
Qed.
Lemma note_marked r : first_mark r 59%N -> exists x, trim_start (32%N :: r) = 59%N :: x.
Proof.
  intros (w & x & -> & W & _). exists x. change (32%N :: w ++ 59%N :: x) with ((32%N :: w) ++ 59%N :: x). rewrite trim_start_app; [reflexivity|].
  unfold spaces in *. cbn. exact W.
Qed.
Lemma posting_marked r t : post_read r t -> exists c x, trim_start (32%N :: r) = c :: x /\ c <> 59%N /\ scan_post (c :: x) = Ok t.
Proof.
  intros H. assert (E := proj2 (post_iff _ _) H).
  assert (T : trim_start (32%N :: r) = trim_start r) by reflexivity. rewrite T.
  assert (K : exists c x, trim_start r = c :: x /\ c <> 59%N).
  { assert (S : exists c x, skip r (c :: x) /\ c <> 59%N) by (destruct H; eauto). destruct S as (c & x & (w & Er & W & Hc) & N). exists c, x. split; [|exact N].
    rewrite Er, trim_start_app by exact W. unfold trim_start. cbn [drop_while]. rewrite Hc. reflexivity. }
  destruct K as (c & x & K & N). exists c, x. split; [exact K|]. split; [exact N|]. rewrite <- K, <- E. rewrite !LinesProofs.scan_post_eq, trim_idem. reflexivity.
Qed.
Lemma xact_posting j xi r t : post_read r t -> exists l, scan_post l = Ok t /\ xact_line j xi (32%N :: r) = (let* j0 := parse_post j xi l in Ok (Continue (InXact xi) j0)).
Proof.
  intros H. destruct (posting_marked _ _ H) as (c & x & E & N & S). exists (c :: x). split; [exact S|]. unfold xact_line. rewrite E.
  destruct c as [|c]; [reflexivity|]. do 6 (destruct c as [c|c|]; try reflexivity; try (exfalso; congruence)).
Qed.
Lemma step_aside inc inc' m j j' l l' : inc_beside inc inc' -> journal_beside j j' -> beside l l' -> same_outcome next_beside (step inc m j l) (step inc' m j' l').
Proof.
  intros HI J L. assert (Ln := len_rel _ _ _ (proj2 (proj2 J))).
  destruct L as [l|c r c' r' D D' H H'|r r' K K'|r r' t t' P P' T G G'|l l' s t P P'|l l' C C'].
  - destruct m as [|xi], l as [l|]; cbn [step].
    + unfold top_line. destruct (str_eqb l [13%N; 10%N] || str_eqb l [10%N]); [split; [reflexivity|exact J]|]. destruct l as [|c l]; [reflexivity|].
      destruct (_ || _); [split; [reflexivity|exact J]|]. destruct (c =? 45)%N; [split; [reflexivity|exact J]|].
      destruct (is_digit c).
      { rewrite <- Ln. apply continue_aside. unfold create_xact. eq_step. intros [[[d aux] payee] note] _ <-. 
        eapply (same_outcome_bind (fun x y => x = y /\ x_posts x = [])).
        - unfold xact_create. eq_step. intros dd _ <-. eq_step. intros aa _ <-. split; reflexivity.
        - intros x _ [<- E]. destruct J as (M & P & X). split; [exact M|]. split; [exact P|]. cbn. apply app_rel; [exact X|]. constructor; [|constructor].
          split; [split; intros ->; reflexivity|rewrite E; constructor]. }
      destruct (_ || _); [reflexivity|]. apply continue_aside, general_aside; assumption.
    + exact J.
    + unfold xact_line. assert (Fi : same_outcome next_beside (let* j0 := finalize j xi in Ok (Continue Top j0)) (let* j0 := finalize j' xi in Ok (Continue Top j0))) by (apply continue_aside, finalize_aside, J).
      destruct l as [|c l]; [reflexivity|]. destruct (N.eq_dec c 32) as [->|N32].
      * destruct (trim_start (32%N :: l)) as [|d x] eqn:E; [exact Fi|]. destruct (N.eq_dec d 59) as [->|N59]; [apply continue_aside, note_aside, J|].
        assert (Po : same_outcome next_beside (let* j0 := parse_post j xi (d :: x) in Ok (Continue (InXact xi) j0)) (let* j0 := parse_post j' xi (d :: x) in Ok (Continue (InXact xi) j0))).
        { apply continue_aside, parse_post_aside; [exact J|]. apply same_outcome_refl. intros t. split; [repeat split|left; reflexivity]. }
        destruct d as [|d]; [exact Po|]. do 6 (destruct d as [d|d|]; try exact Po; try (exfalso; congruence)).
      * destruct (N.eq_dec c 13) as [->|N13]; [exact Fi|]. destruct (N.eq_dec c 10) as [->|N10]; [exact Fi|].
        destruct c as [|c]; [reflexivity|]. do 6 (destruct c as [c|c|]; try reflexivity; try (exfalso; congruence)).
    + apply continue_aside, finalize_aside, J.
  - destruct m as [|xi]; cbn [step].
    + rewrite !top_digit by assumption. rewrite <- Ln. apply continue_aside.
      destruct (create_dated j c r D H) as (x & d & -> & E & Ed). destruct (create_dated j' c' r' D' H') as (x' & d' & -> & E' & Ed').
      destruct J as (M & P & X). split; [exact M|]. split; [exact P|]. cbn. apply app_rel; [exact X|]. constructor; [|constructor].
      split; [rewrite Ed, Ed'; split; discriminate|rewrite E, E'; constructor].
    + rewrite !xact_other; [reflexivity| |]; (intros [X|[X|[X|[]]]]; subst; discriminate).
  - destruct m as [|xi]; cbn [step]; [reflexivity|]. unfold xact_line. destruct (note_marked _ K) as [x ->]. destruct (note_marked _ K') as [x' ->].
    apply continue_aside, note_aside, J.
  - destruct m as [|xi]; cbn [step]; [reflexivity|]. destruct (xact_posting j xi _ _ P) as (l & S & ->). destruct (xact_posting j' xi _ _ P') as (l' & S' & ->).
    apply continue_aside, parse_post_aside; [exact J|]. rewrite S, S'. split; [exact T|]. right. split; assumption.
  - assert (P0 := P). assert (P0' := P'). destruct P0 as (Hd & R & _), P0' as (Hd' & R' & _). destruct m as [|xi]; cbn [step].
    + rewrite !top_price_line by assumption. apply continue_aside, set_pool_aside; [exact J|]. apply price_directive_aside; [apply J|]. right. exists s, t. split; assumption.
    + destruct l as [|c l]; [discriminate|]. destruct l' as [|c' l']; [discriminate|]. cbn in Hd, Hd'. subst. reflexivity.
  - destruct C as (c & r & -> & C), C' as (c' & r' & -> & C').
    assert (K : forall c, one_of ";#*|-" c = true -> In c [59; 35; 42; 124; 45]%N).
    { clear. intros c H. unfold one_of in H. apply existsb_exists in H as (d & I & E). apply N.eqb_eq in E. subst d. exact I. }
    apply K in C, C'. clear K. destruct m as [|xi]; cbn [step].
    + assert (T : forall inc j c r, In c [59; 35; 42; 124; 45]%N -> top_line inc j (c :: r) = Ok (Continue Top j)).
      { clear. intros inc j c r H. repeat destruct H as [<-|H]; try contradiction; reflexivity. }
      rewrite !T by assumption. split; [reflexivity|exact J].
    + rewrite !xact_other; [reflexivity| |]; intros X; cbn in *; intuition (subst; discriminate).
Qed.
Lemma parse_lines_aside inc inc' l l' : inc_beside inc inc' -> source_beside l l' -> forall m j j', journal_beside j j' ->
  same_outcome journal_beside (parse_lines inc m j l) (parse_lines inc' m j' l').
Proof.
  intros In F. induction F as [|a b l l' H F IH]; intros m j j' J; cbn [parse_lines].
  - destruct m; [exact J|apply finalize_aside, J].
  - eapply same_outcome_bind; [apply step_aside; [exact In|exact J|exact H]|]. intros [m1 j1|j1] [m2 j2|j2] K; cbn in K; try contradiction; [|exact K].
    destruct K as [<- K]. apply IH, K.
Qed.
Lemma include_aside fs fs' cwd : files_beside fs fs' -> forall depth, inc_beside (include_file depth cwd fs) (include_file depth cwd fs').
Proof.
  intros F. induction depth as [|d IH]; intros arg j j' J; cbn [include_file]; [exact I|].
  eapply (same_outcome_bind (opt_rel source_beside)).
  - unfold included. assert (G : same_outcome (opt_rel source_beside) (Ok (fs (resolve cwd arg))) (Ok (fs' (resolve cwd arg)))) by apply F.
    destruct (path_components (resolve cwd arg)) as [|a [|b l]]; [reflexivity| |exact G].
    destruct (resolve cwd arg) as [|c x]; [exact I|]. destruct c as [|c]; [exact I|]. do 6 (destruct c as [c|c|]; try exact I; try exact G).
  - intros o o' O. destruct o as [s|], o' as [s'|]; cbn in O; try contradiction; [|exact J]. apply parse_lines_aside; assumption.
Qed.
Theorem reading_aside depth cwd fs fs' src src' j j' : files_beside fs fs' -> source_beside src src' -> journal_beside j j' ->
  same_outcome journal_beside (read_into_journal depth cwd fs src j) (read_into_journal depth cwd fs' src' j').
Proof. intros F S J. apply parse_lines_aside; [apply include_aside, F|exact S|exact J]. Qed.

(** ** The reports *)
Lemma post_at_aside xs xs' r : Forall2 xact_beside xs xs' -> opt_rel post_beside (get_post xs r) (get_post xs' r).
Proof.
  intros F. unfold get_post. assert (N := nth_rel _ _ _ (fst r) F). destruct (nth_error xs (fst r)), (nth_error xs' (fst r)); cbn in N; try contradiction; [|exact I].
  apply nth_rel, N.
Qed.
Lemma amount_aside xs xs' refs : Forall2 xact_beside xs xs' -> account_amount xs refs = account_amount xs' refs.
Proof.
  intros F. unfold account_amount. generalize bal_new. induction refs as [|r refs IH]; intros b; cbn [fold_outcome]; [reflexivity|].
  assert (P := post_at_aside _ _ r F). destruct (get_post xs r) as [p|], (get_post xs' r) as [p'|]; cbn in P; try contradiction; [|reflexivity].
  destruct P as (_ & A & _). rewrite <- A. destruct (po_amount p); [destruct (bal_add b a)|]; cbn [bind]; auto.
Qed.
Lemma total_aside xs xs' : Forall2 xact_beside xs xs' -> forall a, account_total xs a = account_total xs' a.
Proof.
  intros F. apply account_ind'. intros n cs ps IH. cbn [account_total ac_children ac_posts]. rewrite <- (amount_aside _ _ ps F).
  assert (E : map (fun c => (ac_name c, account_total xs c)) cs = map (fun c => (ac_name c, account_total xs' c)) cs) by (apply map_ext_in; intros c Hc; rewrite (IH c Hc); reflexivity).
  cbn in E |- *. rewrite E. reflexivity.
Qed.
Lemma lines_aside xs xs' : Forall2 xact_beside xs xs' -> forall a p, children_lines xs p a = children_lines xs' p a.
Proof.
  intros F. apply (account_ind' (fun a => forall p, children_lines xs p a = children_lines xs' p a)).
  intros n cs ps IH p. cbn [children_lines ac_children]. rewrite <- (total_aside _ _ F).
  match goal with |- bind ?o ?k = bind ?o ?k' => destruct o as [b| |]; [|reflexivity|reflexivity]; cbn [bind] end.
  f_equal. f_equal. apply map_ext_in. intros c Hc. rewrite (IH c Hc). reflexivity.
Qed.
Theorem report_aside j j' : journal_beside j j' -> balance_report j = balance_report j' /\ report_accounts j = report_accounts j'.
Proof. intros (M & _ & X). unfold balance_report, report_accounts. rewrite <- M. split; [apply lines_aside, X|reflexivity]. Qed.
Lemma aside_new : journal_beside journal_new journal_new.
Proof. repeat split; constructor. Qed.
Lemma files_aside depth cwd fs fs' files : files_beside fs fs' -> same_outcome journal_beside (read_journal_files depth cwd fs files) (read_journal_files depth cwd fs' files).
Proof.
  intros F. unfold read_journal_files. eapply (fold_congr eq); [apply eq_rel| |exact aside_new]. intros j j' f _ J <-. unfold parse_file. assert (S := F f).
  destruct (fs f), (fs' f); cbn in S; try contradiction; [|reflexivity]. apply reading_aside; assumption.
Qed.
Theorem run_aside depth cwd fs fs' args : files_beside fs fs' -> run depth cwd fs args = run depth cwd fs' args.
Proof.
  intros F. apply eq_outcome. unfold run. eq_step. intros [commands files] _ <-.
  unfold execute_command. eq_step. intros verb _ <-.
  eapply same_outcome_bind; [apply files_aside, F|]. intros j j' J. destruct (report_aside _ _ J) as [R A]. rewrite <- R, <- A. apply same_outcome_refl. reflexivity.
Qed.
