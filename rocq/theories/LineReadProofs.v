(** The scanner on any line. *)
From Coq Require Import String List NArith ZArith Bool Lia ZifyBool ZifyNat ZifyN.
From Verif Require Import Base Scanner SpecText SpecReading SpecScan SpecLine.
From Verif Require Import BaseFacts ScanFacts ScanProofs.
Import ListNotations.
Open Scope nat_scope.

(** ** Runs of characters *)
Definition split_run (p : N -> bool) (s : str) : str * str :=
  match find_char (fun c => negb (p c)) s with Some i => (firstn i s, skipn i s) | None => (s, []) end.
Lemma run_split p s x r : run_of p s x r <-> split_run p s = (x, r).
Proof.
  unfold split_run. split.
  - intros (-> & F & H). assert (F' : forallb (fun c => negb (negb (p c))) x = true) by (rewrite <- F; apply forallb_ext; intros; apply negb_involutive).
    apply (span_find (fun c => negb (p c)) x r F'). destruct r as [|c r]; cbn; [exact I|]. rewrite H. reflexivity.
  - intros E. destruct (find_char _ s) as [i|] eqn:Fc.
    + apply find_char_some in Fc as (c & t & S & P & _ & F & Sk). rewrite Sk in E. injection E as <- <-. split; [exact S|].
      split; [rewrite <- F; symmetry; apply forallb_ext; intros; apply negb_involutive|]. apply negb_true_iff, P.
    + injection E as <- <-. apply find_char_none in Fc. split; [symmetry; apply app_nil_r|]. split; [|exact I]. rewrite <- Fc. symmetry. apply forallb_ext. intros; apply negb_involutive.
Qed.
Lemma run_ext p q s x r : (forall c, p c = q c) -> run_of p s x r <-> run_of q s x r.
Proof.
  intros E. unfold run_of. rewrite (forallb_ext p q) by exact E. destruct r; [tauto|]. rewrite E. tauto.
Qed.
Lemma run_total p s : exists x r, run_of p s x r.
Proof. destruct (split_run p s) as [x r] eqn:E. exists x, r. apply run_split, E. Qed.
Lemma skip_trim s r : skip s r <-> trim_start s = r.
Proof.
  split.
  - intros (w & -> & W & H). rewrite trim_start_app by exact W. apply trim_start_id. destruct r; [reflexivity|exact H].
  - intros <-. destruct (trim_start_spec s) as (w & E & W & H). exists w. split; [exact E|]. split; [exact W|]. destruct (trim_start s); [exact I|exact H].
Qed.
Lemma spaces_trim s : spaces s <-> trim_start s = [].
Proof.
  split; [apply trim_start_ws|]. intros E. destruct (trim_start_spec s) as (w & S & W & _). rewrite E, app_nil_r in S. subst. exact W.
Qed.
Lemma strip_trim s t : strip s t <-> trim s = t.
Proof.
  unfold trim. split.
  - intros (w & w' & -> & W & W' & [->|(c & r & d & q & E & E' & C & D)]).
    + rewrite trim_start_app by exact W. cbn [app]. rewrite trim_start_ws by exact W'. reflexivity.
    + rewrite trim_start_app by exact W. rewrite trim_start_id by (rewrite E; exact C). rewrite trim_end_app by exact W'. apply trim_end_id. unfold ends_ws. rewrite E', rev_app_distr. exact D.
  - intros <-. destruct (trim_start_spec s) as (w & S & W & H). set (u := trim_start s) in *. clearbody u. subst s.
    assert (T : exists w', u = trim_end u ++ w' /\ spaces w' /\ (trim_end u = [] \/ exists q d, trim_end u = q ++ [d] /\ is_ws d = false)).
    { unfold trim_end. destruct (trim_start_spec (rev u)) as (v & E & V & K). fold (trim_start (rev u)). exists (rev v).
      split; [rewrite <- rev_app_distr, <- E; symmetry; apply rev_involutive|]. split; [unfold spaces; rewrite forallb_forall in *; intros x I; apply V, in_rev, I|].
      destruct (trim_start (rev u)) as [|d q]; [left; reflexivity|]. right. exists (rev q), d. split; [reflexivity|exact K]. }
    destruct T as (w' & E & W' & T). exists w, w'. split; [f_equal; exact E|]. split; [exact W|]. split; [exact W'|].
    destruct T as [T|(q & d & T & D)]; [left; exact T|]. right. destruct u as [|c u0]; [destruct q; cbn in T; discriminate|].
    destruct (trim_end (c :: u0)) as [|c' r] eqn:E2; [destruct q; discriminate|]. injection E as <- _. exists c, r, d, q. auto.
Qed.
Lemma first_find pat front s a b : pat <> [] -> front = removelast pat -> first_at pat front s a b <-> exists i, find_sub pat s = Some i /\ a = firstn i s /\ b = skipn (i + length pat) s.
Proof.
  intros Np ->. split.
  - intros [-> N]. exists (length a). rewrite find_sub_at by assumption. split; [reflexivity|].
    split; [symmetry; apply firstn_app_exact|]. rewrite app_assoc, <- app_length. symmetry. apply skipn_app_exact.
  - intros (i & F & -> & ->).
    assert (G : forall s i, find_sub pat s = Some i -> s = firstn i s ++ pat ++ skipn (i + length pat) s /\ ~ contains pat (firstn i s ++ removelast pat)).
    { clear s i F. induction s as [|c s IH]; intros i F; rewrite find_sub_eq in F.
      - destruct (starts_with pat []) eqn:S; [|discriminate]. destruct pat; [contradiction|discriminate].
      - destruct (starts_with pat (c :: s)) eqn:S.
        + injection F as <-. cbn [firstn app Nat.add]. split.
          * clear -S. revert S. generalize (c :: s). clear. intros l. revert l. induction pat as [|p pat IH]; intros l S; [reflexivity|]. destruct l as [|x l]; [discriminate|]. cbn in S. apply andb_prop in S as [E S]. apply N.eqb_eq in E. subst x. cbn. f_equal. apply IH, S.
          * intros (u & v & E). assert (L := f_equal (@length N) E). rewrite !app_length in L.
            assert (length (removelast pat) < length pat). { clear -Np. destruct (exists_last Np) as (q & d & ->). rewrite removelast_last, app_length. cbn. lia. } lia.
        + destruct (find_sub pat s) as [k|] eqn:Fk; [|discriminate]. injection F as <-. destruct (IH k eq_refl) as [E N]. cbn [firstn app Nat.add skipn]. split; [f_equal; exact E|].
          intros (u & v & E'). destruct u as [|y u].
          * cbn in E'. assert (X : starts_with pat (c :: s) = true); [|congruence].
            assert (Q : exists z, c :: s = (c :: firstn k s ++ removelast pat) ++ z).
            { destruct (exists_last Np) as (q & d & Ep). rewrite Ep in E. rewrite Ep, removelast_last. exists (d :: skipn (k + length (q ++ [d])) s). cbn [app]. f_equal. rewrite <- app_assoc. rewrite <- app_assoc in E. exact E. }
            destruct Q as (z & ->). rewrite E'. rewrite <- app_assoc. generalize (v ++ z). clear. intros l. induction pat; cbn; [reflexivity|]. rewrite N.eqb_refl. exact IHpat.
          * injection E' as <- E'. apply N. exists u, v. exact E'. }
    destruct (G _ _ F) as [E N]. split; assumption.
Qed.
Lemma find_none pat s : find_sub pat s = None <-> ~ contains pat s.
Proof. split; [apply find_sub_not|apply find_sub_none]. Qed.

Lemma find_ext p q s : (forall c, p c = q c) -> find_char p s = find_char q s.
Proof. intros E. induction s as [|c s IH]; cbn [find_char]; [reflexivity|]. rewrite E, IH. reflexivity. Qed.

(** ** Amounts *)
Lemma quantity_iff s q r : quantity_read s q r <-> scan_quantity s = (q, r).
Proof.
  unfold quantity_read, scan_quantity. assert (X : forall q r0, run_of in_quantity s q r0 <-> split_run is_qchar s = (q, r0)).
  { intros. rewrite <- run_split. apply run_ext. apply is_qchar_eq. }
  unfold split_run in X. split.
  - intros (r0 & R & K). apply X in R. apply skip_trim in K. destruct (find_char _ s); injection R as <- <-; rewrite <- K; reflexivity.
  - intros E. destruct (find_char _ s) as [i|] eqn:F.
    + injection E as <- <-. exists (skipn i s). split; [apply X; reflexivity|apply skip_trim; reflexivity].
    + injection E as <- <-. exists []. split; [apply X; reflexivity|apply skip_trim; reflexivity].
Qed.
Lemma symbol_iff s y r : symbol_read s y r <-> scan_symbol s = (y, r).
Proof.
  unfold symbol_read, scan_symbol. assert (X : forall u q r0, run_of in_symbol u q r0 <-> match find_char is_sym_end u with Some i => (firstn i u, skipn i u) | None => (u, []) end = (q, r0)).
  { intros u q r0. rewrite run_split. unfold split_run, in_symbol. assert (Z : find_char (fun c => negb (negb (is_ws c || is_digit c || one_of "@-" c))) u = find_char is_sym_end u).
    { clear. induction u as [|c u IH]; cbn [find_char]; [reflexivity|]. rewrite IH, negb_involutive, is_sym_end_eq. reflexivity. }
    rewrite Z. tauto. }
  split.
  - intros (s1 & r0 & K1 & R & K). apply skip_trim in K1, K. subst s1. apply X in R. destruct (find_char _ (trim_start s)); injection R as <- <-; rewrite <- K; reflexivity.
  - intros E. exists (trim_start s). destruct (find_char is_sym_end (trim_start s)) as [i|] eqn:F.
    + injection E as <- <-. exists (skipn i (trim_start s)). split; [apply skip_trim; reflexivity|]. split; [apply X; rewrite F; reflexivity|apply skip_trim; reflexivity].
    + injection E as <- <-. exists []. split; [apply skip_trim; reflexivity|]. split; [apply X; rewrite F; reflexivity|apply skip_trim; reflexivity].
Qed.
Lemma amount_iff s q y r : amount_read s q y r <-> scan_amount s = Ok (q, y, r).
Proof.
  unfold amount_read, scan_amount. split.
  - intros (c & x & K & H). apply skip_trim in K. rewrite K. unfold in_quantity in H. rewrite is_qchar_eq in H. destruct H as [[-> (r1 & Q & Y)]|[-> (r1 & Y & Q)]].
    + apply quantity_iff in Q. apply symbol_iff in Y. rewrite Q, Y. reflexivity.
    + apply quantity_iff in Q. apply symbol_iff in Y. rewrite Y, Q. reflexivity.
  - destruct (trim_start s) as [|c x] eqn:K; [discriminate|]. intros E. exists c, x. split; [apply skip_trim, K|]. unfold in_quantity. rewrite is_qchar_eq. destruct (is_qchar c).
    + left. split; [reflexivity|]. destruct (scan_quantity (c :: x)) as [q1 r1] eqn:Q. destruct (scan_symbol r1) as [y1 r2] eqn:Y. injection E as <- <- <-.
      exists r1. split; [apply quantity_iff, Q|apply symbol_iff, Y].
    + right. split; [reflexivity|]. destruct (scan_symbol (c :: x)) as [y1 r1] eqn:Y. destruct (scan_quantity r1) as [q1 r2] eqn:Q. injection E as <- <- <-.
      exists r1. split; [apply symbol_iff, Y|apply quantity_iff, Q].
Qed.
Lemma amount_refused s : spaces s <-> exists p, scan_amount s = Panic p.
Proof.
  rewrite spaces_trim. unfold scan_amount. destruct (trim_start s) as [|c x]; [split; [intros _; eexists; reflexivity|reflexivity]|].
  split; [discriminate|]. intros (p & E). destruct (is_qchar c).
  - destruct (scan_quantity (c :: x)) as [q1 r1]. destruct (scan_symbol r1). discriminate.
  - destruct (scan_symbol (c :: x)) as [q1 r1]. destruct (scan_quantity r1). discriminate.
Qed.
Lemma amount_no_diverge s : scan_amount s <> Diverge.
Proof.
  unfold scan_amount. destruct (trim_start s) as [|c x]; [discriminate|]. destruct (is_qchar c).
  - destruct (scan_quantity (c :: x)) as [q1 r1]. destruct (scan_symbol r1). discriminate.
  - destruct (scan_symbol (c :: x)) as [q1 r1]. destruct (scan_quantity r1). discriminate.
Qed.

(** ** Lots *)
Lemma until_iff s sep t r : scan_until s sep = Ok (t, r) <-> exists s1, r = sep :: s1 /\ s = t ++ sep :: s1 /\ ~ In sep t.
Proof.
  unfold scan_until. split.
  - destruct (find_char _ s) as [i|] eqn:F; [|discriminate]. intros E. apply find_char_some in F as (c & x & S & P & _ & Fa & Sk). rewrite Sk in E. injection E as <- <-.
    apply N.eqb_eq in P. subst c. exists x. split; [reflexivity|]. split; [exact S|]. intros I. rewrite forallb_forall in Fa. apply Fa in I. rewrite N.eqb_refl in I. discriminate.
  - intros (s1 & -> & -> & N). rewrite find_char_here; [rewrite firstn_app_exact, skipn_app_exact; reflexivity| |apply N.eqb_refl].
    rewrite forallb_forall. intros x I. apply negb_true_iff, N.eqb_neq. intros ->. exact (N I).
Qed.
Lemma until_none (s : str) (sep : char) : ~ In sep s -> scan_until s sep = Panic PExplicit.
Proof.
  intros N. unfold scan_until. rewrite (proj2 (find_char_none _ s)); [reflexivity|]. rewrite forallb_forall. intros x I. apply negb_true_iff, N.eqb_neq. intros ->. exact (N I).
Qed.
Lemma until_cases (s : str) (sep : char) : (exists t s1, s = t ++ sep :: s1 /\ ~ In sep t) \/ ~ In sep s.
Proof.
  destruct (scan_until s sep) as [[t r]|p|] eqn:E.
  - left. apply until_iff in E as (s1 & _ & S & N). exists t, s1. auto.
  - right. intros I. unfold scan_until in E. destruct (find_char _ s) eqn:F; [discriminate|]. apply find_char_none in F. rewrite forallb_forall in F. apply F in I. rewrite N.eqb_refl in I. discriminate.
  - unfold scan_until in E. destruct (find_char _ s); discriminate.
Qed.
Lemma date_iff s d r : date_read s d r <-> scan_date s = (d, r).
Proof.
  unfold date_read. rewrite run_split. unfold split_run, scan_date.
  assert (Z : find_char (fun c => negb (negb (one_of " =" c))) s = find_char (fun c => (c =? 61) || (c =? 32))%N s).
  { clear. induction s as [|c s IH]; cbn [find_char]; [reflexivity|]. rewrite IH, negb_involutive. unfold one_of. cbn. destruct (c =? 32)%N, (c =? 61)%N; reflexivity. }
  rewrite Z. tauto.
Qed.
Lemma loop_price f y d tail : annotation_loop (S f) [] y d (123%N :: tail) =
  let* (amount, rest) := scan_until tail 125 in let* (q', s', _) := scan_amount amount in annotation_loop f q' s' d (trim_start (skipn 1 rest)).
Proof. reflexivity. Qed.
Lemma loop_date f q y tail : annotation_loop (S f) q y [] (91%N :: tail) =
  let* (date_input, rest) := scan_until tail 93 in let '(d', _) := scan_date date_input in annotation_loop f q y d' (trim_start (skipn 1 rest)).
Proof. reflexivity. Qed.
Lemma shorter t s1 s2 f c : skip s1 s2 -> length (c :: t ++ [c] ++ s1) <= S f -> length s2 <= f.
Proof. intros (w & -> & _). cbn. rewrite !app_length. cbn. rewrite app_length. lia. Qed.
Lemma lots_ok q y d s q2 y2 d2 r : lots_read q y d s q2 y2 d2 r -> forall fuel, length s <= fuel -> annotation_loop fuel q y d s = Ok ((q2, y2, d2), r).
Proof.
  induction 1 as [q y d s E|y d s t s1 s2 q1 y1 r1 q2 y2 d2 r -> N A K L IH|q y s t s1 s2 d1 r1 q2 y2 d2 r -> N D K L IH]; intros fuel Lf.
  - destruct s as [|c s]; [destruct fuel; reflexivity|]. unfold one_of in E. cbn in E. destruct fuel; [cbn in Lf; lia|]. cbn [annotation_loop].
    destruct (N.eqb_spec c 123); [discriminate|]. destruct (N.eqb_spec c 91); [discriminate|].
    destruct (N.eqb_spec c 40); [discriminate|]. reflexivity.
  - destruct fuel as [|f]; [cbn in Lf; lia|]. change (lit "{" ++ t ++ lit "}" ++ s1) with (123%N :: t ++ 125%N :: s1). rewrite loop_price.
    rewrite (proj2 (until_iff (t ++ 125%N :: s1) 125 t (125%N :: s1))) by (exists s1; auto). cbn [bind]. apply amount_iff in A. rewrite A. cbn [bind skipn].
    rewrite (proj1 (skip_trim s1 s2)) by exact K. apply IH. apply (shorter t s1 s2 f 123%N K). revert Lf. cbn. rewrite !app_length. cbn. lia.
  - destruct fuel as [|f]; [cbn in Lf; lia|]. change (lit "[" ++ t ++ lit "]" ++ s1) with (91%N :: t ++ 93%N :: s1). rewrite loop_date.
    rewrite (proj2 (until_iff (t ++ 93%N :: s1) 93 t (93%N :: s1))) by (exists s1; auto). cbn [bind]. apply date_iff in D. rewrite D. cbn [skipn].
    rewrite (proj1 (skip_trim s1 s2)) by exact K. apply IH. apply (shorter t s1 s2 f 123%N K). revert Lf. cbn. rewrite !app_length. cbn. lia.
Qed.
Lemma lots_panic q d s : lots_refused q d s -> forall y fuel, length s <= fuel -> exists p, annotation_loop fuel q y d s = Panic p.
Proof.
  induction 1 as [q d s|q d s Q|q d s D|q d s N|q d s N|q d t s S|d t s1 s2 q1 y1 r1 N A K L IH|q t s1 s2 d1 r1 N D K L IH]; intros y fuel Lf;
    (destruct fuel as [|f]; [cbn in Lf; lia|]).
  - eexists. reflexivity.
  - destruct q; [contradiction|]. eexists. reflexivity.
  - destruct d; [contradiction|]. eexists. reflexivity.
  - destruct q; [|eexists; reflexivity]. rewrite loop_price, (until_none _ _ N). eexists. reflexivity.
  - destruct d; [|eexists; reflexivity]. rewrite loop_date, (until_none _ _ N). eexists. reflexivity.
  - destruct q; [|eexists; reflexivity]. change (lit "{" ++ t ++ lit "}" ++ s) with (123%N :: t ++ 125%N :: s). rewrite loop_price.
    rewrite (proj2 (until_iff (t ++ 125%N :: s) 125 t (125%N :: s))).
    + cbn [bind]. destruct (proj1 (amount_refused t) S) as (p & ->). eexists. reflexivity.
    + exists s. split; [reflexivity|]. split; [reflexivity|]. intros I. unfold spaces in S. rewrite forallb_forall in S. apply S in I. discriminate.
  - change (lit "{" ++ t ++ lit "}" ++ s1) with (123%N :: t ++ 125%N :: s1). rewrite loop_price.
    rewrite (proj2 (until_iff (t ++ 125%N :: s1) 125 t (125%N :: s1))) by (exists s1; auto). cbn [bind]. apply amount_iff in A. rewrite A. cbn [bind skipn].
    rewrite (proj1 (skip_trim s1 s2)) by exact K. apply IH. apply (shorter t s1 s2 f 123%N K). revert Lf. cbn. rewrite !app_length. cbn. lia.
  - change (lit "[" ++ t ++ lit "]" ++ s1) with (91%N :: t ++ 93%N :: s1). rewrite loop_date.
    rewrite (proj2 (until_iff (t ++ 93%N :: s1) 93 t (93%N :: s1))) by (exists s1; auto). cbn [bind]. apply date_iff in D. rewrite D. cbn [skipn].
    rewrite (proj1 (skip_trim s1 s2)) by exact K. apply IH. apply (shorter t s1 s2 f 123%N K). revert Lf. cbn. rewrite !app_length. cbn. lia.
Qed.
(** One of the two always holds. *)
Lemma lots_cases n : forall q y d s, length s <= n -> (exists q2 y2 d2 r, lots_read q y d s q2 y2 d2 r) \/ lots_refused q d s.
Proof.
  induction n as [|n IH]; intros q y d s L.
  - destruct s; [|cbn in L; lia]. left. exists q, y, d, []. apply lr_end. exact I.
  - destruct s as [|c s]; [left; exists q, y, d, []; apply lr_end; exact I|]. cbn in L.
    destruct (N.eq_dec c 123) as [->|N1].
    { destruct q as [|qc q]; [|right; apply lf_price_again; discriminate]. destruct (until_cases s 125) as [(t & s1 & -> & Nt)|N]; [|right; apply lf_price_open, N].
      destruct (scan_amount t) as [[[q1 y1] r1]|p|] eqn:A.
      - apply amount_iff in A. destruct (IH q1 y1 d (trim_start s1)) as [(q2 & y2 & d2 & r & H)|H].
        + apply (shorter t s1 (trim_start s1) n 123%N); [apply skip_trim; reflexivity|]. revert L. cbn. rewrite !app_length. cbn. lia.
        + left. exists q2, y2, d2, r. apply (lr_price y d _ t s1 (trim_start s1) q1 y1 r1); auto. apply skip_trim. reflexivity.
        + right. apply (lf_price d t s1 (trim_start s1) q1 y1 r1); auto. apply skip_trim. reflexivity.
      - right. apply (lf_price_empty [] d t s1). apply amount_refused. exists p. exact A.
      - elim (amount_no_diverge _ A). }
    destruct (N.eq_dec c 91) as [->|N2].
    { destruct d as [|dc d]; [|right; apply lf_date_again; discriminate]. destruct (until_cases s 93) as [(t & s1 & -> & Nt)|N]; [|right; apply lf_date_open, N].
      destruct (run_total (fun c => negb (one_of " =" c)) t) as (d1 & r1 & D).
      destruct (IH q y d1 (trim_start s1)) as [(q2 & y2 & d2 & r & H)|H].
      - apply (shorter t s1 (trim_start s1) n 123%N); [apply skip_trim; reflexivity|]. revert L. cbn. rewrite !app_length. cbn. lia.
      - left. exists q2, y2, d2, r. apply (lr_date q y _ t s1 (trim_start s1) d1 r1); auto. apply skip_trim. reflexivity.
      - right. apply (lf_date q t s1 (trim_start s1) d1 r1); auto. apply skip_trim. reflexivity. }
    destruct (N.eq_dec c 40) as [->|N3]; [right; apply lf_paren|]. left. exists q, y, d, (c :: s). apply lr_end. unfold one_of. cbn.
    apply N.eqb_neq in N1, N2, N3. rewrite N1, N2, N3. reflexivity.
Qed.
Lemma lots_iff s q2 y2 d2 r : trim_start s = s -> lots_read [] [] [] s q2 y2 d2 r <-> scan_annotations s = Ok ((q2, y2, d2), r).
Proof.
  intros T. unfold scan_annotations. rewrite T. split; [intros H; apply lots_ok; [exact H|apply Nat.le_refl]|]. intros E.
  destruct (lots_cases (length s) [] [] [] s (Nat.le_refl _)) as [(q & y & d & r' & H)|H].
  - rewrite (lots_ok _ _ _ _ _ _ _ _ H _ (Nat.le_refl _)) in E. injection E as -> -> -> ->. exact H.
  - destruct (lots_panic _ _ _ H [] _ (Nat.le_refl _)) as (p & E'). rewrite E' in E. discriminate.
Qed.
Lemma lots_refused_iff s : trim_start s = s -> lots_refused [] [] s <-> exists p, scan_annotations s = Panic p.
Proof.
  intros T. unfold scan_annotations. rewrite T. split; [intros H; apply lots_panic; [exact H|apply Nat.le_refl]|]. intros (p & E).
  destruct (lots_cases (length s) [] [] [] s (Nat.le_refl _)) as [(q & y & d & r' & H)|H]; [|exact H].
  rewrite (lots_ok _ _ _ _ _ _ _ _ H _ (Nat.le_refl _)) in E. discriminate.
Qed.
Lemma lots_no_diverge s : scan_annotations s <> Diverge.
Proof.
  unfold scan_annotations. destruct (lots_cases (length (trim_start s)) [] [] [] (trim_start s) (Nat.le_refl _)) as [(q & y & d & r' & H)|H].
  - rewrite (lots_ok _ _ _ _ _ _ _ _ H _ (Nat.le_refl _)). discriminate.
  - destruct (lots_panic _ _ _ H [] _ (Nat.le_refl _)) as (p & ->). discriminate.
Qed.

(** ** Costs *)
Lemma drop1 c s : drop_bytes 1 (c :: s) = if (c <? 128)%N then Ok s else Panic PSlice.
Proof.
  cbn [drop_bytes]. unfold utf8_len. destruct (c <? 128)%N; [cbn; destruct s; reflexivity|]. destruct (c <? 2048)%N; [reflexivity|]. destruct (c <? 65536)%N; reflexivity.
Qed.
Lemma cost_unit c s : c <> 64%N -> scan_cost (64%N :: c :: s) = let* r := drop_bytes 1 (c :: s) in let* (q, y, _) := scan_amount (trim_start r) in Ok (q, y, true).
Proof.
  intros N. unfold scan_cost.
  assert (E : (match c :: s with 64%N :: _ => (3, false) | _ => (2, true) end) = (2, true)).
  { destruct c as [|c]; [reflexivity|]. do 7 (destruct c as [c|c|]; try reflexivity). contradiction. }
  rewrite E. reflexivity.
Qed.
Lemma cost_total s : scan_cost (64%N :: 64%N :: s) = let* r := drop_bytes 1 s in let* (q, y, _) := scan_amount (trim_start r) in Ok (q, y, false).
Proof. reflexivity. Qed.
Lemma cost_other s : hd_error s <> Some 64%N -> scan_cost s = Ok ([], [], false).
Proof.
  destruct s as [|c s]; [reflexivity|]. intros N. unfold scan_cost. destruct c as [|c]; [reflexivity|]. do 7 (destruct c as [c|c|]; try reflexivity). elim N. reflexivity.
Qed.
Lemma amount_trim s : scan_amount (trim_start s) = scan_amount s.
Proof. unfold scan_amount. rewrite trim_idem. reflexivity. Qed.
Lemma cost_ok s q y u : cost_read s q y u -> scan_cost s = Ok (q, y, u).
Proof.
  intros [s' N|c s' q' y' r N W A|c s' q' y' r W A].
  - apply cost_other, N.
  - change (lit "@" ++ c :: s') with (64%N :: c :: s'). rewrite cost_unit, drop1 by exact N. apply N.ltb_lt in W. rewrite W. cbn [bind]. rewrite amount_trim. apply amount_iff in A. rewrite A. reflexivity.
  - change (lit "@@" ++ c :: s') with (64%N :: 64%N :: c :: s'). rewrite cost_total, drop1. apply N.ltb_lt in W. rewrite W. cbn [bind]. rewrite amount_trim. apply amount_iff in A. rewrite A. reflexivity.
Qed.
Lemma cost_panic s : cost_refused s -> exists p, scan_cost s = Panic p.
Proof.
  intros [| |c s' W|c s' W|c s' N S|c s' S].
  - eexists. reflexivity.
  - eexists. reflexivity.
  - change (lit "@" ++ c :: s') with (64%N :: c :: s'). rewrite cost_unit, drop1 by (intros ->; lia). apply N.ltb_ge in W. rewrite W. eexists. reflexivity.
  - change (lit "@@" ++ c :: s') with (64%N :: 64%N :: c :: s'). rewrite cost_total, drop1. apply N.ltb_ge in W. rewrite W. eexists. reflexivity.
  - change (lit "@" ++ c :: s') with (64%N :: c :: s'). rewrite cost_unit, drop1 by exact N. destruct (c <? 128)%N; [|eexists; reflexivity]. cbn [bind]. rewrite amount_trim.
    destruct (proj1 (amount_refused s') S) as (p & ->). eexists. reflexivity.
  - change (lit "@@" ++ c :: s') with (64%N :: 64%N :: c :: s'). rewrite cost_total, drop1. destruct (c <? 128)%N; [|eexists; reflexivity]. cbn [bind]. rewrite amount_trim.
    destruct (proj1 (amount_refused s') S) as (p & ->). eexists. reflexivity.
Qed.
Lemma cost_cases s : (exists q y u, cost_read s q y u) \/ cost_refused s.
Proof.
  destruct s as [|c s]; [left; exists [], [], false; apply cr_none; discriminate|]. destruct (N.eq_dec c 64) as [->|N]; [|left; exists [], [], false; apply cr_none; cbn; congruence].
  destruct s as [|c s]; [right; apply cf_end|]. destruct (N.eq_dec c 64) as [->|N].
  - destruct s as [|c s]; [right; apply cf_end_total|]. destruct (N.lt_ge_cases c 128) as [W|W]; [|right; apply cf_wide_total, W].
    destruct (scan_amount s) as [[[q y] r]|p|] eqn:A; [|right; apply cf_total, amount_refused; exists p; exact A|elim (amount_no_diverge _ A)].
    left. exists q, y, false. apply (cr_total c s q y r W). apply amount_iff, A.
  - destruct (N.lt_ge_cases c 128) as [W|W]; [|right; apply cf_wide, W].
    destruct (scan_amount s) as [[[q y] r]|p|] eqn:A; [|right; apply cf_unit; [exact N|apply amount_refused; exists p; exact A]|elim (amount_no_diverge _ A)].
    left. exists q, y, true. apply (cr_unit c s q y r N W). apply amount_iff, A.
Qed.

(** ** Postings *)
Lemma amount_rest s q y r : scan_amount s = Ok (q, y, r) -> trim_start r = r.
Proof.
  intros A. apply amount_iff in A as (c & x & _ & [[_ (r1 & _ & (s1 & r0 & _ & _ & K))]|[_ (r1 & _ & (r0 & _ & K))]]); apply skip_trim in K; subst r; apply trim_idem.
Qed.
Lemma post_start l c x : trim_start l = c :: x -> c <> 59%N -> scan_post l =
  match find_sub [32%N; 32%N] (c :: x) with
  | None => Ok (mkPT (trim_end (c :: x)) [] [] [] [] [] [] [] false)
  | Some i => let* (q, s, input) := scan_amount (skipn (i + 2) (c :: x)) in let* ((pq, ps, pd), input) := scan_annotations input in
      let* (cq, cs, pu) := scan_cost input in Ok (mkPT (firstn i (c :: x)) q s pq ps pd cq cs pu)
  end.
Proof.
  intros T N. unfold scan_post. rewrite T.
  assert (E : forall o : option nat, match c :: x with [] => Panic PExplicit | 59%N :: _ => Panic PExplicit | _ =>
      match o with None => Ok (mkPT (trim_end (c :: x)) [] [] [] [] [] [] [] false) | Some i => let account := firstn i (c :: x) in let* (q, s, input) := scan_amount (skipn (i + 2) (c :: x)) in let* ((pq, ps, pd), input) := scan_annotations input in
      let* (cq, cs, pu) := match input with [] => Ok ([], [], false) | _ => scan_cost input end in Ok (mkPT account q s pq ps pd cq cs pu) end end
      = match o with None => Ok (mkPT (trim_end (c :: x)) [] [] [] [] [] [] [] false) | Some i => let* (q, s, input) := scan_amount (skipn (i + 2) (c :: x)) in let* ((pq, ps, pd), input) := scan_annotations input in
      let* (cq, cs, pu) := match input with [] => Ok ([], [], false) | _ => scan_cost input end in Ok (mkPT (firstn i (c :: x)) q s pq ps pd cq cs pu) end).
  { intros o. destruct c as [|c]; [reflexivity|]. do 6 (destruct c as [c|c|]; try reflexivity). contradiction. }
  rewrite E. destruct (find_sub _ _) as [i|]; [|reflexivity]. destruct (scan_amount _) as [[[q y] r]| |]; [|reflexivity|reflexivity]. cbn [bind].
  destruct (scan_annotations r) as [[[[pq ps] pd] [|k r']]| |]; reflexivity.
Qed.
Lemma post_ok l tok : post_read l tok -> scan_post l = Ok tok.
Proof.
  intros [l' c x a w K N Nc E W (a' & d & Ea & D)|l' c x a b q y r lq ly d r' cq cy u K N F A L C]; apply skip_trim in K; rewrite (post_start _ _ _ K N).
  - apply find_none in Nc. change (lit "  ") with [32%N; 32%N] in Nc. rewrite Nc. rewrite E, trim_end_app by exact W. rewrite trim_end_id; [reflexivity|]. unfold ends_ws. rewrite Ea, rev_app_distr. exact D.
  - apply (first_find (lit "  ") sp) in F; [|discriminate|reflexivity]. destruct F as (i & F & -> & ->). change (lit "  ") with [32%N; 32%N] in F. rewrite F. cbn [length] in A.
    apply amount_iff in A. assert (T := amount_rest _ _ _ _ A). change (i + length (lit "  ")) with (i + 2) in A. rewrite A. cbn [bind]. apply (lots_iff r lq ly d r' T) in L. rewrite L. cbn [bind]. apply cost_ok in C. rewrite C. reflexivity.
Qed.
Lemma post_panic l : post_refused l -> exists p, scan_post l = Panic p.
Proof.
  assert (G : forall l s a b, skip l s -> first_at (lit "  ") sp s a b ->
    (exists p, scan_post l = Panic p) \/ exists i, scan_post l = let* (q, s0, input) := scan_amount b in let* ((pq, ps, pd), input) := scan_annotations input in
      let* (cq, cs, pu) := scan_cost input in Ok (mkPT (firstn i s) q s0 pq ps pd cq cs pu)).
  { intros l0 s a b K F. apply skip_trim in K. destruct s as [|c x].
    - destruct F as [E _]. destruct a; discriminate.
    - destruct (N.eq_dec c 59) as [->|N]; [left; unfold scan_post; rewrite K; eexists; reflexivity|].
      right. rewrite (post_start _ _ _ K N). apply (first_find (lit "  ") sp) in F; [|discriminate|reflexivity]. destruct F as (i & F & -> & ->). change (lit "  ") with [32%N; 32%N] in *. rewrite F. exists i. reflexivity. }
  intros [l' S|l' r K|l' s a b K F S|l' s a b q y r K F A L|l' s a b q y r lq ly d r' K F A L C].
  - apply spaces_trim in S. unfold scan_post. rewrite S. eexists. reflexivity.
  - apply skip_trim in K. unfold scan_post. rewrite K. eexists. reflexivity.
  - destruct (G _ _ _ _ K F) as [H|(i & ->)]; [exact H|]. destruct (proj1 (amount_refused b) S) as (p & ->). eexists. reflexivity.
  - destruct (G _ _ _ _ K F) as [H|(i & ->)]; [exact H|]. apply amount_iff in A. assert (T := amount_rest _ _ _ _ A). rewrite A. cbn [bind]. destruct (proj1 (lots_refused_iff r T) L) as (p & ->). eexists. reflexivity.
  - destruct (G _ _ _ _ K F) as [H|(i & ->)]; [exact H|]. apply amount_iff in A. assert (T := amount_rest _ _ _ _ A). rewrite A. cbn [bind]. apply (lots_iff r lq ly d r' T) in L. rewrite L. cbn [bind].
    destruct (cost_panic _ C) as (p & ->). eexists. reflexivity.
Qed.
Lemma post_cases l : (exists tok, post_read l tok) \/ post_refused l.
Proof.
  destruct (trim_start l) as [|c x] eqn:T; [right; apply pf_blank, spaces_trim, T|]. assert (K := proj2 (skip_trim l (c :: x)) T).
  destruct (N.eq_dec c 59) as [->|N]; [right; apply (pf_note l x K)|].
  destruct (find_sub (lit "  ") (c :: x)) as [i|] eqn:F.
  - assert (Fa : first_at (lit "  ") sp (c :: x) (firstn i (c :: x)) (skipn (i + length (lit "  ")) (c :: x))).
    { apply (first_find (lit "  ") sp); [discriminate|reflexivity|]. exists i. auto. }
    revert Fa. generalize (firstn i (c :: x)) (skipn (i + length (lit "  ")) (c :: x)). intros a b Fa.
    destruct (scan_amount b) as [[[q y] r]|p|] eqn:A; [|right; apply (pf_amount l _ a b K Fa), amount_refused; exists p; exact A|elim (amount_no_diverge _ A)].
    assert (A' := proj2 (amount_iff _ _ _ _) A). destruct (lots_cases (length r) [] [] [] r (Nat.le_refl _)) as [(lq & ly & d & r' & L)|L]; [|right; apply (pf_lots l _ a b q y r K Fa A' L)].
    destruct (cost_cases r') as [(cq & cy & u & C)|C]; [|right; apply (pf_cost l _ a b q y r lq ly d r' K Fa A' L C)].
    left. eexists. apply (pr_amount l c x a b q y r lq ly d r' cq cy u); assumption.
  - apply find_none in F. left.
    assert (Z : exists w, c :: x = trim_end (c :: x) ++ w /\ spaces w /\ exists a' d, trim_end (c :: x) = a' ++ [d] /\ is_ws d = false).
    { assert (Cw : is_ws c = false). { destruct (trim_start_spec l) as (w & _ & _ & H). rewrite T in H. exact H. }
      unfold trim_end. destruct (trim_start_spec (rev (c :: x))) as (v & E & V & H). fold (trim_start (rev (c :: x))). exists (rev v).
      split; [rewrite <- rev_app_distr, <- E; symmetry; apply rev_involutive|]. split; [unfold spaces; rewrite forallb_forall in *; intros z I; apply V, in_rev, I|].
      destruct (trim_start (rev (c :: x))) as [|d q]; [|exists (rev q), d; split; [reflexivity|exact H]].
      rewrite app_nil_r in E. exfalso. rewrite forallb_forall in V. rewrite <- E in V. rewrite (V c) in Cw; [discriminate|]. apply in_rev. rewrite rev_involutive. left. reflexivity. }
    destruct Z as (w & E & W & D). eexists. apply (pr_account l c x (trim_end (c :: x)) w K N F E W D).
Qed.
Theorem post_iff l tok : scan_post l = Ok tok <-> post_read l tok.
Proof.
  split; [|apply post_ok]. intros E. destruct (post_cases l) as [(tok' & H)|H].
  - rewrite (post_ok _ _ H) in E. injection E as ->. exact H.
  - destruct (post_panic _ H) as (p & E'). rewrite E' in E. discriminate.
Qed.
Theorem post_refused_iff l : (exists p, scan_post l = Panic p) <-> post_refused l.
Proof.
  split; [|apply post_panic]. intros (p & E). destruct (post_cases l) as [(tok' & H)|H]; [|exact H]. rewrite (post_ok _ _ H) in E. discriminate.
Qed.

(** ** Headers *)
Lemma aux_other c s : c <> 61%N -> tokenize_aux_date (c :: s) = ([], c :: s).
Proof. intros N. unfold tokenize_aux_date. destruct c as [|c]; [reflexivity|]. do 6 (destruct c as [c|c|]; try reflexivity). contradiction. Qed.
Lemma first_contains pat front s a b : first_at pat front s a b -> contains pat s.
Proof. intros [E _]. exists a, b. exact E. Qed.
Lemma aux_iff s aux r : aux_read s aux r <-> tokenize_aux_date s = (aux, r).
Proof.
  unfold aux_read, tokenize_aux_date. destruct s as [|c s]; [cbn; split; [intros [(_ & -> & ->)|(E & _)]; [reflexivity|discriminate]|intros [= <- <-]; left; repeat split; discriminate]|].
  destruct (N.eq_dec c 61) as [->|N].
  - cbn [hd_error].
    assert (X : forall x s1, run_of (fun c => (c =? 61)%N) (61%N :: s) x s1 <-> s1 = drop_while (fun c => (c =? 61)%N) (61%N :: s) /\ 61%N :: s = x ++ s1).
    { generalize (61%N :: s). clear. intros l x s1. split.
      - intros (-> & F & H). split; [|reflexivity]. induction x as [|c x IH]; cbn [app drop_while].
        + destruct s1 as [|d s1]; [reflexivity|]. cbn. rewrite H. reflexivity.
        + cbn in F. apply andb_prop in F as [F1 F2]. rewrite F1. apply IH, F2.
      - intros [-> E]. split; [exact E|]. revert x E. induction l as [|c l IH]; intros x E; cbn [drop_while] in *.
        + destruct x; [split; [reflexivity|exact I]|discriminate].
        + destruct (c =? 61)%N eqn:C.
          * destruct x as [|d x]; [exfalso|injection E as <- E; destruct (IH x E) as [F H]; split; [cbn; rewrite C; exact F|exact H]].
            cbn [app] in E. assert (L := f_equal (@length N) E). clear -L. assert (M : length (drop_while (fun c => (c =? 61)%N) l) <= length l) by (clear; induction l; cbn; [lia|]; destruct (_ =? _)%N; cbn; lia). cbn in L. lia.
          * destruct x as [|d x]; [split; [reflexivity|exact C]|exfalso]. assert (L := f_equal (@length N) E). rewrite app_length in L. cbn in L. lia. }
    split.
    + intros [(E & _)|(_ & x & s1 & R & A)]; [congruence|]. apply X in R as [-> _]. apply run_split in A. unfold split_run in A.
      rewrite (find_ext _ (fun c => (c =? 32)%N)) in A by (intros; apply negb_involutive). exact A.
    + intros E. right. split; [reflexivity|].
      assert (Y : exists x, 61%N :: s = x ++ drop_while (fun c => (c =? 61)%N) (61%N :: s)).
      { generalize (61%N :: s). clear. induction l as [|c l (x & E)]; [exists []; reflexivity|]. cbn [drop_while]. destruct (c =? 61)%N; [exists (c :: x); cbn; f_equal; exact E|exists []; reflexivity]. }
      destruct Y as (x & Ex). exists x, (drop_while (fun c => (c =? 61)%N) (61%N :: s)). split; [apply X; auto|]. apply run_split. unfold split_run.
      rewrite (find_ext _ (fun c => (c =? 32)%N)) by (intros; apply negb_involutive). exact E.
  - fold (tokenize_aux_date (c :: s)). rewrite aux_other by exact N. split; [intros [(_ & -> & ->)|(E & _)]; [reflexivity|cbn in E; congruence]|intros [= <- <-]; left; cbn; repeat split; congruence].
Qed.
Lemma payee_iff s payee note : payee_read s payee note <-> (let '(p, r) := tokenize_payee s in let* n := tokenize_note r in Ok (p, n)) = Ok (payee, note).
Proof.
  unfold payee_read, tokenize_payee. destruct (find_sub [32%N; 32%N; 59%N] s) as [i|] eqn:F.
  - assert (Fa : first_at (lit "  ;") (lit "  ") s (firstn i s) (skipn (i + length (lit "  ;")) s)).
    { apply (first_find (lit "  ;") (lit "  ")); [discriminate|reflexivity|]. exists i. auto. }
    assert (E : skipn i s = lit "  ;" ++ skipn (i + 3) s).
    { destruct Fa as [E _]. assert (L : length (firstn i s) = i).
      { apply firstn_length_le. destruct (Nat.le_gt_cases i (length s)) as [|G]; [assumption|]. exfalso. rewrite (skipn_all2 s) in E by (cbn; lia). rewrite firstn_all2 in E by lia.
        apply (f_equal (@length N)) in E. rewrite !app_length in E. cbn in E. lia. }
      apply (f_equal (skipn i)) in E. rewrite <- L in E at 2. rewrite skipn_app_exact in E. exact E. }
    rewrite E. cbn [lit app]. unfold tokenize_note.
    assert (D : drop_bytes 3 (lit "  ;" ++ skipn (i + 3) s) = Ok (skipn (i + 3) s)) by (destruct (skipn (i + 3) s); reflexivity).
    change (lit "  ;" ++ skipn (i + 3) s) with (32%N :: 32%N :: 59%N :: skipn (i + 3) s) in *. cbv beta iota. rewrite D. cbn [bind].
    split.
    + intros [(N & _)|(a & b & Fb & Sa & Sb)].
      * exfalso. apply N. eapply first_contains. exact Fa.
      * apply (first_find (lit "  ;") (lit "  ")) in Fb; [|discriminate|reflexivity]. destruct Fb as (k & Fk & -> & ->). change (lit "  ;") with [32%N; 32%N; 59%N] in Fk. rewrite F in Fk. injection Fk as <-.
        apply strip_trim in Sa, Sb. rewrite Sa. change (i + length (lit "  ;")) with (i + 3) in Sb. rewrite Sb. reflexivity.
    + intros [= <- <-]. right. exists (firstn i s), (skipn (i + 3) s). split; [exact Fa|]. split; apply strip_trim; reflexivity.
  - cbn [bind tokenize_note]. change [32%N; 32%N; 59%N] with (lit "  ;") in F. apply find_none in F. split.
    + intros [(_ & Sp & ->)|(a & b & Fb & _)]; [apply strip_trim in Sp; rewrite Sp; reflexivity|]. elim F. eapply first_contains. exact Fb.
    + intros [= <- <-]. left. split; [exact F|]. split; [apply strip_trim; reflexivity|reflexivity].
Qed.
Theorem header_iff l d aux payee note : tokenize_xact_header l = Ok (d, aux, payee, note) <-> header_read l d aux payee note.
Proof.
  unfold header_read, tokenize_xact_header. destruct l as [|c l]; [split; [discriminate|intros [N _]; congruence]|].
  destruct (scan_date (c :: l)) as [d1 r1] eqn:D. destruct (tokenize_aux_date r1) as [a1 r2] eqn:A. assert (P := payee_iff r2). destruct (tokenize_payee r2) as [p1 r3]. split.
  - intros E. split; [discriminate|]. inv_bind E. injection E as <- <- <- <-. exists r1, r2. split; [apply date_iff, D|]. split; [apply aux_iff, A|]. apply P. rewrite EQ. reflexivity.
  - intros (_ & r1' & r2' & D' & A' & P'). apply date_iff in D'. rewrite D in D'. injection D' as <- <-. apply aux_iff in A'. rewrite A in A'. injection A' as <- <-. apply P in P'. inv_bind P'. injection P' as <- <-. rewrite EQ. reflexivity.
Qed.
Theorem header_total l : l <> [] -> exists d aux payee note, header_read l d aux payee note.
Proof.
  intros N. destruct (scan_date l) as [d1 r1] eqn:D. destruct (tokenize_aux_date r1) as [a1 r2] eqn:A.
  assert (P : exists payee note, payee_read r2 payee note).
  { destruct (find_sub (lit "  ;") r2) as [i|] eqn:F.
    - exists (trim (firstn i r2)), (trim (skipn (i + length (lit "  ;")) r2)). right. eexists. eexists. split; [apply first_find; [discriminate|reflexivity|exists i; auto]|]. split; apply strip_trim; reflexivity.
    - exists (trim r2), []. left. split; [apply find_none, F|]. split; [apply strip_trim; reflexivity|reflexivity]. }
  destruct P as (payee & note & P). exists d1, a1, payee, note. split; [exact N|]. exists r1, r2. split; [apply date_iff, D|]. split; [apply aux_iff, A|exact P].
Qed.

(** ** Price lines *)
Lemma item_iff s x r : item_read s x r <-> scan_price_element (trim_start s) = (x, r).
Proof.
  unfold item_read. split.
  - intros (s1 & K & R). apply skip_trim in K. subst s1. apply run_split in R. unfold split_run in R. rewrite (find_ext _ (fun c => (c =? 32) || (c =? 9))%N) in R by (intros; apply negb_involutive). exact R.
  - intros E. exists (trim_start s). split; [apply skip_trim; reflexivity|]. apply run_split. unfold split_run. rewrite (find_ext _ (fun c => (c =? 32) || (c =? 9))%N) by (intros; apply negb_involutive). exact E.
Qed.
Theorem price_iff l date time s q t : scan_price_directive l = Ok (date, time, s, q, t) <-> price_read l date time s q t.
Proof.
  unfold scan_price_directive, price_read. split.
  - intros E. destruct l as [|c r0]; [discriminate|]. rewrite drop1 in E. destruct (c <? 128)%N eqn:C; [|discriminate]. apply N.ltb_lt in C. cbn [bind] in E.
    destruct (scan_price_element (trim_start r0)) as [d1 r1] eqn:D. destruct (trim_start r1) as [|k r1'] eqn:K; [discriminate|].
    destruct (is_digit k) eqn:G.
    + destruct (scan_price_element (k :: r1')) as [t1 r2] eqn:T. destruct (scan_price_element (trim_start r2)) as [s1 r3] eqn:S1. destruct (scan_price_element (trim_start r3)) as [q1 r4] eqn:Q1.
      destruct (scan_price_element (trim_start r4)) as [y1 r5] eqn:Y1. injection E as <- <- <- <- <-. exists c, r0, r1, (k :: r1'), r2, r3, r4, r5.
      split; [reflexivity|]. split; [exact C|]. split; [apply item_iff, D|]. split; [apply skip_trim, K|]. split; [discriminate|].
      split; [left; split; [exact G|apply item_iff]|repeat split; apply item_iff; assumption]. rewrite <- K, trim_idem, K. exact T.
    + destruct (scan_price_element (trim_start (k :: r1'))) as [s1 r3] eqn:S1. destruct (scan_price_element (trim_start r3)) as [q1 r4] eqn:Q1.
      destruct (scan_price_element (trim_start r4)) as [y1 r5] eqn:Y1. injection E as <- <- <- <- <-. exists c, r0, r1, (k :: r1'), (k :: r1'), r3, r4, r5.
      split; [reflexivity|]. split; [exact C|]. split; [apply item_iff, D|]. split; [apply skip_trim, K|]. split; [discriminate|].
      split; [right; repeat split; exact G|repeat split; apply item_iff; assumption].
  - intros (c & r0 & r1 & k & r2 & r3 & r4 & r5 & -> & C & D & K & Nk & T & S1 & Q1 & Y1). apply item_iff in D, S1, Q1, Y1. apply skip_trim in K. apply N.ltb_lt in C. rewrite drop1, C. cbn [bind]. rewrite D, K.
    destruct k as [|kc k]; [congruence|]. cbn [starts_digit] in T. destruct T as [[G T]|(G & -> & ->)]; rewrite G.
    + apply item_iff in T. rewrite <- K, trim_idem, K in T. rewrite T, S1, Q1, Y1. reflexivity.
    + rewrite S1, Q1, Y1. reflexivity.
Qed.
Theorem price_refused_iff l : (exists p, scan_price_directive l = Panic p) <-> price_refused l.
Proof.
  unfold scan_price_directive, price_refused. split.
  - intros (p & E). destruct l as [|c r0]; [left; reflexivity|right]. exists c, r0. split; [reflexivity|]. rewrite drop1 in E. destruct (c <? 128)%N eqn:C; [right|left; apply N.ltb_ge, C]. cbn [bind] in E.
    destruct (scan_price_element (trim_start r0)) as [d1 r1] eqn:D. exists d1, r1. split; [apply item_iff, D|]. apply spaces_trim. destruct (trim_start r1) as [|k r1']; [reflexivity|exfalso].
    destruct (if is_digit k then _ else _) as [t1 r2]. destruct (scan_price_element (trim_start r2)) as [s1 r3]. destruct (scan_price_element (trim_start r3)) as [q1 r4]. destruct (scan_price_element (trim_start r4)). discriminate.
  - intros [->|(c & r0 & -> & H)]; [eexists; reflexivity|]. rewrite drop1. destruct (c <? 128)%N eqn:C; [|eexists; reflexivity]. apply N.ltb_lt in C. destruct H as [H|(d & r1 & D & S)]; [lia|]. cbn [bind].
    apply item_iff in D. rewrite D. apply spaces_trim in S. rewrite S. eexists. reflexivity.
Qed.
