(** What reading a transaction header adds to the journal. *)
From Coq Require Import String List NArith ZArith Bool Lia ZifyBool ZifyNat ZifyN.
From Verif Require Import Base Decimal Dates Amount Balance Scanner History Pool Account Journal Xact Parser.
From Verif Require Import SpecDecimal SpecAmount SpecDates SpecText SpecReading SpecScan.
From Verif Require Import BaseFacts DatesFacts ScanFacts ScanProofs.
From Verif Require PriceProofs.
Import ListNotations.
Open Scope nat_scope.

Lemma date_written_parse t d : date_written t d -> parse_date_opt t = Some d /\ is_empty t = false.
Proof.
  intros (y & m & n & -> & F & Ly & Lm & Ln & -> & V). rewrite !forallb_app in F. apply andb_prop in F as [Fy F]. apply andb_prop in F as [Fm Fn].
  split; [|destruct y; [discriminate|reflexivity]]. apply PriceProofs.date_text; auto.
Qed.
Lemma xact_create_written dt d auxt aux payee note : date_written dt d -> aux_written auxt aux ->
  xact_create dt auxt payee note
  = Ok (mkXact (Some d) aux (if is_empty payee then lit "Unknown Payee" else payee) (if is_empty note then None else Some note) []).
Proof.
  intros D A. apply date_written_parse in D as [D E]. unfold xact_create. rewrite E. unfold parse_date. rewrite D. cbn [bind unwrap].
  destruct A as [[-> ->]|(e & A & ->)]; [reflexivity|]. apply date_written_parse in A as [A Ea]. rewrite Ea, A. reflexivity.
Qed.
Lemma header_read j l dt d auxt aux payee note : header_line l dt auxt payee note -> date_written dt d -> aux_written auxt aux ->
  create_xact j l = Ok (mkJournal (j_master j) (j_pool j)
    (j_xacts j ++ [mkXact (Some d) aux payee (match note with [] => None | _ => Some note end) []])).
Proof.
  intros L D A. unfold create_xact. rewrite (header_scanned _ _ _ _ _ L). cbn [bind]. rewrite (xact_create_written _ _ _ _ payee note D A). cbn [bind].
  assert (is_empty payee = false) as ->. { inversion L; subst. match goal with H : trimmed _ |- _ => destruct H as (c & r & ? & ? & -> & _) end. reflexivity. }
  destruct note; reflexivity.
Qed.

(** ** Headers without payee *)
Lemma date_written_text t d : date_written t d -> date_text t.
Proof.
  intros D. split; [destruct (date_written_parse _ _ D); destruct t; discriminate|].
  destruct D as (y & m & n & -> & F & _). rewrite !forallb_app in *. apply andb_prop in F as [Fy F]. apply andb_prop in F as [Fm Fn].
  assert (K : forall s, forallb is_digit s = true -> forallb (fun c => negb (one_of " =" c)) s = true).
  { intros s F. apply forallb_forall. intros c Hc. rewrite forallb_forall in F. specialize (F c Hc). unfold is_digit in F. unfold one_of. cbn. lia. }
  rewrite (K y), (K m), (K n) by assumption. reflexivity.
Qed.
Lemma scan_date_all d : date_text d -> scan_date d = (d, []).
Proof.
  intros [_ F]. unfold scan_date. assert (find_char (fun c => (c =? 61)%N || (c =? 32)%N) d = None) as ->; [|reflexivity].
  apply find_char_none. rewrite <- F. apply forallb_ext. intros c. unfold one_of. cbn. lia.
Qed.
Lemma date_only j dt d : date_written dt d -> create_xact j dt = Ok (unknown j d None).
Proof.
  intros D. pose proof (date_written_text _ _ D) as T. unfold create_xact, tokenize_xact_header.
  destruct dt as [|c r]; [destruct T; congruence|]. rewrite scan_date_all by exact T. cbn [tokenize_aux_date].
  change (tokenize_payee []) with (@nil N, @nil N). cbn [tokenize_note bind].
  rewrite (xact_create_written _ d [] None [] [] D (or_introl (conj eq_refl eq_refl))). reflexivity.
Qed.
Lemma trim_spaces w : spaces w -> trim w = [].
Proof. intros S. unfold trim. rewrite trim_start_ws by exact S. reflexivity. Qed.
Lemma date_spaces j dt d w : date_written dt d -> spaces w -> create_xact j (dt ++ sp ++ w) = Ok (unknown j d None).
Proof.
  intros D S. pose proof (date_written_text _ _ D) as T. unfold create_xact, tokenize_xact_header.
  destruct (dt ++ sp ++ w) as [|c r] eqn:E; [destruct dt; discriminate|]. rewrite <- E.
  rewrite (scan_date_written dt (sp ++ w) T) by reflexivity. cbn [tokenize_aux_date sp app]. unfold tokenize_payee.
  assert (N : find_sub [32%N; 32%N; 59%N] (32%N :: w) = None).
  { apply find_sub_none. intros (u & v & X). assert (I : In 59%N (32%N :: w)) by (rewrite X, !in_app_iff; right; left; cbn; auto).
    revert I. apply spaces_no; [exact S|reflexivity]. }
  rewrite N. assert (trim (32%N :: w) = []) as -> by (apply trim_spaces; exact S). cbn [tokenize_note bind].
  rewrite (xact_create_written _ d [] None [] [] D (or_introl (conj eq_refl eq_refl))). reflexivity.
Qed.
Lemma date_note j dt d w w1 n w2 : date_written dt d -> Forall (fun c => c = 32%N) w -> spaces w1 -> spaces w2 -> trimmed n ->
  create_xact j (dt ++ w ++ lit "  ;" ++ w1 ++ n ++ w2) = Ok (unknown j d (Some n)).
Proof.
  intros D Sw S1 S2 T'. pose proof (date_written_text _ _ D) as T. unfold create_xact, tokenize_xact_header.
  destruct (dt ++ w ++ lit "  ;" ++ w1 ++ n ++ w2) as [|c r] eqn:E; [destruct dt; [destruct T; congruence|discriminate]|]. rewrite <- E.
  rewrite (scan_date_written dt _ T).
  2:{ destruct w as [|x w]; [reflexivity|]. inversion Sw; subst. reflexivity. }
  assert (A : tokenize_aux_date (w ++ lit "  ;" ++ w1 ++ n ++ w2) = ([], w ++ lit "  ;" ++ w1 ++ n ++ w2)).
  { destruct w as [|x w]; [reflexivity|]. inversion Sw; subst. reflexivity. }
  rewrite A. unfold tokenize_payee. change [32%N; 32%N; 59%N] with (lit "  ;"). rewrite find_sub_at; [|discriminate|].
  - rewrite firstn_app_exact, skipn_app_exact.
    assert (trim w = []) as ->.
    { apply trim_spaces. unfold spaces. apply forallb_forall. intros x Hx. rewrite Forall_forall in Sw. rewrite (Sw x Hx). reflexivity. }
    change (lit "  ;" ++ w1 ++ n ++ w2) with (32%N :: 32%N :: 59%N :: w1 ++ n ++ w2). cbn [tokenize_note].
    rewrite drop_bytes_3 by reflexivity. cbn [bind]. rewrite trimmed_pad by assumption.
    rewrite (xact_create_written _ d [] None [] n D (or_introl (conj eq_refl eq_refl))). cbn [bind is_empty].
    destruct T' as (x & xs & ? & ? & -> & _). reflexivity.
  - intros (u & v & X). assert (I : In 59%N (w ++ removelast (lit "  ;"))) by (rewrite X, !in_app_iff; right; left; cbn; auto).
    apply in_app_iff in I as [I|I]; [|cbn in I; destruct I as [I|[I|[]]]; discriminate].
    rewrite Forall_forall in Sw. specialize (Sw _ I). discriminate.
Qed.

(** A line feed directly after the date becomes part of the date. *)
Definition ends_nl (s : str) : Prop := exists t, s = t ++ [10%N].
Lemma ends_nl_cons c s : s <> [] -> ends_nl (c :: s) -> ends_nl s.
Proof. intros N (t & E). destruct t as [|x t]; [injection E as _ ->; congruence|]. injection E as _ ->. exists t. reflexivity. Qed.
Lemma ends_nl_not_nil s : ends_nl s -> s <> [].
Proof. intros (t & ->). destruct t; discriminate. Qed.
Lemma take_digits_nl w : forall s acc any v r, take_digits w s acc any = Some (v, r) -> ends_nl s -> ends_nl r.
Proof.
  induction w as [|w IH]; intros s acc any v r H E; cbn [take_digits] in H.
  - destruct any; [injection H as _ <-; exact E|discriminate].
  - destruct s as [|c s]; [destruct (ends_nl_not_nil _ E eq_refl)|].
    destruct (is_digit c) eqn:D; [|destruct any; [injection H as _ <-; exact E|discriminate]].
    apply IH in H; [exact H|]. apply (ends_nl_cons c); [|exact E]. intros ->. destruct E as ([|x [|y t]] & E); try discriminate. injection E as ->. discriminate.
Qed.
Lemma take_digits_nil w : take_digits w [] 0 false = None. Proof. destruct w; reflexivity. Qed.
Lemma trim_nl s : ends_nl s -> trim_start s = [] \/ ends_nl (trim_start s).
Proof.
  unfold trim_start. induction s as [|c s IH]; intros E; cbn [drop_while]; [left; reflexivity|]. destruct (is_ws c); [|right; exact E].
  destruct s as [|x s]; [left; reflexivity|]. apply IH, (ends_nl_cons c); [discriminate|exact E].
Qed.
Lemma num_field_nl w s v r : num_field w s = Some (v, r) -> ends_nl s -> ends_nl r.
Proof.
  unfold num_field. intros H E. destruct (trim_nl s E) as [Z|Z]; [rewrite Z, take_digits_nil in H; discriminate|]. eapply take_digits_nl; eauto.
Qed.
Lemma literal_nl c s r : c <> 10%N -> literal c s = Some r -> ends_nl s -> ends_nl r.
Proof.
  intros Nc H E. destruct s as [|x s]; [discriminate|]. cbn in H. destruct (N.eqb_spec x c); [|discriminate]. injection H as <-. subst x.
  apply (ends_nl_cons c); [|exact E]. intros ->. destruct E as ([|a [|b t]] & E); try discriminate. injection E as ->. congruence.
Qed.
Lemma year_field_nl s v r : year_field s = Some (v, r) -> ends_nl s -> ends_nl r.
Proof.
  unfold year_field. intros H E. destruct (trim_nl s E) as [Z|Z]; [rewrite Z in H; discriminate|].
  destruct (trim_start s) as [|c t]; [discriminate|].
  assert (K : forall r', (c = 45%N \/ c = 43%N) -> take_digits (length t) t 0 false = Some r' -> ends_nl (snd r')).
  { intros [v' r'] Hc X. cbn [snd]. eapply take_digits_nl; [exact X|]. apply (ends_nl_cons c); [|exact Z].
    intros ->. discriminate. }
  assert (C : c = 45%N \/ c = 43%N \/ (c <> 45%N /\ c <> 43%N)) by lia. destruct C as [->|[->|[N1 N2]]].
  - destruct (take_digits (length t) t 0 false) as [[v' r']|]; [|discriminate]. cbn in H. injection H as _ <-. apply (K (v', r')); auto.
  - apply (K (v, r)); auto.
  - eapply (take_digits_nl 4); [|exact Z].
    destruct c as [|p]; [exact H|]. do 6 (destruct p as [p|p|]; try exact H); congruence.
Qed.
Lemma parse_date_nl s : ends_nl s -> parse_date_opt s = None.
Proof.
  intros E. unfold parse_date_opt, obind. destruct (year_field s) as [[y s1]|] eqn:E1; [|reflexivity]. apply year_field_nl in E1; [|exact E].
  destruct (literal 45 s1) as [s2|] eqn:E2; [|reflexivity]. apply literal_nl in E2; [|discriminate|exact E1].
  destruct (num_field 2 s2) as [[m s3]|] eqn:E3; [|reflexivity]. apply num_field_nl in E3; [|exact E2].
  destruct (literal 45 s3) as [s4|] eqn:E4; [|reflexivity]. apply literal_nl in E4; [|discriminate|exact E3].
  destruct (num_field 2 s4) as [[d s5]|] eqn:E5; [|reflexivity]. apply num_field_nl in E5; [|exact E4].
  destruct s5; [destruct (ends_nl_not_nil _ E5 eq_refl)|reflexivity].
Qed.
Lemma date_line j dt : date_text dt -> create_xact j (dt ++ nl) = Panic PUnwrap.
Proof.
  intros [Ne F]. assert (T : date_text (dt ++ nl)).
  { split; [destruct dt; discriminate|]. rewrite forallb_app, F. reflexivity. }
  unfold create_xact, tokenize_xact_header. destruct (dt ++ nl) as [|c r] eqn:E; [destruct dt; discriminate|].
  rewrite scan_date_all by exact T. cbn [tokenize_aux_date]. change (tokenize_payee []) with (@nil N, @nil N). cbn [tokenize_note bind].
  unfold xact_create. cbn [is_empty]. rewrite <- E. unfold parse_date. rewrite parse_date_nl by (exists dt; reflexivity). reflexivity.
Qed.
