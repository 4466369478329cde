(** Facts about the date model. *)
From Coq Require Import List NArith ZArith Bool Lia ZifyBool ZifyNat ZifyN.
From Verif Require Import Base BaseFacts Dates SpecDecimal DecimalFacts SpecDates.
Import ListNotations.
Open Scope Z_scope.

Lemma is_leap_spec y : is_leap y = true <-> leap_year y.
Proof.
  unfold is_leap, leap_year. rewrite orb_true_iff, andb_true_iff, negb_true_iff.
  rewrite !Z.eqb_eq, Z.eqb_neq. rewrite !Z.mod_divide by lia. split.
  - intros [[H1 H2]|H].
    + split; [exact H1|]. intros H; contradiction.
    + split; [|intros _; exact H]. destruct H as [k ->]. exists (k * 100). lia.
  - intros [H1 H2]. destruct (Z.eq_dec (y mod 100) 0) as [E|E].
    + right. apply H2. apply Z.mod_divide in E; [exact E|lia].
    + left. split; [exact H1|]. intros D. apply Z.mod_divide in D; lia.
Qed.

Lemma leap_dec y : {leap_year y} + {~ leap_year y}.
Proof.
  destruct (is_leap y) eqn:E.
  - left. apply is_leap_spec, E.
  - right. intros H. apply is_leap_spec in H. congruence.
Qed.

Lemma days_in_month_spec y m : 1 <= m <= 12 -> month_length y m (days_in_month y m).
Proof.
  intros Hm. unfold month_length, days_in_month.
  assert (C : m = 1 \/ m = 2 \/ m = 3 \/ m = 4 \/ m = 5 \/ m = 6 \/ m = 7 \/ m = 8 \/ m = 9
              \/ m = 10 \/ m = 11 \/ m = 12) by lia.
  destruct (is_leap y) eqn:L;
    [apply is_leap_spec in L | assert (~ leap_year y) by (rewrite <- is_leap_spec; congruence)];
    repeat destruct C as [->|C]; try subst m;
    (eexists; split; [reflexivity|]; split; cbn; intros; try tauto; try lia;
     exfalso; intuition lia).
Qed.
Lemma month_length_det y m l1 l2 : month_length y m l1 -> month_length y m l2 -> l1 = l2.
Proof.
  intros (n1 & N1 & A1 & B1) (n2 & N2 & A2 & B2). rewrite N1 in N2. injection N2 as <-.
  destruct (Z.eq_dec m 2) as [E|E]; [destruct (leap_dec y) as [L|L]|].
  - rewrite A1, A2; auto.
  - rewrite B1, B2; tauto.
  - rewrite B1, B2; tauto.
Qed.

Lemma from_ymd_spec y m d r :
  from_ymd y m d = Some r <-> r = mkDate y m d /\ valid_date (mkDate y m d).
Proof.
  unfold from_ymd, valid_date; cbn [dt_y dt_m dt_d].
  destruct ((-262144 <=? y) && (y <=? 262143) && (1 <=? m) && (m <=? 12) && (1 <=? d)
            && (d <=? days_in_month y m)) eqn:E.
  - assert (Hm : 1 <= m <= 12) by lia. split.
    + intros H. injection H as <-. split; [reflexivity|]. split; [lia|]. split; [lia|].
      exists (days_in_month y m). split; [apply days_in_month_spec, Hm|lia].
    + intros [-> _]. reflexivity.
  - split; [discriminate|]. intros [_ (Hy & Hm & len & L & Hd)]. exfalso.
    rewrite (month_length_det _ _ _ _ L (days_in_month_spec y m Hm)) in Hd. lia.
Qed.

Lemma parse_date_valid s d : parse_date_opt s = Some d -> valid_date d.
Proof.
  unfold parse_date_opt, obind. intros H.
  repeat match type of H with
         | context [match ?x with _ => _ end] => destruct x; try discriminate
         end.
  apply from_ymd_spec in H as [-> V]. exact V.
Qed.

Lemma take_digits_nonneg w : forall s acc any v t,
  0 <= acc -> take_digits w s acc any = Some (v, t) -> 0 <= v.
Proof.
  induction w as [|w IH]; intros s acc any v t Ha H; cbn [take_digits] in H.
  - destruct any; [injection H as <- _; exact Ha|discriminate].
  - destruct s as [|c s]; [destruct any; [injection H as <- _; exact Ha|discriminate]|].
    destruct (is_digit c) eqn:D.
    + eapply IH; [|exact H]. lia.
    + destruct any; [injection H as <- _; exact Ha|discriminate].
Qed.
Lemma parse_time_valid s t : parse_time_opt s = Some t -> valid_time t.
Proof.
  unfold parse_time_opt, obind. intros H.
  destruct (num_field 2 s) as [[h s1]|] eqn:E1; [|discriminate].
  destruct (literal 58 s1) as [s2|]; [|discriminate].
  destruct (num_field 2 s2) as [[m s3]|] eqn:E2; [|discriminate].
  destruct (literal 58 s3) as [s4|]; [|discriminate].
  destruct (num_field 2 s4) as [[c s5]|] eqn:E3; [|discriminate].
  destruct s5; [|discriminate].
  apply take_digits_nonneg in E1, E2, E3; try lia.
  destruct ((h <=? 23) && (m <=? 59) && (c <=? 60)) eqn:E; [|discriminate].
  injection H as <-. unfold valid_time; cbn. lia.
Qed.
Lemma midnight_valid : valid_time midnight.
Proof. unfold valid_time, midnight; cbn. lia. Qed.

(** ** Fixed-width texts *)
Lemma take_digits_run ds rest w : forall acc any,
  forallb is_digit ds = true -> (length ds <= w)%nat ->
  (any = true \/ ds <> []) ->
  (length ds = w \/ match rest with c :: _ => is_digit c = false | [] => True end) ->
  take_digits w (ds ++ rest) acc any
  = Some (fold_left (fun n c => 10 * n + (Z.of_N c - 48)) ds acc, rest).
Proof.
  revert w. induction ds as [|c ds IH]; intros w acc any Hd Hw Ha Hr; cbn [app fold_left].
  - destruct Ha as [->|Ha]; [|contradiction]. destruct w as [|w]; cbn [take_digits]; [reflexivity|].
    destruct rest as [|r rest]; [reflexivity|]. destruct Hr as [Hr|Hr]; [discriminate|].
    rewrite Hr. reflexivity.
  - cbn [forallb] in Hd. apply andb_prop in Hd as [Hc Hd]. destruct w as [|w]; cbn [length] in Hw; [lia|].
    cbn [take_digits]. rewrite Hc. rewrite digit_step by exact Hc.
    apply IH; auto; [lia|]. destruct Hr as [Hr|Hr]; [left; cbn in Hr; lia|right; exact Hr].
Qed.
Lemma digits_no_ws ds rest :
  forallb is_digit ds = true -> ds <> [] -> trim_start (ds ++ rest) = ds ++ rest.
Proof.
  intros Hd Hn. apply trim_start_id. destruct ds as [|c ds]; [contradiction|].
  cbn [app starts_ws forallb] in *. apply andb_prop in Hd as [Hd _]. apply is_digit_not_ws, Hd.
Qed.
Lemma year_field_run ds rest :
  forallb is_digit ds = true -> length ds = 4%nat -> year_field (ds ++ rest) = Some (number ds, rest).
Proof.
  intros Hd Hl. unfold year_field. rewrite digits_no_ws; [|exact Hd|destruct ds; discriminate].
  destruct ds as [|c ds]; [discriminate|]. cbn [app].
  assert (D : is_digit c = true) by (cbn [forallb] in Hd; apply andb_prop in Hd; tauto).
  assert (G : take_digits 4 (c :: ds ++ rest) 0 false = Some (number (c :: ds), rest)).
  { change (c :: ds ++ rest) with ((c :: ds) ++ rest). unfold number.
    apply take_digits_run; auto; [rewrite Hl; lia|right; discriminate]. }
  apply is_digit_range in D.
  assert (Hc : exists k, c = N.of_nat (48 + k) /\ (k < 10)%nat) by (exists (N.to_nat c - 48)%nat; lia).
  destruct Hc as (k & -> & Hk). do 10 (destruct k as [|k]; [exact G|]). lia.
Qed.
Lemma num_field_run ds rest :
  forallb is_digit ds = true -> length ds = 2%nat -> num_field 2 (ds ++ rest) = Some (number ds, rest).
Proof.
  intros Hd Hl. unfold num_field. rewrite digits_no_ws; [|exact Hd|destruct ds; discriminate].
  unfold number. apply take_digits_run; auto; [lia|right; destruct ds; discriminate].
Qed.
Lemma parse_date_run y m d :
  forallb is_digit y = true -> forallb is_digit m = true -> forallb is_digit d = true ->
  length y = 4%nat -> length m = 2%nat -> length d = 2%nat ->
  parse_date_opt (y ++ 45%N :: m ++ 45%N :: d) = from_ymd (number y) (number m) (number d).
Proof.
  intros Hy Hm Hd Ly Lm Ld. unfold parse_date_opt, obind. rewrite year_field_run by assumption.
  cbn [literal]. rewrite N.eqb_refl. rewrite num_field_run by assumption.
  cbn [literal]. rewrite N.eqb_refl. rewrite <- (app_nil_r d), num_field_run by assumption.
  rewrite app_nil_r. reflexivity.
Qed.

(** ** All texts *)
Lemma take_digits_split w : forall s acc any v t, take_digits w s acc any = Some (v, t) ->
  exists ds, s = ds ++ t /\ forallb is_digit ds = true /\ (length ds <= w)%nat /\ (any = true \/ ds <> [])
             /\ v = fold_left (fun n c => 10 * n + (Z.of_N c - 48)) ds acc.
Proof.
  induction w as [|w IH]; intros s acc any v t H; cbn [take_digits] in H.
  - destruct any; [|discriminate]. injection H as <- <-. exists []. cbn. repeat split; auto.
  - destruct s as [|c s]; [destruct any; [|discriminate]; injection H as <- <-; exists []; cbn; repeat split; auto; lia|].
    destruct (is_digit c) eqn:D.
    + apply IH in H as (ds & -> & F & L & _ & ->). exists (c :: ds). cbn [app forallb length fold_left]. rewrite D.
      rewrite digit_step by exact D. repeat split; auto; [lia|right; discriminate].
    + destruct any; [|discriminate]. injection H as <- <-. exists []. cbn. repeat split; auto. lia.
Qed.
Lemma field_split width s v t : num_field width s = Some (v, t) -> exists f, s = f ++ t /\ field_text width f v.
Proof.
  unfold num_field. intros H. destruct (trim_start_spec s) as (w & E & W & _).
  apply take_digits_split in H as (ds & E2 & F & L & [A|A] & ->); [discriminate|].
  exists (w ++ ds). split; [rewrite E, E2 at 1; apply app_assoc|]. exists w, ds. repeat split; auto. destruct ds; [contradiction|cbn; lia].
Qed.
Lemma field_run width f v rest : field_text width f v -> match rest with c :: _ => is_digit c = false | [] => True end ->
  num_field width (f ++ rest) = Some (v, rest).
Proof.
  intros (w & ds & -> & W & F & L & ->) R. unfold num_field. rewrite <- app_assoc, trim_start_app by exact W.
  rewrite digits_no_ws; [|exact F|destruct ds; [cbn in L; lia|discriminate]].
  unfold number. apply take_digits_run; auto; [lia|right; destruct ds; [cbn in L; lia|discriminate]].
Qed.
Lemma year_field_cases s : exists w, s = w ++ trim_start s /\ forallb is_ws w = true /\
  ((exists r, trim_start s = 45%N :: r /\ year_field s = option_map (fun '(v, t) => (- v, t)) (take_digits (length r) r 0 false))
   \/ (exists r, trim_start s = 43%N :: r /\ year_field s = take_digits (length r) r 0 false)
   \/ year_field s = num_field 4 s /\ hd_error (trim_start s) <> Some 45%N /\ hd_error (trim_start s) <> Some 43%N).
Proof.
  destruct (trim_start_spec s) as (w & E & W & _). exists w. split; [exact E|]. split; [exact W|].
  unfold year_field, num_field. destruct (trim_start s) as [|c r]; [right; right; repeat split; discriminate|].
  destruct (N.eq_dec c 45) as [->|N1]; [left; eexists; split; reflexivity|].
  destruct (N.eq_dec c 43) as [->|N2]; [right; left; eexists; split; reflexivity|].
  right; right. split; [|split; cbn [hd_error]; congruence].
  repeat match goal with |- context [match ?x with _ => _ end] => is_var x; destruct x; try reflexivity; try congruence end.
Qed.
Lemma year_split s v t : year_field s = Some (v, t) -> exists f, s = f ++ t /\ year_text f v.
Proof.
  intros H. destruct (year_field_cases s) as (w & E & W & [(r & Er & Ey)|[(r & Er & Ey)|[Ey _]]]); rewrite Ey in H.
  - destruct (take_digits (length r) r 0 false) as [[n t']|] eqn:T; [|discriminate]. injection H as <- <-.
    apply take_digits_split in T as (ds & -> & F & L & [A|A] & ->); [discriminate|]. rewrite Er in E.
    exists (w ++ 45%N :: ds). split; [rewrite E, <- app_assoc; reflexivity|]. apply (yt_minus w ds); assumption.
  - apply take_digits_split in H as (ds & -> & F & L & [A|A] & ->); [discriminate|]. rewrite Er in E.
    exists (w ++ 43%N :: ds). split; [rewrite E, <- app_assoc; reflexivity|]. apply (yt_plus w ds); assumption.
  - apply field_split in H as (f & -> & F). exists f. split; [reflexivity|]. apply yt_plain, F.
Qed.
Lemma trim_sign w c r : forallb is_ws w = true -> is_ws c = false -> trim_start (w ++ c :: r) = c :: r.
Proof. intros W C. rewrite trim_start_app by exact W. apply trim_start_id. exact C. Qed.
Lemma sign_run ds rest : forallb is_digit ds = true -> ds <> [] -> match rest with c :: _ => is_digit c = false | [] => True end ->
  take_digits (length (ds ++ rest)) (ds ++ rest) 0 false = Some (number ds, rest).
Proof. intros F N R. apply take_digits_run; auto. rewrite app_length. lia. Qed.
Lemma year_run f v rest : year_text f v -> match rest with c :: _ => is_digit c = false | [] => True end ->
  year_field (f ++ rest) = Some (v, rest).
Proof.
  intros Y R. destruct Y as [f v H|w ds W F N|w ds W F N].
  - rewrite <- (field_run 4 f v rest H R). destruct (year_field_cases (f ++ rest)) as (w' & _ & _ & [(r & Er & _)|[(r & Er & _)|[E _]]]); [| |exact E];
    exfalso; destruct H as (w & ds & -> & W & F & L & _); (destruct ds as [|d ds]; [cbn in L; lia|]);
    rewrite <- app_assoc, trim_start_app, digits_no_ws in Er by (assumption || discriminate); cbn [app] in Er; injection Er as -> _; discriminate F.
  - rewrite <- app_assoc. cbn [app]. unfold year_field. rewrite trim_sign by (auto; reflexivity). rewrite sign_run by assumption. reflexivity.
  - rewrite <- app_assoc. cbn [app]. unfold year_field. rewrite trim_sign by (auto; reflexivity). apply sign_run; assumption.
Qed.
Lemma literal_some c s t : literal c s = Some t <-> s = c :: t.
Proof.
  destruct s as [|x s]; cbn [literal]; [split; discriminate|]. destruct (N.eqb_spec x c) as [->|N].
  - split; intros H; injection H as <-; reflexivity.
  - split; intros H; [discriminate|]. injection H; intros; contradiction.
Qed.
Lemma parse_date_iff s d : parse_date_opt s = Some d <-> denotes_date s d.
Proof.
  split.
  - unfold parse_date_opt, obind. intros H.
    destruct (year_field s) as [[y s1]|] eqn:E1; [|discriminate]. apply year_split in E1 as (ty & -> & Y).
    destruct (literal 45 s1) as [s2|] eqn:L1; [|discriminate]. apply literal_some in L1 as ->.
    destruct (num_field 2 s2) as [[m s3]|] eqn:E2; [|discriminate]. apply field_split in E2 as (tm & -> & M).
    destruct (literal 45 s3) as [s4|] eqn:L2; [|discriminate]. apply literal_some in L2 as ->.
    destruct (num_field 2 s4) as [[n s5]|] eqn:E3; [|discriminate]. apply field_split in E3 as (td & -> & D).
    destruct s5; [|discriminate]. apply from_ymd_spec in H as [-> V]. exists ty, tm, td. rewrite app_nil_r. auto.
  - intros (ty & tm & td & -> & Y & M & D & V). unfold parse_date_opt, obind. rewrite (year_run _ _ _ Y) by reflexivity.
    cbn [literal]. rewrite N.eqb_refl. rewrite (field_run _ _ _ _ M) by reflexivity. cbn [literal]. rewrite N.eqb_refl.
    rewrite <- (app_nil_r td), (field_run _ _ _ [] D) by exact I. destruct d as [y m n]. apply from_ymd_spec. auto.
Qed.
Lemma parse_time_iff s t : parse_time_opt s = Some t <-> denotes_time s t.
Proof.
  split.
  - intros H. pose proof (parse_time_valid _ _ H) as V. revert H. unfold parse_time_opt, obind. intros H.
    destruct (num_field 2 s) as [[h s1]|] eqn:E1; [|discriminate]. apply field_split in E1 as (th & -> & Y).
    destruct (literal 58 s1) as [s2|] eqn:L1; [|discriminate]. apply literal_some in L1 as ->.
    destruct (num_field 2 s2) as [[m s3]|] eqn:E2; [|discriminate]. apply field_split in E2 as (tm & -> & M).
    destruct (literal 58 s3) as [s4|] eqn:L2; [|discriminate]. apply literal_some in L2 as ->.
    destruct (num_field 2 s4) as [[n s5]|] eqn:E3; [|discriminate]. apply field_split in E3 as (td & -> & D).
    destruct s5; [|discriminate]. destruct ((h <=? 23) && (m <=? 59) && (n <=? 60)); [|discriminate]. injection H as <-.
    exists th, tm, td. rewrite app_nil_r. auto.
  - intros (th & tm & ts & -> & Y & M & D & V). unfold parse_time_opt, obind. rewrite (field_run _ _ _ _ Y) by reflexivity.
    cbn [literal]. rewrite N.eqb_refl. rewrite (field_run _ _ _ _ M) by reflexivity. cbn [literal]. rewrite N.eqb_refl.
    rewrite <- (app_nil_r ts), (field_run _ _ _ [] D) by exact I. destruct t as [h m n]. unfold valid_time in V. cbn [tm_h tm_m tm_s] in *.
    replace ((h <=? 23) && (m <=? 59) && (n <=? 60)) with true by (symmetry; lia). reflexivity.
Qed.

(** ** Order *)
Lemma valid_dt_ranges t :
  valid_dt t ->
  1 <= dt_m (dt_date t) <= 12 /\ 1 <= dt_d (dt_date t) <= 31
  /\ 0 <= tm_h (dt_time t) <= 23 /\ 0 <= tm_m (dt_time t) <= 59 /\ 0 <= tm_s (dt_time t) <= 60.
Proof.
  intros [(Hy & Hm & len & L & Hd) (H1 & H2 & H3)].
  split; [exact Hm|]. split; [|tauto].
  rewrite (month_length_det _ _ _ _ L (days_in_month_spec _ _ Hm)) in Hd.
  unfold days_in_month in Hd. destruct (is_leap (dt_y (dt_date t))); 
    repeat match type of Hd with context [if ?b then _ else _] => destruct b end; lia.
Qed.
Lemma dt_key_lt t1 t2 :
  valid_dt t1 -> valid_dt t2 -> (dt_key t1 < dt_key t2 <-> before t1 t2).
Proof.
  intros V1 V2. apply valid_dt_ranges in V1, V2. unfold before, fields, dt_key; cbn [lex_lt].
  destruct t1 as [[y1 m1 d1] [h1 i1 s1]], t2 as [[y2 m2 d2] [h2 i2 s2]]; cbn in *. lia.
Qed.
Lemma dt_key_eq t1 t2 : valid_dt t1 -> valid_dt t2 -> dt_key t1 = dt_key t2 -> t1 = t2.
Proof.
  intros V1 V2. apply valid_dt_ranges in V1, V2. unfold dt_key.
  destruct t1 as [[y1 m1 d1] [h1 i1 s1]], t2 as [[y2 m2 d2] [h2 i2 s2]]; cbn in *. intros H.
  assert (y1 = y2) by lia. assert (m1 = m2) by lia. assert (d1 = d2) by lia.
  assert (h1 = h2) by lia. assert (i1 = i2) by lia. assert (s1 = s2) by lia. congruence.
Qed.
Lemma dt_key_le t1 t2 :
  valid_dt t1 -> valid_dt t2 -> (dt_key t1 <= dt_key t2 <-> not_after t1 t2).
Proof.
  intros V1 V2. unfold not_after. rewrite <- dt_key_lt by assumption. split.
  - intros H. destruct (Z.eq_dec (dt_key t1) (dt_key t2)) as [E|E]; [right|left; lia].
    apply dt_key_eq; assumption.
  - intros [H| ->]; lia.
Qed.
