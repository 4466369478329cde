(** Exactly which texts are quantities. *)
From Coq Require Import String List NArith ZArith Bool Lia ZifyBool ZifyNat ZifyN.
From Verif Require Import Base BaseFacts Decimal Dates Amount Scanner.
From Verif Require Import SpecText SpecDecimal SpecRefused DecimalFacts.
Import ListNotations.
Open Scope nat_scope.

Lemma nu_cons c s : no_underscores (c :: s) = if (c =? underscore_c)%N then no_underscores s else c :: no_underscores s.
Proof. unfold no_underscores. cbn [filter]. destruct (c =? underscore_c)%N; reflexivity. Qed.
Lemma nu_app a b : no_underscores (a ++ b) = no_underscores a ++ no_underscores b.
Proof. apply filter_app. Qed.
(** An underscore without digit in front. *)
Definition early (s : str) : Prop := exists a b, s = a ++ underscore_c :: b /\ existsb is_digit a = false.
Definition trailing (s : str) : Prop := exists a, s = a ++ [underscore_c].
Lemma early_cons c s : is_digit c = false -> early s -> early (c :: s).
Proof. intros D (a & b & -> & E). exists (c :: a), b. split; [reflexivity|]. cbn. rewrite D. exact E. Qed.
Lemma trailing_cons c s : trailing s -> trailing (c :: s).
Proof. intros (a & ->). exists (c :: a). reflexivity. Qed.

Lemma only_trailing s : s <> [] -> no_underscores s = [] -> trailing s.
Proof.
  induction s as [|x s IH]; intros N E; [congruence|]. rewrite nu_cons in E. destruct (N.eqb_spec x underscore_c) as [Ex|]; [|discriminate].
  destruct s as [|y s]; [exists []; rewrite Ex; reflexivity|]. apply trailing_cons, IH; [discriminate|exact E].
Qed.

(** What is read obeys the rules on underscores. *)
Lemma digits_early s : forall point m sc r, parse_digits s point false m sc = Some r -> ~ early s.
Proof.
  induction s as [|c s IH]; intros point m sc r H (a & b & E & D); [destruct a; discriminate|]. cbn [parse_digits] in H.
  destruct a as [|x a]; cbn [app] in E; injection E as -> E.
  - change (is_digit underscore_c) with false in H. change ((underscore_c =? 46)%N) with false in H. cbn [andb] in H. rewrite andb_false_r in H. discriminate.
  - cbn in D. apply orb_false_iff in D as [Dx D]. rewrite Dx in H. rewrite andb_false_r in H. destruct ((x =? 46)%N && negb point); [|discriminate].
    eapply IH; [exact H|]. exists a, b. auto.
Qed.
Lemma digits_trailing s : forall point has m sc m' sc', parse_digits s point has m sc = Some (m', sc') -> (sc < 28 \/ s = []) -> trailing s -> sc' < 28.
Proof.
  induction s as [|c s IH]; intros point has m sc m' sc' H L (a & E); [destruct a; discriminate|]. destruct L as [L|L]; [|discriminate]. cbn [parse_digits] in H.
  assert (T : s <> [] -> trailing s). { intros N. destruct a as [|x a]; cbn [app] in E; [congruence|]. injection E as -> E. exists a. exact E. }
  destruct (is_digit c) eqn:D.
  - assert (N : s <> []). { intros ->. destruct a as [|x a]; cbn [app] in E; [injection E as ->; discriminate D|destruct a; discriminate]. }
    destruct (MAXM <=? _)%Z; [discriminate|]. destruct (point && (MAXS <=? (if point then S sc else sc)) && negb (is_empty s)) eqn:G; [discriminate|].
    eapply IH; [exact H| |exact (T N)]. destruct point; [|left; exact L]. cbn [andb] in G. apply andb_false_iff in G as [G|G].
    + left. apply Nat.leb_gt in G. exact G.
    + right. destruct s; [reflexivity|discriminate].
  - destruct ((c =? 46)%N && negb point).
    + destruct s as [|x s]; [|eapply IH; [exact H|left; exact L|apply T; discriminate]]. cbn in H. destruct has; [|discriminate]. injection H as _ <-. exact L.
    + destruct ((c =? 95)%N && has); [|discriminate]. destruct s as [|x s]; [|eapply IH; [exact H|left; exact L|apply T; discriminate]]. cbn in H. destruct has; [|discriminate]. injection H as _ <-. exact L.
Qed.

(** What obeys them is read. *)
Lemma point_read s : forall has m sc, (0 <= m)%Z -> forallb is_digit (no_underscores s) = true -> has = true \/ no_underscores s <> [] /\ ~ early s ->
  (m * p10 (length (no_underscores s)) + number (no_underscores s) < MAXM)%Z -> sc + length (no_underscores s) <= 28 ->
  (sc < 28 \/ s = []) -> (sc + length (no_underscores s) = 28 -> ~ trailing s) ->
  parse_digits s true has m sc = Some ((m * p10 (length (no_underscores s)) + number (no_underscores s))%Z, sc + length (no_underscores s)).
Proof.
  induction s as [|c s IH]; intros has m sc Hm Hd Hh Hlt Hsc Hc Ht; cbn [parse_digits].
  - cbn [no_underscores filter length]. rewrite p10_0, Nat.add_0_r, Z.mul_1_r. change (number []) with 0%Z. rewrite Z.add_0_r.
    destruct Hh as [->|[X _]]; [reflexivity|elim X; reflexivity].
  - destruct Hc as [Hc|Hc]; [|discriminate]. rewrite nu_cons in *. destruct (N.eqb_spec c underscore_c) as [->|Nu].
    + change (is_digit underscore_c) with false. change ((underscore_c =? 46)%N) with false. change ((underscore_c =? 95)%N) with true. cbn [andb].
      destruct Hh as [->|[_ X]]; [|elim X; exists [], s; auto]. apply IH; auto. intros E T. apply (Ht E), trailing_cons, T.
    + cbn [forallb] in Hd. apply andb_prop in Hd as [D Hd]. rewrite D. rewrite digit_step by exact D. cbn [length] in *. rewrite number_cons, p10_S in *.
      set (n := (10 * m + (Z.of_N c - 48))%Z) in *.
      assert (En : (m * (10 * p10 (length (no_underscores s))) + ((Z.of_N c - 48) * p10 (length (no_underscores s)) + number (no_underscores s))
                 = n * p10 (length (no_underscores s)) + number (no_underscores s))%Z) by (unfold n; ring).
      rewrite En in *. apply is_digit_range in D. pose proof (number_acc_bound n (no_underscores s) ltac:(lia) Hd).
      replace (MAXM <=? n)%Z with false by lia. cbn [andb].
      assert (G : S sc < 28 \/ s = []).
      { destruct s as [|x s]; [right; reflexivity|left]. destruct (Nat.eq_dec (length (no_underscores (x :: s))) 0) as [Z|Z]; [|lia].
        assert (Tr : trailing (x :: s)).
        { apply only_trailing; [discriminate|]. destruct (no_underscores (x :: s)); [reflexivity|discriminate]. }
        destruct (Nat.eq_dec (S sc) 28) as [E28|]; [|lia]. exfalso. apply Ht; [lia|apply trailing_cons, Tr]. }
      replace ((MAXS <=? S sc) && negb (is_empty s)) with false.
      2:{ symmetry. apply andb_false_iff. destruct G as [G| ->]; [left; apply Nat.leb_gt; exact G|right; reflexivity]. }
      rewrite IH; auto; try lia.
      * f_equal. f_equal. lia.
      * intros E T. apply Ht; [lia|apply trailing_cons, T].
Qed.
Lemma whole_read s whole frac : forall has m, (0 <= m)%Z ->
  (no_underscores s = whole /\ frac = [] \/ no_underscores s = whole ++ point_c :: frac) ->
  forallb is_digit whole = true -> forallb is_digit frac = true -> has = true \/ whole ++ frac <> [] /\ ~ early s ->
  (m * p10 (length (whole ++ frac)) + number (whole ++ frac) < MAXM)%Z -> length frac <= 28 -> (length frac = 28 -> ~ trailing s) ->
  parse_digits s false has m 0 = Some ((m * p10 (length (whole ++ frac)) + number (whole ++ frac))%Z, length frac).
Proof.
  revert whole. induction s as [|c s IH]; intros whole has m Hm Hs Hw Hf Hh Hlt Hl Ht; cbn [parse_digits].
  - destruct Hs as [(<- & ->)|Hs]; [|destruct whole; discriminate]. cbn [no_underscores filter app length]. rewrite p10_0, Z.mul_1_r. change (number []) with 0%Z. rewrite Z.add_0_r.
    destruct Hh as [->|[X _]]; [reflexivity|elim X; reflexivity].
  - rewrite nu_cons in Hs. destruct (N.eqb_spec c underscore_c) as [->|Nu].
    + change (is_digit underscore_c) with false. change ((underscore_c =? 46)%N) with false. change ((underscore_c =? 95)%N) with true. cbn [andb].
      destruct Hh as [->|[_ X]]; [|elim X; exists [], s; auto]. apply IH; auto. intros E T. apply (Ht E), trailing_cons, T.
    + destruct whole as [|x whole].
      * destruct Hs as [(Hs & _)|Hs]; [discriminate|]. cbn [app] in Hs. injection Hs as -> Hs. change (is_digit point_c) with false. change ((point_c =? 46)%N) with true. cbn [andb negb].
        rewrite point_read; rewrite ?Hs; cbn [app] in *; auto; try lia.
        -- destruct Hh as [->|[X Y]]; [left; reflexivity|right]. split; [exact X|]. intros E. apply Y, early_cons; [reflexivity|exact E].
        -- intros E T. apply Ht; [lia|apply trailing_cons, T].
      * assert (Hx : c = x) by (destruct Hs as [(Hs & _)|Hs]; injection Hs; auto). subst x. cbn [forallb] in Hw. apply andb_prop in Hw as [D Hw]. rewrite D.
        rewrite digit_step by exact D. cbn [app length] in *. rewrite number_cons, p10_S in *. set (n := (10 * m + (Z.of_N c - 48))%Z) in *.
        assert (En : (m * (10 * p10 (length (whole ++ frac))) + ((Z.of_N c - 48) * p10 (length (whole ++ frac)) + number (whole ++ frac))
                 = n * p10 (length (whole ++ frac)) + number (whole ++ frac))%Z) by (unfold n; ring).
        rewrite En in *. apply is_digit_range in D.
        assert (Hdf : forallb is_digit (whole ++ frac) = true) by (rewrite forallb_app, Hw, Hf; reflexivity).
        pose proof (number_acc_bound n (whole ++ frac) ltac:(lia) Hdf). replace (MAXM <=? n)%Z with false by lia. cbn [andb].
        apply IH; auto; try lia.
        -- destruct Hs as [(Hs & ->)|Hs]; injection Hs as Hs; auto.
        -- intros E T. apply (Ht E), trailing_cons, T.
Qed.

Lemma from_str_sign sign neg body : (sign = [] /\ neg = false \/ sign = [plus_c] /\ neg = false \/ sign = [minus_c] /\ neg = true) ->
  (sign = [] -> forall c r, body = c :: r -> c <> plus_c /\ c <> minus_c) ->
  d_from_str (sign ++ body) = match parse_digits body false false 0 0 with Some (m, sc) => Some (d_make neg m sc) | None => None end.
Proof.
  intros [(-> & ->)|[(-> & ->)|(-> & ->)]] N; unfold d_from_str; cbn [app]; try reflexivity.
  destruct body as [|c body]; [reflexivity|]. destruct (N eq_refl c body eq_refl) as [N1 N2]. unfold plus_c, minus_c in *.
  assert (E : forall (A : Type) (x y z : A), match c with 45%N => x | 43%N => y | _ => z end = z).
  { intros A x y z. repeat match goal with |- match match ?p with _ => _ end with _ => _ end = _ => destruct p | |- match ?p with _ => _ end = _ => destruct p end; try reflexivity; congruence. }
  rewrite E. reflexivity.
Qed.
Lemma quantity_text_read s d : d_from_str s = Some d -> exists neg whole frac, quantity_text s neg whole frac /\ d_s d = length frac /\ d_m d = Z.abs (number (whole ++ frac)).
Proof.
  intros H. destruct (d_from_str_sound _ _ H) as (W & neg & whole & frac & L & Sd & U). exists neg, whole, frac. split; [split; [exact L|]|split; [exact Sd|]].
  2:{ destruct W as [W _]. unfold d_signed in U. destruct neg, (d_neg d); lia. }
    assert (Lt : (number (whole ++ frac) < 2 ^ 96)%Z).
    { destruct W as [W _]. unfold d_signed in U. destruct neg, (d_neg d); lia. }
    assert (P : exists sign body m sc, s = sign ++ body /\ existsb is_digit sign = false /\ length sign <= 1 /\ (forall c, In c sign -> c <> underscore_c) /\ parse_digits body false false 0 0 = Some (m, sc) /\ sc = d_s d).
    { clear -H. unfold d_from_str in H. destruct s as [|c s]; [discriminate|].
      destruct (N.eqb_spec c 45) as [->|N1].
      { destruct (parse_digits s false false 0 0) as [[m sc]|] eqn:E; [|discriminate]. injection H as <-. exists [45%N], s, m, sc. repeat split; auto. intros c [<-|[]]; discriminate. }
      destruct (N.eqb_spec c 43) as [->|N2].
      { destruct (parse_digits s false false 0 0) as [[m sc]|] eqn:E; [|discriminate]. injection H as <-. exists [43%N], s, m, sc. repeat split; auto. intros c [<-|[]]; discriminate. }
      assert (E : forall (A : Type) (x y z : A), match c with 45%N => x | 43%N => y | _ => z end = z).
      { intros A x y z. repeat match goal with |- match match ?p with _ => _ end with _ => _ end = _ => destruct p | |- match ?p with _ => _ end = _ => destruct p end; try reflexivity; congruence. }
      rewrite E in H. destruct (parse_digits (c :: s) false false 0 0) as [[m sc]|] eqn:E2; [|discriminate]. injection H as <-. exists [], (c :: s), m, sc. repeat split; auto. }
    destruct P as (sign & body & m & sc & Es & Dg & Ls & Nu & Pd & Esc). split; [|split; [exact Lt|split; [destruct W; lia|]]].
    + intros a b E. destruct (existsb is_digit a) eqn:Ea; [reflexivity|exfalso]. apply (digits_early _ _ _ _ _ Pd). rewrite Es in E.
      destruct sign as [|x [|? ?]]; cbn [length] in Ls; [|destruct a as [|y a]|lia].
      * cbn in E. exists a, b. auto.
      * cbn in E. injection E as -> _. elim (Nu underscore_c); [left; reflexivity|reflexivity].
      * cbn in E. injection E as -> E. exists a, b. split; [exact E|]. cbn in Ea. apply orb_false_iff in Ea as [_ Ea]. exact Ea.
    + intros L28 a E. assert (T : trailing body).
      { rewrite Es in E. destruct sign as [|x [|? ?]]; cbn [length] in Ls; [exists a; exact E| |lia]. destruct a as [|y a]; cbn in E; [|injection E as -> E; exists a; exact E].
        injection E as -> _. elim (Nu underscore_c); [left; reflexivity|reflexivity]. }
      pose proof (digits_trailing _ _ _ _ _ _ _ Pd ltac:(left; lia) T). lia.
Qed.
Lemma quantity_text_value s neg whole frac : quantity_text s neg whole frac -> d_from_str s = Some (d_make neg (number (whole ++ frac)) (length frac)).
Proof.
  intros ((sign & body & Es & Sg & B & Dw & Df & Ne) & Ea & Lt & Lf & Tr).
    assert (P : parse_digits body false false 0 0 = Some (number (whole ++ frac), length frac)).
    { rewrite (whole_read body whole frac false 0%Z); auto; try (rewrite Z.mul_0_l, Z.add_0_l; first [reflexivity|exact Lt]); try lia.
      - right. split; [exact Ne|]. intros (a & b & Eb & D). rewrite Eb in Es. rewrite app_assoc in Es. specialize (Ea _ _ Es). rewrite existsb_app, D, orb_false_r in Ea.
        destruct Sg as [(-> & _)|[(-> & _)|(-> & _)]]; discriminate.
      - intros L28 (a & Eb). rewrite Eb, app_assoc in Es. exact (Tr L28 _ Es). }
    assert (Hd : forall c r, body = c :: r -> c <> plus_c /\ c <> minus_c).
    { intros c r ->. assert (X : c = underscore_c \/ is_digit c = true \/ c = point_c).
      { rewrite nu_cons in B. destruct (N.eqb_spec c underscore_c); [left; assumption|right].
        destruct whole as [|w whole]; destruct B as [(B & _)|B]; try discriminate; injection B as -> _; auto; cbn in Dw; apply andb_prop in Dw as [Dw _]; auto. }
      destruct X as [->|[X| ->]]; split; try discriminate; intros ->; discriminate X. }
    rewrite Es, (from_str_sign sign neg body Sg ltac:(auto)), P. reflexivity.
Qed.
Theorem quantity_text_iff s : (exists d, d_from_str s = Some d) <-> exists neg whole frac, quantity_text s neg whole frac.
Proof.
  split.
  - intros (d & H). apply quantity_text_read in H as (neg & whole & frac & H & _). eauto.
  - intros (neg & whole & frac & H). apply quantity_text_value in H. eauto.
Qed.
