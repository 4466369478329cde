(** Proofs about the code that nothing calls. *)
From Coq Require Import String List NArith ZArith Bool Lia.
From Verif Require Import Base Decimal Amount Pool Journal Scanner Parser Unfinished.
From Verif Require Import SpecDecimal SpecAmount SpecWhole SpecUnfinished BaseFacts DecimalFacts WholeProofs.
Import ListNotations.
Open Scope list_scope.

(** ** The reader *)
Lemma diter_runs lines : forall buf rest, calls diter_next (mkDiter (map Some lines ++ rest) buf) (map (fun _ => Some DComment) lines) (mkDiter rest (buf ++ concat lines)).
Proof.
  induction lines as [|l lines IH]; intros buf rest; cbn [map concat app].
  - rewrite app_nil_r. constructor.
  - econstructor; [reflexivity|]. cbn [di_rest di_buffer]. rewrite app_assoc. apply IH.
Qed.
Lemma diter_loop lines : forall buf items it, loop diter_next (mkDiter (map Some lines) buf) items it <-> items = repeat DComment (length lines) /\ it = mkDiter [] (buf ++ concat lines).
Proof.
  induction lines as [|l lines IH]; intros buf items it; cbn [map concat repeat length].
  - rewrite app_nil_r. split.
    + intros H. inversion H as [s s' E|s a s' is s'' E L]; subst; cbn in E; [|discriminate]. injection E as <-. auto.
    + intros [-> ->]. constructor. reflexivity.
  - split.
    + intros H. inversion H as [s s' E|s a s' is s'' E L]; subst; cbn in E; [discriminate|]. injection E as <- <-. cbn [di_buffer] in L. apply IH in L.
      destruct L as [-> ->]. rewrite app_assoc. auto.
    + intros [-> ->]. econstructor; [reflexivity|]. cbn [di_buffer]. apply IH. rewrite app_assoc. auto.
Qed.
Lemma reader_items t lines items it : lines_of t lines ->
  (loop diter_next (create_str_reader t) items it <-> items = repeat DComment (length lines) /\ it = mkDiter [] t).
Proof.
  intros L. unfold create_str_reader, diter_new, text_source. rewrite (split_lines_of _ _ L), diter_loop. cbn [app]. destruct L as [-> _]. reflexivity.
Qed.
Lemma reader_at_end b l it : calls diter_next (mkDiter [] b) l it -> Forall (eq None) l /\ it = mkDiter [] b.
Proof.
  remember (mkDiter [] b) as s eqn:E. induction 1 as [s|s a s' l s'' N C IH]; [auto|]. subst s. cbn in N. injection N as <- <-. destruct (IH eq_refl) as [F ->]. auto.
Qed.
Lemma reader_fused it : fused diter_next it.
Proof.
  intros l s' C. induction C as [s|s a s' l s'' N C IH]; intros i j L A B; [destruct i; discriminate|].
  destruct j as [|j]; [lia|]. destruct i as [|i].
  - cbn in A. injection A as ->. destruct s as [[|[x|] r] b]; cbn in N; try discriminate. injection N as <-. apply reader_at_end in C. destruct C as [F _].
    cbn in B |- *. destruct (nth_error l j) as [x|] eqn:E; [|congruence]. apply nth_error_In in E. rewrite Forall_forall in F. rewrite <- (F _ E). reflexivity.
  - cbn in *. eapply IH; [|exact A|exact B]. lia.
Qed.
Lemma reader_undecodable lines rest it : calls diter_next (mkDiter (map Some lines ++ None :: rest) []) (map (fun _ => Some DComment) lines) it ->
  fails (diter_next it).
Proof.
  intros C. pose proof (diter_runs lines [] (None :: rest)) as R.
  assert (D : forall (s : diter) (l : list (option directive)) x, calls diter_next s l x -> forall y, calls diter_next s l y -> x = y).
  { induction 1 as [s|s a s' l s'' N C' IH]; intros y Hy; inversion Hy as [|? ? ? ? ? N2 C2]; subst; [reflexivity|]. rewrite N in N2. injection N2 as <-. apply IH, C2. }
  rewrite (D _ _ _ C _ R). eexists. reflexivity.
Qed.

(** ** The counter *)
Lemma siter_step b c : (c < 100)%N -> siter_next b c = Ok (Some (DXact xact_default), (c + 1)%N).
Proof.
  intros H. unfold siter_next. replace (c =? 255)%N with false by (symmetry; apply N.eqb_neq; lia). cbn [andb]. rewrite N.mod_small by lia.
  replace (100 <? c + 1)%N with false by (symmetry; apply N.ltb_ge; lia). reflexivity.
Qed.
Lemma siter_none b c : (100 <= c < 255)%N -> siter_next b c = Ok (None, (c + 1)%N).
Proof.
  intros H. unfold siter_next. replace (c =? 255)%N with false by (symmetry; apply N.eqb_neq; lia). cbn [andb]. rewrite N.mod_small by lia.
  replace (100 <? c + 1)%N with true by (symmetry; apply N.ltb_lt; lia). reflexivity.
Qed.
Lemma siter_loop b n : forall c, (c + N.of_nat n = 100)%N -> forall items s, loop (siter_next b) c items s <-> items = repeat (DXact xact_default) n /\ s = 101%N.
Proof.
  induction n as [|n IH]; intros c H items s.
  - assert (c = 100%N) by lia. subst c. split.
    + intros L. inversion L as [? ? E|? ? ? ? ? E L']; subst; rewrite siter_none in E by lia; [injection E as <-; auto|discriminate].
    + intros [-> ->]. constructor. rewrite siter_none by lia. reflexivity.
  - split.
    + intros L. inversion L as [? ? E|? ? ? ? ? E L']; subst; rewrite siter_step in E by lia; [discriminate|]. injection E as <- <-.
      apply IH in L'; [|lia]. destruct L' as [-> ->]. auto.
    + intros [-> ->]. cbn [repeat]. econstructor; [apply siter_step; lia|]. apply IH; [lia|auto].
Qed.
Lemma simple_items b items s : loop (siter_next b) siter_new items s <-> items = repeat (DXact xact_default) 100 /\ s = 101%N.
Proof. apply (siter_loop b 100). reflexivity. Qed.
Lemma siter_rest b n : forall c, (100 <= c)%N -> (c + N.of_nat n <= 255)%N -> calls (siter_next b) c (repeat None n) (c + N.of_nat n)%N.
Proof.
  induction n as [|n IH]; intros c A B; cbn [repeat].
  - rewrite N.add_0_r. constructor.
  - econstructor; [apply siter_none; lia|]. replace (c + N.of_nat (S n))%N with (c + 1 + N.of_nat n)%N by lia. apply IH; lia.
Qed.
Lemma siter_first b n : forall c, (c + N.of_nat n <= 100)%N -> calls (siter_next b) c (repeat (Some (DXact xact_default)) n) (c + N.of_nat n)%N.
Proof.
  induction n as [|n IH]; intros c B; cbn [repeat].
  - rewrite N.add_0_r. constructor.
  - econstructor; [apply siter_step; lia|]. replace (c + N.of_nat (S n))%N with (c + 1 + N.of_nat n)%N by lia. apply IH; lia.
Qed.
Lemma calls_app {S A} (next : S -> outcome (option A * S)) l1 l2 : forall s s' s'', calls next s l1 s' -> calls next s' l2 s'' -> calls next s (l1 ++ l2) s''.
Proof. induction l1 as [|a l IH]; intros s s' s'' H1 H2; inversion H1; subst; [exact H2|]. cbn. econstructor; eauto. Qed.
Lemma calls_fun {S A} (next : S -> outcome (option A * S)) s l x : calls next s l x -> forall l' y, calls next s l' y -> length l' = length l -> l' = l /\ y = x.
Proof.
  induction 1 as [s|s a s' l x N C IH]; intros l' y H E; destruct l' as [|a' l']; try discriminate E; inversion H as [|? ? ? ? ? N2 C2]; subst; [auto|].
  rewrite N in N2. injection N2 as <- <-. destruct (IH _ _ C2) as [-> ->]; [cbn in E; lia|]. auto.
Qed.
Lemma calls_255 b : calls (siter_next b) siter_new (repeat (Some (DXact xact_default)) 100 ++ repeat None 155) 255%N.
Proof. eapply calls_app; [apply (siter_first b 100 0); reflexivity|apply (siter_rest b 155 100); [lia|reflexivity]]. Qed.
Lemma simple_not_fused : ~ fused (siter_next false) siter_new.
Proof.
  intros F. specialize (F (repeat (Some (DXact xact_default)) 100 ++ repeat None 155 ++ [Some (DXact xact_default)]) 0%N).
  assert (C : calls (siter_next false) siter_new (repeat (Some (DXact xact_default)) 100 ++ repeat None 155 ++ [Some (DXact xact_default)]) 0%N).
  { rewrite app_assoc. eapply calls_app; [apply calls_255|]. econstructor; [reflexivity|constructor]. }
  specialize (F C 100%nat 255%nat). assert (X : nth_error (repeat (Some (DXact xact_default)) 100 ++ repeat None 155 ++ [Some (DXact xact_default)]) 255 = Some None).
  { apply F; [lia|reflexivity|discriminate]. }
  discriminate X.
Qed.
Lemma simple_overflow : exists l s, length l = 255%nat /\ calls (siter_next true) siter_new l s /\ fails (siter_next true s).
Proof. eexists _, _. split; [|split; [apply calls_255|eexists; reflexivity]]. reflexivity. Qed.
Lemma simple_while b l s : calls (siter_next b) siter_new l s -> (length l <= 255)%nat ->
  l = repeat (Some (DXact xact_default)) (min 100 (length l)) ++ repeat None (length l - 100).
Proof.
  intros C H.
  assert (D : calls (siter_next b) siter_new (repeat (Some (DXact xact_default)) (min 100 (length l)) ++ repeat None (length l - 100)) (N.of_nat (length l))).
  { eapply calls_app; [apply (siter_first b (min 100 (length l)) 0); lia|]. cbn [N.add].
    destruct (Nat.le_gt_cases (length l) 100) as [Q|Q].
    - replace (length l - 100)%nat with 0%nat by lia. rewrite Nat.min_r by lia. constructor.
    - replace (N.of_nat (length l)) with (N.of_nat (min 100 (length l)) + N.of_nat (length l - 100))%N by lia. apply siter_rest; lia. }
  destruct (calls_fun _ _ _ _ D _ _ C) as [E _]; [|exact E]. rewrite app_length, !repeat_length. lia.
Qed.

(** ** Unfinished functions *)
Lemma lookups_fail : (forall c, fails (find_option c)) /\ (forall k c, fails (lookup_option_global k c)) /\ (forall k n, fails (session_lookup k n))
  /\ (forall c, fails (session_lookup_option c)) /\ (forall k n, fails (lookup_report k n)) /\ (forall c, fails (lookup_option_report c)).
Proof.
  split; [|split; [|split; [|split; [|split]]]]; intros.
  - eexists; reflexivity.
  - destruct k; eexists; reflexivity.
  - unfold session_lookup. destruct (hd_error n) as [c|]; cbn [unwrap bind]; [|eexists; reflexivity]. destruct k; eexists; reflexivity.
  - eexists; reflexivity.
  - unfold lookup_report. destruct (hd_error n) as [c|]; cbn [unwrap bind]; [|eexists; reflexivity]. destruct k; try (eexists; reflexivity).
    destruct (c =? 97)%N; [destruct (str_eqb _ _); eexists; reflexivity|]. destruct (c =? 98)%N; [eexists; reflexivity|]. destruct (c =? 112)%N; eexists; reflexivity.
  - eexists; reflexivity.
Qed.
Lemma exchange_commodities_fails cs p : fails (exchange_commodities cs p).
Proof. unfold exchange_commodities. destruct (_ && _); [destruct (pool_find_or_create _ _ _)|]; eexists; reflexivity. Qed.

(** ** Elements *)
Definition is_sep (c : N) : bool := ((c =? 32) || (c =? 9))%N.
Lemma is_sep_spec c : is_sep c = true <-> separator c.
Proof. unfold is_sep, separator. rewrite orb_true_iff, !N.eqb_eq. reflexivity. Qed.
Lemma split_sep s : (find_char is_sep s = None /\ Forall (fun c => ~ separator c) s)
  \/ exists e c r, s = e ++ c :: r /\ Forall (fun c => ~ separator c) e /\ separator c /\ find_char is_sep s = Some (length e).
Proof.
  induction s as [|x s IH]; [left; split; [reflexivity|constructor]|]. cbn [find_char]. destruct (is_sep x) eqn:E.
  - right. exists [], x, s. split; [reflexivity|]. split; [constructor|]. split; [apply is_sep_spec, E|reflexivity].
  - assert (N : ~ separator x) by (rewrite <- is_sep_spec; congruence). destruct IH as [[-> F]|(e & c & r & -> & F & Sc & ->)].
    + left. split; [reflexivity|constructor; assumption].
    + right. exists (x :: e), c, r. split; [reflexivity|]. split; [constructor; assumption|]. split; [exact Sc|reflexivity].
Qed.
Lemma first_unique (e e' : str) c c' r r' : Forall (fun c => ~ separator c) e -> Forall (fun c => ~ separator c) e' -> separator c -> separator c' ->
  e ++ c :: r = e' ++ c' :: r' -> e = e' /\ c :: r = c' :: r'.
Proof.
  revert e'. induction e as [|x e IH]; intros [|x' e'] F F' Sc Sc' E; cbn in E.
  - auto.
  - injection E as -> _. inversion F'; subst. contradiction.
  - injection E as -> _. inversion F; subst. contradiction.
  - injection E as -> E. inversion F; inversion F'; subst. destruct (IH e') as [-> E']; auto.
Qed.
Lemma next_element_spec s e : next_element s = Some e <-> exists c r, s = e ++ c :: r /\ Forall (fun c => ~ separator c) e /\ separator c.
Proof.
  unfold next_element. change (fun c : N => ((c =? 32) || (c =? 9))%N) with is_sep. destruct (split_sep s) as [[-> F]|(e0 & c & r & -> & F & Sc & ->)]; split.
  - discriminate.
  - intros (c & r & -> & _ & Sc). apply Forall_app in F. destruct F as [_ F]. inversion F; subst. contradiction.
  - intros H. injection H as <-. rewrite firstn_app, Nat.sub_diag, firstn_all. cbn [firstn]. rewrite app_nil_r. eauto.
  - intros (c' & r' & E & F' & Sc'). destruct (first_unique _ _ _ _ _ _ F F' Sc Sc' E) as [<- _]. rewrite firstn_app, Nat.sub_diag, firstn_all. cbn [firstn]. rewrite app_nil_r. reflexivity.
Qed.
Lemma price_element_spec s e r : scan_price_element s = (e, r) <-> s = e ++ r /\ Forall (fun c => ~ separator c) e /\ (r = [] \/ exists c r', r = c :: r' /\ separator c).
Proof.
  unfold scan_price_element. change (fun c : N => ((c =? 32) || (c =? 9))%N) with is_sep. destruct (split_sep s) as [[-> F]|(e0 & c & r0 & -> & F & Sc & ->)]; split.
  - intros H. injection H as <- <-. rewrite app_nil_r. auto.
  - intros (-> & F' & [->|(c & r' & -> & Sc)]); [rewrite app_nil_r; reflexivity|]. apply Forall_app in F. destruct F as [_ F]. inversion F; subst. contradiction.
  - intros H. rewrite firstn_app, skipn_app, Nat.sub_diag, firstn_all, skipn_all in H. cbn [firstn skipn app] in H. rewrite app_nil_r in H. injection H as <- <-. eauto 8.
  - intros (E & F' & H). rewrite firstn_app, skipn_app, Nat.sub_diag, firstn_all, skipn_all. cbn [firstn skipn app]. rewrite app_nil_r.
    destruct H as [->|(c' & r' & -> & Sc')].
    + rewrite app_nil_r in E. subst e. apply Forall_app in F'. destruct F' as [_ F']. inversion F'; subst. contradiction.
    + destruct (first_unique _ _ _ _ _ _ F F' Sc Sc' E) as [<- ->]. reflexivity.
Qed.

(** ** Integers *)
Lemma from_i32_value z : units (quantity_from_i32 z) = (z * 10 ^ 28)%Z.
Proof.
  unfold units, quantity_from_i32, d_of_int. cbn [d_neg d_m d_s Nat.sub]. change (10 ^ Z.of_nat 28)%Z with (10 ^ 28)%Z.
  f_equal. destruct (Z.ltb_spec z 0); lia.
Qed.
Lemma truncation_unique u z z' : truncation u z -> truncation u z' -> z = z'.
Proof.
  unfold truncation. generalize (10 ^ 28)%Z. intros k [A B] [A' B']. assert (Z.abs z = Z.abs z') by nia.
  assert (K : (0 < k)%Z) by nia. destruct (Z.eq_dec z z') as [E|N]; [exact E|]. assert (z' = - z)%Z by lia. subst z'. assert (z <> 0)%Z by lia. assert (u = 0)%Z by nia. subst u. nia.
Qed.
Lemma quot_truncation d : wf_dec d -> truncation (units d) (Z.quot (d_signed d) (p10 (d_s d))).
Proof.
  intros [M S]. unfold units. fold (d_signed d). unfold truncation, p10.
  replace (10 ^ 28)%Z with (10 ^ Z.of_nat (d_s d) * 10 ^ Z.of_nat (28 - d_s d))%Z by (rewrite <- Z.pow_add_r by lia; f_equal; lia).
  assert (K : (0 < 10 ^ Z.of_nat (d_s d))%Z) by (apply Z.pow_pos_nonneg; lia). assert (L : (0 < 10 ^ Z.of_nat (28 - d_s d))%Z) by (apply Z.pow_pos_nonneg; lia).
  revert K L. generalize (10 ^ Z.of_nat (d_s d))%Z (10 ^ Z.of_nat (28 - d_s d))%Z (d_signed d). intros k l m K L. clear -K L.
  pose proof (Z.quot_rem' m k) as E. pose proof (Z.rem_bound_abs m k ltac:(lia)) as B. pose proof (Z.rem_sign_mul m k ltac:(lia)) as Sg.
  pose proof (Z.quot_abs m k ltac:(lia)) as Q. rewrite (Z.abs_eq k) in Q by lia. rewrite <- Q.
  assert (P : (0 <= Z.abs m ÷ k)%Z) by (apply Z.quot_pos; lia). assert (P2 : (k * (Z.abs m ÷ k) <= Z.abs m)%Z) by (apply Z.mul_quot_le; lia).
  assert (P3 : (Z.abs m < k * Z.succ (Z.abs m ÷ k))%Z) by (apply Z.mul_succ_quot_gt; lia).
  rewrite Z.abs_mul, (Z.abs_eq l) by lia. split; [|nia].
  assert (0 <= (m ÷ k) * m)%Z; [|nia]. destruct (Z.le_ge_cases 0 m) as [Hm|Hm].
  - pose proof (Z.quot_pos m k Hm K). nia.
  - pose proof (Z.quot_opp_l m k ltac:(lia)) as O. pose proof (Z.quot_pos (- m) k ltac:(lia) K). nia.
Qed.
Lemma into_i32_spec d z : wf_dec d -> (quantity_into_i32 d = Ok z <-> truncation (units d) z /\ (- 2 ^ 31 <= z < 2 ^ 31)%Z).
Proof.
  intros W. pose proof (quot_truncation d W) as T. unfold quantity_into_i32. revert T. generalize (Z.quot (d_signed d) (p10 (d_s d))). intros q T. cbv zeta.
  destruct ((- 2 ^ 31 <=? q) && (q <? 2 ^ 31))%Z eqn:E.
  - apply andb_true_iff in E. destruct E as [E1 E2]. apply Z.leb_le in E1. apply Z.ltb_lt in E2. split; [intros H; injection H as <-; auto|].
    intros [T' _]. f_equal. eapply truncation_unique; eassumption.
  - split; [discriminate|]. intros [T' [A B]]. assert (q = z) by (eapply truncation_unique; eassumption). subst q.
    apply andb_false_iff in E. destruct E as [E|E]; [apply Z.leb_gt in E|apply Z.ltb_ge in E]; lia.
Qed.
Lemma into_i32_fails d : wf_dec d -> (fails (quantity_into_i32 d) <-> (units d <= (- 2 ^ 31 - 1) * 10 ^ 28 \/ 2 ^ 31 * 10 ^ 28 <= units d)%Z).
Proof.
  intros W. pose proof (quot_truncation d W) as T. unfold fails, quantity_into_i32. revert T. generalize (Z.quot (d_signed d) (p10 (d_s d))). generalize (units d). intros u q T. cbv zeta.
  revert T. unfold truncation. generalize (eq_refl : (0 <? 10 ^ 28)%Z = true). generalize (10 ^ 28)%Z. intros k K (A & B & C). apply Z.ltb_lt in K.
  change (2 ^ 31)%Z with 2147483648%Z. destruct ((Z.opp 2147483648 <=? q) && (q <? 2147483648))%Z eqn:E.
  - apply andb_true_iff in E. destruct E as [E1 E2]. apply Z.leb_le in E1. apply Z.ltb_lt in E2. split; [intros [p H]; discriminate|]. intros [H|H]; exfalso.
    + assert (Z.abs q <= 2147483648 \/ 0 < q)%Z as [X|X] by lia; [|nia]. assert (- u = Z.abs u)%Z by nia. nia.
    + assert (Z.abs q <= 2147483647 \/ q < 0)%Z as [X|X] by lia; [|nia]. assert (u = Z.abs u)%Z by nia. nia.
  - apply andb_false_iff in E. split; [intros _|eauto]. destruct E as [E|E]; [apply Z.leb_gt in E; left|apply Z.ltb_ge in E; right]; nia.
Qed.
Lemma i32_round_trip z : (- 2 ^ 31 <= z < 2 ^ 31)%Z -> quantity_into_i32 (quantity_from_i32 z) = Ok z.
Proof.
  intros H. apply into_i32_spec.
  - unfold quantity_from_i32, d_of_int. split; cbn [d_m d_s]; lia.
  - split; [|exact H]. rewrite from_i32_value. unfold truncation. generalize (eq_refl : (0 <? 10 ^ 28)%Z = true). generalize (10 ^ 28)%Z. intros k K. apply Z.ltb_lt in K.
    rewrite Z.abs_mul, (Z.abs_eq k) by lia. split; nia.
Qed.

(** ** The buffer *)
Lemma buffer_refuted : ~ (forall lines it, calls diter_next (diter_new (map Some lines)) (map (fun _ => Some DComment) lines) it -> lines <> [] -> di_buffer it = last lines []).
Proof.
  intros H. specialize (H [[97%N; 10%N]; [98%N]] _ (diter_runs [[97%N; 10%N]; [98%N]] [] [])). discriminate (H ltac:(discriminate)).
Qed.
Lemma buffer_all lines rest n it : calls diter_next (diter_new (map Some lines ++ rest)) n it -> length n = length lines -> di_buffer it = concat lines.
Proof.
  intros C E. destruct (calls_fun _ _ _ _ (diter_runs lines [] rest) _ _ C) as [_ ->]; [rewrite map_length; exact E|reflexivity].
Qed.
