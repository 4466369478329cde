(** Lemmas about the text and list functions of [Base.v]. *)
From Coq Require Import List NArith ZArith Bool Lia Permutation Sorted.
From Verif Require Import Base.
Import ListNotations.
Open Scope nat_scope.

(** ** Outcomes *)
Lemma bind_ok {A B} (m : outcome A) (k : A -> outcome B) b :
  bind m k = Ok b -> exists a, m = Ok a /\ k a = Ok b.
Proof. destruct m as [a|p|]; cbn; intros H; try discriminate. exists a. auto. Qed.

Lemma unwrap_ok {A} (o : option A) a : unwrap o = Ok a -> o = Some a.
Proof. destruct o; cbn; intros H; congruence. Qed.

(** Invert every [bind] in a hypothesis [_ = Ok _]. *)
Ltac inv_bind H :=
  let a := fresh "v" in let H1 := fresh "EQ" in
  apply bind_ok in H; destruct H as [a [H1 H]].

Lemma fold_outcome_app {A S} (f : S -> A -> outcome S) l1 l2 s :
  fold_outcome f (l1 ++ l2) s = bind (fold_outcome f l1 s) (fold_outcome f l2).
Proof.
  revert s; induction l1 as [|a l1 IH]; intros s; cbn [fold_outcome app bind]; [reflexivity|].
  destruct (f s a); cbn [bind]; auto.
Qed.

(** ** Equality and order of texts *)
Lemma str_eqb_eq a b : str_eqb a b = true <-> a = b.
Proof.
  revert b; induction a as [|x a IH]; intros [|y b]; cbn [str_eqb]; try (split; congruence).
  rewrite andb_true_iff, N.eqb_eq, IH. split; [intros [-> ->]; reflexivity|].
  intros H; injection H; auto.
Qed.
Lemma str_eqb_refl a : str_eqb a a = true.
Proof. apply str_eqb_eq; reflexivity. Qed.
Lemma str_eqb_neq a b : str_eqb a b = false <-> a <> b.
Proof. rewrite <- not_true_iff_false, str_eqb_eq. reflexivity. Qed.
Lemma str_eqb_sym a b : str_eqb a b = str_eqb b a.
Proof.
  destruct (str_eqb a b) eqn:E1; destruct (str_eqb b a) eqn:E2; try reflexivity.
  - apply str_eqb_eq in E1. subst. rewrite str_eqb_refl in E2. discriminate.
  - apply str_eqb_eq in E2. subst. rewrite str_eqb_refl in E1. discriminate.
Qed.
Lemma str_eq_dec (a b : str) : {a = b} + {a <> b}.
Proof. destruct (str_eqb a b) eqn:E; [left; apply str_eqb_eq|right; apply str_eqb_neq]; auto. Qed.

Lemma str_leb_refl a : str_leb a a = true.
Proof.
  induction a as [|x a IH]; cbn [str_leb]; [reflexivity|].
  rewrite N.ltb_irrefl, N.eqb_refl. exact IH.
Qed.
Lemma str_leb_total a b : str_leb a b = true \/ str_leb b a = true.
Proof.
  revert b; induction a as [|x a IH]; intros [|y b]; cbn [str_leb]; auto.
  destruct (N.ltb_spec x y) as [H|H]; auto.
  destruct (N.eqb_spec x y) as [->|H'].
  - rewrite N.ltb_irrefl, N.eqb_refl. apply IH.
  - destruct (N.ltb_spec y x); auto. lia.
Qed.
Lemma str_leb_trans a b c : str_leb a b = true -> str_leb b c = true -> str_leb a c = true.
Proof.
  revert b c; induction a as [|x a IH]; intros [|y b] [|z c]; cbn [str_leb]; auto; try discriminate.
  destruct (N.ltb_spec x y) as [H|H].
  - intros _ H2. destruct (N.ltb_spec y z) as [H3|H3].
    + destruct (N.ltb_spec x z); [reflexivity|lia].
    + destruct (N.eqb_spec y z) as [->|]; [|discriminate].
      destruct (N.ltb_spec x z); [reflexivity|lia].
  - destruct (N.eqb_spec x y) as [->|]; [|discriminate]. intros H1 H2.
    destruct (N.ltb_spec y z); [reflexivity|]. destruct (N.eqb_spec y z) as [->|]; [|discriminate].
    eapply IH; eauto.
Qed.
Lemma str_leb_antisym a b : str_leb a b = true -> str_leb b a = true -> a = b.
Proof.
  revert b; induction a as [|x a IH]; intros [|y b]; cbn [str_leb]; auto; try discriminate.
  destruct (N.ltb_spec x y) as [H|H]; destruct (N.ltb_spec y x) as [H'|H']; try lia.
  - destruct (N.eqb_spec y x); [lia|discriminate].
  - destruct (N.eqb_spec x y); [lia|discriminate].
  - destruct (N.eqb_spec x y) as [->|]; [|discriminate]. rewrite N.eqb_refl.
    intros H1 H2. f_equal. apply IH; auto.
Qed.

(** ** Sorting *)
Section Sort.
  Context {A : Type}.
  Implicit Types l : list (str * A).

  Lemma insert_key_perm x l : Permutation (x :: l) (insert_key x l).
  Proof.
    induction l as [|y l IH]; cbn [insert_key]; [reflexivity|].
    destruct (str_leb (fst x) (fst y)); [reflexivity|].
    rewrite perm_swap. constructor. exact IH.
  Qed.
  Lemma sort_key_perm l : Permutation l (sort_key l).
  Proof.
    induction l as [|x l IH]; cbn [sort_key]; [reflexivity|].
    rewrite <- insert_key_perm. constructor. exact IH.
  Qed.

  Definition key_le (x y : str * A) : Prop := str_leb (fst x) (fst y) = true.
  Lemma insert_key_sorted x l : StronglySorted key_le l -> StronglySorted key_le (insert_key x l).
  Proof.
    induction 1 as [|y l Hs IH Hf]; cbn [insert_key].
    - constructor; constructor.
    - destruct (str_leb (fst x) (fst y)) eqn:E.
      + constructor; [constructor; assumption|]. constructor; [exact E|].
        eapply Forall_impl; [|exact Hf]. intros z Hz. eapply str_leb_trans; eassumption.
      + constructor; [exact IH|].
        eapply Permutation_Forall; [apply insert_key_perm|]. constructor; [|exact Hf].
        destruct (str_leb_total (fst x) (fst y)) as [H|H]; [congruence|exact H].
  Qed.
  Lemma sort_key_sorted l : StronglySorted key_le (sort_key l).
  Proof. induction l as [|x l IH]; cbn [sort_key]; [constructor|apply insert_key_sorted, IH]. Qed.

  Lemma sorted_keys_unique l1 l2 :
    Permutation l1 l2 -> NoDup (map fst l1) ->
    StronglySorted key_le l1 -> StronglySorted key_le l2 -> l1 = l2.
  Proof.
    revert l2; induction l1 as [|x l1 IH]; intros l2 P N S1 S2.
    - apply Permutation_nil in P. auto.
    - destruct l2 as [|y l2]; [symmetry in P; apply Permutation_nil in P; discriminate|].
      inversion S1 as [|? ? S1' F1]; inversion S2 as [|? ? S2' F2]; subst.
      inversion N as [|? ? N1 N2]; subst.
      assert (x = y).
      { assert (Hx : In x (y :: l2)) by (eapply Permutation_in; [exact P|left; reflexivity]).
        assert (Hy : In y (x :: l1))
          by (eapply Permutation_in; [symmetry; exact P|left; reflexivity]).
        destruct Hx as [Hx|Hx]; [auto|]. destruct Hy as [Hy|Hy]; [auto|].
        rewrite Forall_forall in F1, F2. pose proof (F1 _ Hy) as L1. pose proof (F2 _ Hx) as L2.
        pose proof (str_leb_antisym _ _ L1 L2) as E. exfalso. apply N1. rewrite E.
        apply in_map. exact Hy. }
      subst y. f_equal. apply IH; auto. eapply Permutation_cons_inv; exact P.
  Qed.

  (** Sorting by pairwise different keys does not depend on the original order. *)
  Lemma sort_key_perm_eq l1 l2 :
    Permutation l1 l2 -> NoDup (map fst l1) -> sort_key l1 = sort_key l2.
  Proof.
    intros P N. apply sorted_keys_unique.
    - rewrite <- (sort_key_perm l1), <- (sort_key_perm l2). exact P.
    - eapply Permutation_NoDup; [|exact N]. apply Permutation_map, sort_key_perm.
    - apply sort_key_sorted.
    - apply sort_key_sorted.
  Qed.
End Sort.

Lemma insert_key_map {A B} (f : A -> B) x l :
  insert_key (fst x, f (snd x)) (map (fun p => (fst p, f (snd p))) l)
  = map (fun p => (fst p, f (snd p))) (insert_key x l).
Proof.
  induction l as [|y l IH]; cbn [insert_key map fst snd]; [reflexivity|].
  destruct (str_leb (fst x) (fst y)); cbn [map]; [reflexivity|]. f_equal. exact IH.
Qed.
Lemma sort_key_map {A B} (f : A -> B) l :
  sort_key (map (fun p => (fst p, f (snd p))) l) = map (fun p => (fst p, f (snd p))) (sort_key l).
Proof.
  induction l as [|x l IH]; cbn [sort_key map]; [reflexivity|]. rewrite IH. apply insert_key_map.
Qed.

(** ** Association lists *)
Lemma lookup_insert {A} k (a : A) m k' :
  lookup k' (insert k a m) = if str_eqb k' k then Some a else lookup k' m.
Proof.
  induction m as [|[k1 a1] m IH]; cbn [insert lookup].
  - destruct (str_eqb k' k); reflexivity.
  - destruct (str_eqb k k1) eqn:E; cbn [lookup].
    + apply str_eqb_eq in E. subst k1. destruct (str_eqb k' k); reflexivity.
    + destruct (str_eqb k' k1) eqn:E1; [|exact IH].
      destruct (str_eqb k' k) eqn:E2; [|reflexivity].
      apply str_eqb_eq in E1, E2. subst. rewrite str_eqb_refl in E. discriminate.
Qed.
Lemma lookup_in {A} k (m : list (str * A)) : lookup k m <> None <-> In k (map fst m).
Proof.
  induction m as [|[k1 a1] m IH]; cbn [lookup map fst In]; [intuition congruence|].
  destruct (str_eqb k k1) eqn:E.
  - apply str_eqb_eq in E. subst. split; [auto|congruence].
  - apply str_eqb_neq in E. rewrite IH. intuition congruence.
Qed.
Lemma insert_keys_new {A} k (a : A) m :
  lookup k m = None -> insert k a m = m ++ [(k, a)].
Proof.
  induction m as [|[k1 a1] m IH]; cbn [lookup insert app]; [reflexivity|].
  destruct (str_eqb k k1); [discriminate|]. intros H. rewrite IH; auto.
Qed.

(** ** update_nth *)
Lemma update_nth_length {A} n (f : A -> A) l : length (update_nth n f l) = length l.
Proof. revert n; induction l as [|x l IH]; intros [|n]; cbn; auto. Qed.
Lemma nth_error_update_nth {A} n (f : A -> A) l i :
  nth_error (update_nth n f l) i
  = if i =? n then option_map f (nth_error l i) else nth_error l i.
Proof.
  revert n i; induction l as [|x l IH]; intros [|n] [|i]; cbn; try reflexivity.
  - destruct (i =? n); reflexivity.
  - apply IH.
Qed.
Lemma update_nth_last {A} (f : A -> A) l x :
  update_nth (length l) f (l ++ [x]) = l ++ [f x].
Proof. induction l as [|y l IH]; cbn; [reflexivity|]. f_equal. exact IH. Qed.
Lemma update_nth_id {A} n (f : A -> A) l :
  (forall x, nth_error l n = Some x -> f x = x) -> update_nth n f l = l.
Proof.
  revert n; induction l as [|x l IH]; intros [|n] H; cbn; try reflexivity.
  - rewrite H; reflexivity.
  - f_equal. apply IH. exact H.
Qed.
Lemma map_update_nth {A B} (g : A -> B) n (f : A -> A) l :
  (forall x, g (f x) = g x) -> map g (update_nth n f l) = map g l.
Proof.
  intros H. revert n; induction l as [|x l IH]; intros [|n]; cbn; try reflexivity.
  - f_equal. apply H.
  - f_equal. apply IH.
Qed.

(** ** Searching *)
Lemma find_char_app p s t :
  forallb (fun c => negb (p c)) s = true ->
  find_char p (s ++ t) = option_map (fun i => length s + i) (find_char p t).
Proof.
  induction s as [|c s IH]; cbn [forallb app find_char length].
  - intros _. destruct (find_char p t); reflexivity.
  - rewrite andb_true_iff, negb_true_iff. intros [-> H]. rewrite (IH H).
    destruct (find_char p t); cbn; reflexivity.
Qed.
Lemma find_char_none p s : find_char p s = None <-> forallb (fun c => negb (p c)) s = true.
Proof.
  induction s as [|c s IH]; cbn [find_char forallb]; [tauto|].
  destruct (p c) eqn:E; cbn; [split; discriminate|].
  destruct (find_char p s); cbn; [|tauto]. rewrite <- IH. split; discriminate.
Qed.
Lemma find_char_some p s i :
  find_char p s = Some i ->
  exists c t, s = firstn i s ++ c :: t /\ p c = true /\ length (firstn i s) = i
            /\ forallb (fun c => negb (p c)) (firstn i s) = true /\ skipn i s = c :: t.
Proof.
  revert i; induction s as [|c s IH]; cbn [find_char]; [discriminate|].
  intros i. destruct (p c) eqn:E.
  - intros H; injection H as <-. exists c, s. cbn. auto.
  - destruct (find_char p s) as [j|] eqn:F; cbn [option_map]; [|discriminate].
    intros H; injection H as <-. destruct (IH j eq_refl) as (d & t & H1 & H2 & H3 & H4 & H5).
    exists d, t. cbn [firstn length forallb skipn app]. rewrite E, H4, H3, <- H1, H5. cbn. auto.
Qed.
Lemma find_char_firstn p s i t :
  find_char p s = Some i -> find_char p (s ++ t) = Some i.
Proof.
  revert i; induction s as [|c s IH]; cbn [find_char app]; [discriminate|].
  intros i. destruct (p c); auto. destruct (find_char p s) as [j|]; cbn; [|discriminate].
  intros H; injection H as <-. rewrite (IH j eq_refl). reflexivity.
Qed.
Lemma find_char_here p s c t :
  forallb (fun c => negb (p c)) s = true -> p c = true -> find_char p (s ++ c :: t) = Some (length s).
Proof.
  intros H Hc. rewrite find_char_app by exact H. cbn [find_char]. rewrite Hc. cbn. f_equal. lia.
Qed.

Lemma firstn_app_exact {A} (s t : list A) : firstn (length s) (s ++ t) = s.
Proof. rewrite firstn_app, Nat.sub_diag, firstn_all. cbn. apply app_nil_r. Qed.
Lemma skipn_app_exact {A} (s t : list A) : skipn (length s) (s ++ t) = t.
Proof. rewrite skipn_app, Nat.sub_diag, skipn_all. reflexivity. Qed.

Lemma forallb_app_iff {A} (p : A -> bool) s t :
  forallb p (s ++ t) = true <-> forallb p s = true /\ forallb p t = true.
Proof. rewrite forallb_app, andb_true_iff. tauto. Qed.

(** ** Trimming *)
Definition starts_ws (s : str) : bool := match s with c :: _ => is_ws c | [] => false end.
Lemma trim_start_id s : starts_ws s = false -> trim_start s = s.
Proof. unfold trim_start; destruct s as [|c s]; cbn; [reflexivity|]. intros ->. reflexivity. Qed.
Lemma trim_start_app w s :
  forallb is_ws w = true -> trim_start (w ++ s) = trim_start s.
Proof.
  unfold trim_start. induction w as [|c w IH]; cbn; [reflexivity|].
  rewrite andb_true_iff. intros [-> H]. auto.
Qed.
Lemma trim_start_ws w : forallb is_ws w = true -> trim_start w = [].
Proof. intros H. rewrite <- (app_nil_r w), trim_start_app by exact H. reflexivity. Qed.
Lemma trim_start_spec s : exists w, s = w ++ trim_start s /\ forallb is_ws w = true
                                  /\ starts_ws (trim_start s) = false.
Proof.
  unfold trim_start. induction s as [|c s (w & H1 & H2 & H3)]; cbn [drop_while].
  - exists []. auto.
  - destruct (is_ws c) eqn:E.
    + exists (c :: w). cbn. rewrite E, H2, <- H1. auto.
    + exists []. cbn. auto.
Qed.
Definition ends_ws (s : str) : bool := starts_ws (rev s).
Lemma trim_end_id s : ends_ws s = false -> trim_end s = s.
Proof.
  unfold ends_ws, trim_end. intros H. change (drop_while is_ws (rev s)) with (trim_start (rev s)).
  rewrite trim_start_id by exact H. apply rev_involutive.
Qed.
Lemma forallb_rev {A} (p : A -> bool) l : forallb p (rev l) = forallb p l.
Proof.
  destruct (forallb p l) eqn:E.
  - apply forallb_forall. intros x Hx. rewrite forallb_forall in E. apply E. apply in_rev. auto.
  - apply not_true_iff_false. intros H. rewrite <- not_true_iff_false in E. apply E.
    rewrite forallb_forall in *. intros x Hx. apply H. apply in_rev in Hx. auto.
Qed.
Lemma trim_end_app s w : forallb is_ws w = true -> trim_end (s ++ w) = trim_end s.
Proof.
  intros H. unfold trim_end. rewrite rev_app_distr. f_equal.
  change (trim_start (rev w ++ rev s) = trim_start (rev s)).
  apply trim_start_app. rewrite forallb_rev. exact H.
Qed.
Lemma trim_pad w1 s w2 :
  forallb is_ws w1 = true -> forallb is_ws w2 = true ->
  starts_ws s = false -> ends_ws s = false -> trim (w1 ++ s ++ w2) = s.
Proof.
  intros H1 H2 H3 H4. unfold trim. rewrite trim_start_app by exact H1.
  destruct s as [|c s].
  - cbn [app]. rewrite trim_start_ws by exact H2. reflexivity.
  - rewrite trim_start_id by exact H3. rewrite trim_end_app by exact H2. apply trim_end_id, H4.
Qed.
Lemma ends_ws_app s c : ends_ws (s ++ [c]) = is_ws c.
Proof. unfold ends_ws. rewrite rev_app_distr. reflexivity. Qed.
Lemma starts_ws_app s t : s <> [] -> starts_ws (s ++ t) = starts_ws s.
Proof. destruct s; [congruence|reflexivity]. Qed.
Lemma ends_ws_app_r s t : t <> [] -> ends_ws (s ++ t) = ends_ws t.
Proof.
  intros H. unfold ends_ws. rewrite rev_app_distr. apply starts_ws_app.
  intros E. apply H. rewrite <- (rev_involutive t), E. reflexivity.
Qed.

Lemma is_digit_not_ws c : is_digit c = true -> is_ws c = false.
Proof.
  unfold is_digit, is_ws. intros H. apply andb_prop in H. destruct H as [H1 H2].
  apply N.leb_le in H1, H2.
  repeat rewrite orb_false_iff. repeat rewrite andb_false_iff.
  repeat split; try (apply N.eqb_neq; lia);
    try (left; apply N.leb_gt; lia); try (right; apply N.leb_gt; lia).
Qed.
