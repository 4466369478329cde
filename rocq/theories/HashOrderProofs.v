(** Proofs for C97: the order of the hash maps. *)
From Coq Require Import String List NArith ZArith Bool Lia Permutation.
From Verif Require Import Base Decimal Dates Amount Balance Scanner History Pool Account Journal Xact Parser Report Options Lib HashOrder OldReport.
From Verif Require Import SpecAccount SpecReport SpecValue SpecHashOrder.
From Verif Require Import BaseFacts PoolFacts AccountFacts TogetherProofs.
Import ListNotations.
Open Scope list_scope.
Open Scope nat_scope.

(** ** Trees *)
Definition alike (a a' : account) : Prop := wf_tree a /\ wf_tree a' /\ same_accounts a a'.
Lemma alike_refl a : wf_tree a -> alike a a.
Proof. intros W. repeat split; auto. Qed.
Lemma alike_sym a a' : alike a a' -> alike a' a.
Proof. intros (W & W' & N & P). repeat split; auto. Qed.
Lemma alike_trans a b c : alike a b -> alike b c -> alike a c.
Proof. intros (W & _ & N & P) (_ & W' & N' & P'). repeat split; auto; [congruence|]. intros p. rewrite P. apply P'. Qed.
Lemma alike_child a a' n c : alike a a' -> find_child n (ac_children a) = Some c -> exists c', find_child n (ac_children a') = Some c' /\ alike c c'.
Proof.
  intros (W & W' & N & P) F. pose proof (P [n]) as E. rewrite !posts_at_cons, F in E.
  destruct (find_child n (ac_children a')) as [c'|] eqn:F'; [|discriminate E]. exists c'. split; [reflexivity|].
  destruct (find_child_some _ _ _ F) as [I1 N1]. destruct (find_child_some _ _ _ F') as [I2 N2].
  split; [exact (wf_children _ _ W I1)|]. split; [exact (wf_children _ _ W' I2)|]. split; [congruence|].
  intros p. pose proof (P (n :: p)) as Q. rewrite !posts_at_cons, F, F' in Q. exact Q.
Qed.
Lemma wf_names a : wf_tree a -> NoDup (map ac_name (ac_children a)).
Proof. intros W. inversion W. assumption. Qed.
(** What is computed for the children, by name. *)
Lemma kids_sorted {B} (f f' : account -> B) a a' : alike a a' -> (forall c c', In c (ac_children a) -> alike c c' -> f c = f' c') ->
  sort_key (map (fun c => (ac_name c, f c)) (ac_children a)) = sort_key (map (fun c => (ac_name c, f' c)) (ac_children a')).
Proof.
  intros A K. pose proof (wf_names _ (proj1 A)) as N. pose proof (wf_names _ (proj1 (proj2 A))) as N'.
  assert (M : forall (g : account -> B) l, map fst (map (fun c => (ac_name c, g c)) l) = map ac_name l) by (intros g l; rewrite map_map; reflexivity).
  apply sort_key_perm_eq; [|rewrite M; exact N]. apply NoDup_Permutation.
  - apply (NoDup_map_inv fst). rewrite M. exact N.
  - apply (NoDup_map_inv fst). rewrite M. exact N'.
  - intros [k v]. rewrite !in_map_iff. split.
    + intros (c & [= <- <-] & I). destruct (alike_child _ _ _ _ A (find_child_in c _ N I)) as (c' & F & X). destruct (find_child_some _ _ _ F) as [I' E].
      exists c'. split; [|exact I']. f_equal; [exact E|]. symmetry. apply K; assumption.
    + intros (c' & [= <- <-] & I'). destruct (alike_child _ _ _ _ (alike_sym _ _ A) (find_child_in c' _ N' I')) as (c & F & X). destruct (find_child_some _ _ _ F) as [I E].
      exists c. split; [|exact I]. f_equal; [exact E|]. apply K; [exact I|apply alike_sym, X].
Qed.
Lemma alike_posts a a' : alike a a' -> ac_posts a = ac_posts a'.
Proof. intros (_ & _ & _ & P). pose proof (P []) as E. unfold posts_at in E. cbn in E. injection E. auto. Qed.
Lemma alike_total xs : forall a a', alike a a' -> account_total xs a = account_total xs a'.
Proof.
  apply (account_ind' (fun a => forall a', alike a a' -> account_total xs a = account_total xs a')). intros n cs ps IH [n' cs' ps'] A.
  pose proof (kids_sorted (account_total xs) (account_total xs) _ _ A ltac:(intros c c' I X; rewrite Forall_forall in IH; apply IH; assumption)) as K.
  pose proof (alike_posts _ _ A) as P. cbn [ac_children ac_posts] in K, P. cbn [account_total ac_children ac_posts]. rewrite K, P. reflexivity.
Qed.
Lemma alike_lines xs : forall a p a', alike a a' -> children_lines xs p a = children_lines xs p a'.
Proof.
  apply (account_ind' (fun a => forall p a', alike a a' -> children_lines xs p a = children_lines xs p a')). intros n cs ps IH p [n' cs' ps'] A.
  pose proof (kids_sorted (fun c => children_lines xs (p ++ [ac_name c]) c) (fun c => children_lines xs (p ++ [ac_name c]) c) _ _ A) as K.
  assert (K' : forall c c', In c (ac_children (Acct n cs ps)) -> alike c c' -> children_lines xs (p ++ [ac_name c]) c = children_lines xs (p ++ [ac_name c']) c').
  { intros c c' I X. rewrite Forall_forall in IH. replace (ac_name c') with (ac_name c) by (apply X). apply IH; assumption. }
  specialize (K K'). cbn [ac_children] in K. cbn [children_lines ac_children]. rewrite K, (alike_total xs _ _ A). reflexivity.
Qed.
Lemma concat_names l : map ac_name (concat l) = concat (map (map ac_name) l).
Proof. apply concat_map. Qed.
Lemma alike_flatten : forall a a', alike a a' -> map ac_name (flatten a) = map ac_name (flatten a').
Proof.
  apply (account_ind' (fun a => forall a', alike a a' -> map ac_name (flatten a) = map ac_name (flatten a'))). intros n cs ps IH [n' cs' ps'] A.
  pose proof (kids_sorted (fun c => map ac_name (flatten c)) (fun c => map ac_name (flatten c)) _ _ A ltac:(intros c c' I X; rewrite Forall_forall in IH; apply IH; assumption)) as K.
  cbn [ac_children] in K. cbn [flatten ac_children map]. f_equal; [apply A|].
  assert (G : forall l, map ac_name (concat (map snd (sort_key (map (fun c => (ac_name c, flatten c)) l)))) = concat (map snd (sort_key (map (fun c => (ac_name c, map ac_name (flatten c))) l)))).
  { intros l. rewrite concat_names, map_map. f_equal.
    transitivity (map snd (map (fun p => (fst p, map ac_name (snd p))) (sort_key (map (fun c => (ac_name c, flatten c)) l)))); [rewrite map_map; reflexivity|].
    rewrite <- sort_key_map, map_map. reflexivity. }
  rewrite !G, K. reflexivity.
Qed.
Lemma register_alike a a' name : alike a a' -> same_outcome (fun x y => alike (fst x) (fst y) /\ snd x = snd y /\ exists_at (fst x) (snd x)) (register_account a name) (register_account a' name).
Proof.
  intros (W & W' & N & P). destruct name as [|c r]; [apply so_panic|].
  destruct (register_spec a (c :: r) W ltac:(discriminate)) as (b & -> & Wb & Nb & Pb & _). destruct (register_spec a' (c :: r) W' ltac:(discriminate)) as (b' & -> & Wb' & Nb' & Pb' & _).
  apply so_ok. cbn [fst snd]. split; [split; [exact Wb|]; split; [exact Wb'|]; split; [congruence|]; intros q; rewrite Pb, Pb', P; reflexivity|].
  split; [reflexivity|]. apply posts_at_exists. rewrite Pb. destruct (posts_at a _); [discriminate|]. rewrite prefix_of_refl. discriminate.
Qed.
Lemma push_alike a a' p r : alike a a' -> exists_at a p -> same_outcome alike (push_post a p r) (push_post a' p r).
Proof.
  intros (W & W' & N & P) E. assert (E' : exists_at a' p) by (apply posts_at_exists; rewrite <- P; apply posts_at_exists; exact E).
  destruct (push_post_spec a p r W E) as (b & -> & Wb & Nb & Pb). destruct (push_post_spec a' p r W' E') as (b' & -> & Wb' & Nb' & Pb').
  apply so_ok. split; [exact Wb|]. split; [exact Wb'|]. split; [congruence|]. intros q. rewrite Pb, Pb', P. reflexivity.
Qed.

(** ** Pools *)
Definition halike {A} (m m' : list (str * A)) : Prop := NoDup (map fst m) /\ NoDup (map fst m') /\ same_entries m m'.
Definition palike (p q : pool) : Prop := halike (p_comms p) (p_comms q) /\ halike (p_ann p) (p_ann q) /\ p_hist p = p_hist q.
Lemma halike_trans {A} (a b c : list (str * A)) : halike a b -> halike b c -> halike a c.
Proof. intros (N & _ & S) (_ & N' & S'). split; [exact N|]. split; [exact N'|]. intros k. rewrite S. apply S'. Qed.
Lemma palike_trans p q r : palike p q -> palike q r -> palike p r.
Proof. intros (A & B & C) (A' & B' & C'). split; [eapply halike_trans; eassumption|]. split; [eapply halike_trans; eassumption|congruence]. Qed.
Lemma insert_nodup {A} k (a : A) m : NoDup (map fst m) -> NoDup (map fst (insert k a m)).
Proof.
  intros N. destruct (lookup k m) as [b|] eqn:L; [rewrite insert_keys by congruence; exact N|]. rewrite insert_keys_new by exact L. rewrite map_app. cbn [map fst].
  apply (Permutation_NoDup (Permutation_cons_append _ _)). constructor; [|exact N]. rewrite <- lookup_in. congruence.
Qed.
Lemma insert_same {A} k (a : A) m m' : halike m m' -> halike (insert k a m) (insert k a m').
Proof. intros (N & N' & S). split; [apply insert_nodup, N|]. split; [apply insert_nodup, N'|]. intros x. rewrite !lookup_insert, S. reflexivity. Qed.
Lemma find_alike p q s : palike p q -> pool_find p s = pool_find q s.
Proof. intros ((_ & _ & A) & _). apply A. Qed.
Lemma foc_alike p q s a : palike p q -> palike (fst (pool_find_or_create p s a)) (fst (pool_find_or_create q s a)) /\ snd (pool_find_or_create p s a) = snd (pool_find_or_create q s a).
Proof.
  intros (A & B & C). unfold pool_find_or_create. destruct s as [|c s]; [split; [split; auto|reflexivity]|]. unfold pool_find. rewrite <- (proj2 (proj2 A) (c :: s)), <- (proj2 (proj2 B) (c :: s)).
  destruct (lookup (c :: s) (p_comms p)).
  - destruct a as [a|]; [|split; [split; auto|reflexivity]]. destruct (lookup (c :: s) (p_ann p)); [split; [split; auto|reflexivity]|].
    split; [|reflexivity]. split; [exact A|]. split; [apply insert_same, B|exact C].
  - unfold pool_create. rewrite <- C. destruct (add_commodity (p_hist p) (c :: s)) as [h i]. split; [|reflexivity]. cbn [fst].
    split; [apply insert_same, A|]. split; [|reflexivity]. destruct a as [a|]; [apply insert_same, B|exact B].
Qed.
Lemma deref_alike p q c : palike p q -> deref p c = deref q c.
Proof. intros A. unfold deref. destruct c as [s|]; [|reflexivity]. rewrite (find_alike _ _ s A). reflexivity. Qed.
Lemma add_price_alike p q c w x : palike p q -> same_outcome palike (pool_add_price p c w x) (pool_add_price q c w x).
Proof.
  intros A. unfold pool_add_price. rewrite <- (deref_alike _ _ c A). eapply so_same. intros k _. destruct (comm_eqb _ _); [apply so_panic|]. destruct (a_c x) as [t|] eqn:E; [|apply so_panic].
  rewrite <- (deref_alike _ _ (Some t) A). eapply so_same. intros k' _. destruct A as (A & B & C). apply so_ok. split; [exact A|]. split; [exact B|]. cbn [p_hist]. rewrite C. reflexivity.
Qed.
Lemma index_alike p q i : palike p q -> pool_get_by_index p i = pool_get_by_index q i.
Proof. intros A. unfold pool_get_by_index. rewrite <- (proj2 (proj2 A)). destruct (get_commodity (p_hist p) i); [|reflexivity|reflexivity]. cbn [bind]. apply deref_alike, A. Qed.
Lemma exchange_alike p q a c u w : palike p q -> exchange p a c u w = exchange q a c u w.
Proof.
  intros A. unfold exchange. destruct (a_c a) as [s|]; [|reflexivity]. cbn [unwrap bind]. rewrite <- (deref_alike _ _ (Some s) A). destruct (deref p (Some s)) as [k| |]; [|reflexivity|reflexivity].
  cbn [bind]. rewrite <- (index_alike _ _ (c_index k) A). destruct (pool_get_by_index p (c_index k)) as [k'| |]; [|reflexivity|reflexivity]. cbn [bind].
  rewrite <- (proj2 (proj2 (proj1 (proj2 A))) (c_symbol k')). reflexivity.
Qed.
Lemma price_loop_alike d posts : forall p q, palike p q -> same_outcome (fun x y => palike (fst x) (fst y) /\ snd x = snd y) (price_loop d p posts) (price_loop d q posts).
Proof.
  induction posts as [|po posts IH]; intros p q A; cbn [price_loop]; [apply so_ok; auto|].
  eapply (so_bind (fun x y => palike (fst x) (fst y) /\ snd x = snd y)).
  - destruct (po_cost po) as [c|]; [|apply so_ok; auto]. destruct (po_amount po) as [a|]; [|apply so_panic]. destruct (comm_eqb (a_c a) (a_c c)); [apply so_panic|].
    eapply so_same. intros day _. rewrite <- (exchange_alike _ _ _ _ _ _ A). eapply so_same. intros [bd np] _.
    eapply (so_bind palike).
    + destruct np as [pr|]; [apply add_price_alike, A|apply so_ok, A].
    + intros p' q' _ _ A'. apply so_ok. auto.
  - intros [p1 x1] [q1 y1] _ _ [A1 E]. cbn [fst snd] in *. subst y1. eapply so_bind; [apply IH, A1|]. intros [p2 l] [q2 l'] _ _ [A2 E]. cbn [fst snd] in *. subst l'. apply so_ok. auto.
Qed.
Lemma finalize_posts_alike d posts p q : palike p q -> same_outcome (fun x y => palike (fst x) (fst y) /\ snd x = snd y) (finalize_posts d p posts) (finalize_posts d q posts).
Proof.
  intros A. unfold finalize_posts. eapply so_same. intros [bal np] _. destruct (length posts =? 1); [apply so_panic|]. eapply so_same. intros [posts1 bal1] _.
  eapply so_bind; [apply price_loop_alike, A|]. intros [p1 l1] [q1 l2] _ _ [A1 E]. cbn [fst snd] in *. subst l2.
  destruct np as [i|]; [|apply so_ok; auto]. destruct bal1 as [|b [|]]; try apply so_panic. apply so_ok. auto.
Qed.
Lemma parts_alike p q s c : palike p q ->
  palike (fst (parse_amount_parts p s c)) (fst (parse_amount_parts q s c)) /\ snd (parse_amount_parts p s c) = snd (parse_amount_parts q s c).
Proof.
  intros A. destruct (foc_alike _ _ c None A) as [G E]. unfold parse_amount_parts.
  destruct (pool_find_or_create p c None) as [p1 c1], (pool_find_or_create q c None) as [q1 c2]. cbn [fst snd] in *. subst. auto.
Qed.
Lemma annotation_alike p q d n c : palike p q -> same_outcome (fun x y => palike (fst x) (fst y) /\ snd x = snd y) (annotation_parse p d n c) (annotation_parse q d n c).
Proof.
  intros A. destruct (foc_alike _ _ c None A) as [G E]. unfold annotation_parse.
  destruct (pool_find_or_create p c None) as [p1 c1], (pool_find_or_create q c None) as [q1 c2]. cbn [fst snd] in *. subst. eapply so_same. intros dd _. apply so_ok. auto.
Qed.
Lemma cost_alike p q t amt : palike p q -> same_outcome (fun x y => palike (fst x) (fst y) /\ snd x = snd y) (parse_cost p t amt) (parse_cost q t amt).
Proof.
  intros A. unfold parse_cost. destruct amt as [a|]; [|apply so_ok; auto]. destruct (is_empty (t_cost_quantity t)); [apply so_ok; auto|].
  destruct (parts_alike p q (t_cost_quantity t) (t_cost_symbol t) A) as [G E].
  destruct (parse_amount_parts p _ _) as [p1 c1], (parse_amount_parts q _ _) as [q1 c2]. cbn [fst snd] in *. subst c2.
  destruct c1 as [c|]; [|apply so_ok; auto]. destruct (t_is_per_unit t); [|apply so_ok; auto]. eapply so_same. intros c' _. apply so_ok. auto.
Qed.
Lemma directive_alike p q line : palike p q -> same_outcome palike (parse_price_directive p line) (parse_price_directive q line).
Proof.
  intros A. unfold parse_price_directive. eapply so_same. intros [[[[td tt] tc] tq] tp] _. eapply so_same. intros d _. eapply so_same. intros t _.
  destruct (foc_alike _ _ tc None A) as [G E]. destruct (pool_find_or_create p tc None) as [p1 c1], (pool_find_or_create q tc None) as [q1 c2]. cbn [fst snd] in *. subst.
  eapply so_same. intros v _. destruct (foc_alike _ _ tp None G) as [G' E]. destruct (pool_find_or_create p1 tp None) as [p2 c3], (pool_find_or_create q1 tp None) as [q2 c4]. cbn [fst snd] in *. subst.
  apply add_price_alike, G'.
Qed.

(** ** Journals *)
Definition jalike (j j' : journal) : Prop := alike (j_master j) (j_master j') /\ palike (j_pool j) (j_pool j') /\ j_xacts j = j_xacts j'.
Lemma jalike_maps j j' : jalike j j' <-> one_entry_each j /\ one_entry_each j' /\ same_maps j j'.
Proof.
  split.
  - intros ((W & W' & S) & ((N1 & N1' & A) & (N2 & N2' & B) & C) & X). split; [split; auto|]. split; [split; auto|]. split; assumption.
  - intros ((W & N1 & N2) & (W' & N1' & N2') & S). destruct S. split; [split; auto|]. split; [split; [split; auto|]; split; [split; auto|assumption]|]. assumption.
Qed.
Lemma jalike_trans a b c : jalike a b -> jalike b c -> jalike a c.
Proof. intros (A & B & C) (A' & B' & C'). split; [eapply alike_trans; eassumption|]. split; [eapply palike_trans; eassumption|congruence]. Qed.
Lemma finalize_alike j j' xi : jalike j j' -> same_outcome jalike (finalize j xi) (finalize j' xi).
Proof.
  intros (A & B & C). unfold finalize. rewrite <- C. destruct (nth_error (j_xacts j) xi) as [x|]; [|apply so_panic].
  eapply so_bind; [apply finalize_posts_alike, B|]. intros [p1 l1] [q1 l2] _ _ [B1 E]. cbn [fst snd] in *. subst l2. apply so_ok. split; [exact A|]. split; [exact B1|reflexivity].
Qed.
Lemma post_alike j j' xi s : jalike j j' -> same_outcome jalike (parse_post j xi s) (parse_post j' xi s).
Proof.
  intros (A & B & C). unfold parse_post. eapply so_same. intros t _. eapply so_bind; [apply register_alike, A|]. intros [m1 a1] [m2 a2] _ _ (A1 & E & X). cbn [fst snd] in *. subst a2.
  destruct (parts_alike _ _ (t_quantity t) (t_symbol t) B) as [B1 E]. destruct (parse_amount_parts (j_pool j) _ _) as [p1 amt], (parse_amount_parts (j_pool j') _ _) as [q1 amt']. cbn [fst snd] in *. subst amt'.
  eapply so_bind; [apply annotation_alike, B1|]. intros [p2 ann] [q2 ann'] _ _ [B2 E]. cbn [fst snd] in *. subst ann'.
  destruct (foc_alike _ _ (t_symbol t) (Some ann) B2) as [B3 _]. destruct (pool_find_or_create p2 _ _) as [p3 c3], (pool_find_or_create q2 _ _) as [q3 c4]. cbn [fst snd] in *.
  eapply so_bind; [apply cost_alike, B3|]. intros [p4 cost] [q4 cost'] _ _ [B4 E]. cbn [fst snd] in *. subst cost'.
  rewrite <- C. destruct (nth_error (j_xacts j) xi) as [x|]; [|apply so_panic]. eapply so_bind; [apply push_alike; [exact A1|exact X]|].
  intros n1 n2 _ _ A2. apply so_ok. split; [exact A2|]. split; [exact B4|reflexivity].
Qed.
Lemma note_alike j j' xi s : jalike j j' -> same_outcome jalike (parse_trailing_note j xi s) (parse_trailing_note j' xi s).
Proof. intros (A & B & C). unfold parse_trailing_note. destruct (is_empty _); apply so_ok; [split; auto|]. split; [exact A|]. split; [exact B|]. unfold set_xacts. cbn [j_xacts]. rewrite C. reflexivity. Qed.
Definition next_alike (n n' : next) : Prop :=
  match n, n' with
  | Continue m j, Continue m' j' => m = m' /\ jalike j j'
  | Stop j, Stop j' => jalike j j'
  | _, _ => False
  end.
Definition inc_alike (inc inc' : str -> journal -> outcome journal) : Prop := forall a j j', jalike j j' -> same_outcome jalike (inc a j) (inc' a j').
Lemma continue_alike m o o' : same_outcome jalike o o' -> same_outcome next_alike (let* j := o in Ok (Continue m j)) (let* j := o' in Ok (Continue m j)).
Proof. intros H. eapply so_bind; [exact H|]. intros j j' _ _ A. apply so_ok. split; auto. Qed.
Lemma general_alike inc inc' j j' l : inc_alike inc inc' -> jalike j j' -> same_outcome jalike (general_directive inc j l) (general_directive inc' j' l).
Proof.
  intros I A. unfold general_directive. destruct (take_word l) as [w r].
  assert (G : same_outcome jalike (let* p := parse_price_directive (j_pool j) l in Ok (set_pool j p)) (let* p := parse_price_directive (j_pool j') l in Ok (set_pool j' p))).
  { destruct A as (A & B & C). eapply so_bind; [apply directive_alike, B|]. intros p q _ _ B'. apply so_ok. split; [exact A|]. split; [exact B'|exact C]. }
  assert (K : same_outcome jalike (match fst (take_word r) with [] => Panic PUnwrap | argument => inc argument j end) (match fst (take_word r) with [] => Panic PUnwrap | argument => inc' argument j' end)).
  { destruct (fst (take_word r)); [apply so_panic|]. apply I, A. }
  destruct w as [|c w]; [apply so_panic|].
  destruct (N.eq_dec c 97) as [->|N1]; [apply so_panic|]. destruct (N.eq_dec c 105) as [->|N2].
  - destruct (str_eqb _ _); [exact K|]. destruct (str_eqb _ _); [apply so_panic|exact G].
  - destruct c as [|c]; [apply so_panic|]. repeat (destruct c as [c|c|]; try apply so_panic; try congruence).
Qed.
Lemma step_alike inc inc' m j j' l : inc_alike inc inc' -> jalike j j' -> same_outcome next_alike (step inc m j l) (step inc' m j' l).
Proof.
  intros I A. destruct m as [|xi], l as [l|]; cbn [step].
  - unfold top_line. destruct (_ || _); [apply so_ok; split; auto|]. destruct l as [|c l]; [apply so_panic|]. destruct (_ || _); [apply so_ok; split; auto|].
    destruct (c =? 45)%N; [apply so_ok; split; auto|]. destruct (is_digit c).
    + rewrite <- (proj2 (proj2 A)). apply continue_alike. unfold create_xact. eapply so_same. intros [[[d aux] payee] note] _. eapply so_same. intros x _. apply so_ok.
      destruct A as (A & B & C). split; [exact A|]. split; [exact B|]. unfold set_xacts. cbn [j_xacts]. rewrite C. reflexivity.
    + destruct (_ || _); [apply so_panic|]. apply continue_alike, general_alike; assumption.
  - apply so_ok, A.
  - unfold xact_line. assert (F : same_outcome next_alike (let* j0 := finalize j xi in Ok (Continue Top j0)) (let* j0 := finalize j' xi in Ok (Continue Top j0))) by (apply continue_alike, finalize_alike, A).
    destruct l as [|c l]; [apply so_panic|].
    assert (S : same_outcome next_alike
       (match trim_start (c :: l) with [] => let* j' := finalize j xi in Ok (Continue Top j') | 59%N :: r => let* j' := parse_trailing_note j xi (59%N :: r) in Ok (Continue (InXact xi) j') | input => let* j' := parse_post j xi input in Ok (Continue (InXact xi) j') end)
       (match trim_start (c :: l) with [] => let* j' := finalize j' xi in Ok (Continue Top j') | 59%N :: r => let* j' := parse_trailing_note j' xi (59%N :: r) in Ok (Continue (InXact xi) j') | input => let* j' := parse_post j' xi input in Ok (Continue (InXact xi) j') end)).
    { destruct (trim_start (c :: l)) as [|k r]; [exact F|]. destruct (N.eq_dec k 59) as [->|N]; [apply continue_alike, note_alike, A|].
      assert (P : same_outcome next_alike (let* j0 := parse_post j xi (k :: r) in Ok (Continue (InXact xi) j0)) (let* j0 := parse_post j' xi (k :: r) in Ok (Continue (InXact xi) j0))) by (apply continue_alike, post_alike, A).
      destruct k as [|k]; [exact P|]. repeat (destruct k as [k|k|]; try exact P; try congruence). }
    destruct (N.eq_dec c 32) as [->|N1]; [exact S|]. destruct (N.eq_dec c 13) as [->|N2]; [exact F|]. destruct (N.eq_dec c 10) as [->|N3]; [exact F|].
    destruct c as [|c]; [apply so_panic|]. repeat (destruct c as [c|c|]; try apply so_panic; try congruence).
  - apply continue_alike, finalize_alike, A.
Qed.
Lemma parse_lines_alike inc inc' l : inc_alike inc inc' -> forall m j j', jalike j j' -> same_outcome jalike (parse_lines inc m j l) (parse_lines inc' m j' l).
Proof.
  intros I. induction l as [|x l IH]; intros m j j' A; cbn [parse_lines].
  - destruct m; [apply so_ok, A|apply finalize_alike, A].
  - eapply so_bind; [apply step_alike; eassumption|]. intros [m1 j1|j1] [m2 j2|j2] _ _ H; cbn in H; try contradiction; [destruct H as [<- H]; apply IH, H|apply so_ok, H].
Qed.
Lemma include_alike cwd fs : forall depth, inc_alike (include_file depth cwd fs) (include_file depth cwd fs).
Proof.
  induction depth as [|d IH]; intros a j j' A; cbn [include_file]; [exact I|]. eapply so_same. intros [src|] _; [apply parse_lines_alike; assumption|apply so_ok, A].
Qed.
Lemma read_alike depth cwd fs src j j' : jalike j j' -> same_outcome jalike (read_into_journal depth cwd fs src j) (read_into_journal depth cwd fs src j').
Proof. apply parse_lines_alike, include_alike. Qed.

(** ** With any order *)
Section Order.
Variable order : ordering.
Hypothesis R : rearranges order.
Lemma order_alike d n j j' : jalike j j' -> jalike j (order d n j').
Proof.
  intros A. pose proof (proj1 (proj2 (proj1 (jalike_maps _ _) A))) as W. destruct (R d n j' W) as [W' S]. eapply jalike_trans; [exact A|]. apply jalike_maps. auto.
Qed.
Lemma o_lines_alike d inc inc' l : inc_alike inc inc' -> forall m j j', jalike j j' -> same_outcome jalike (parse_lines inc m j l) (o_parse_lines (order d) inc' m j' l).
Proof.
  intros I. induction l as [|x l IH]; intros m j j' A; cbn [parse_lines o_parse_lines].
  - destruct m; [apply so_ok, A|apply finalize_alike, order_alike, A].
  - eapply so_bind; [apply step_alike; [eassumption|apply order_alike, A]|]. intros [m1 j1|j1] [m2 j2|j2] _ _ H; cbn in H; try contradiction; [destruct H as [<- H]; apply IH, H|apply so_ok, H].
Qed.
Lemma o_include_alike cwd fs : forall depth, inc_alike (include_file depth cwd fs) (o_include_file order depth cwd fs).
Proof.
  induction depth as [|d IH]; intros a j j' A; cbn [include_file o_include_file]; [exact I|]. eapply so_same. intros [src|] _; [apply o_lines_alike; assumption|apply so_ok, A].
Qed.
Lemma o_files_alike depth cwd fs files : forall j j', jalike j j' ->
  same_outcome jalike (fold_outcome (fun j f => parse_file depth cwd fs f j) files j) (fold_outcome (fun j f => o_parse_file order depth cwd fs f j) files j').
Proof.
  induction files as [|f files IH]; intros j j' A; cbn [fold_outcome]; [apply so_ok, A|]. eapply so_bind; [|intros a b _ _ H; apply IH, H].
  unfold parse_file, o_parse_file. destruct (fs f) as [src|]; [|apply so_panic]. apply o_lines_alike; [apply o_include_alike|exact A].
Qed.
Lemma new_alike : jalike journal_new journal_new.
Proof. split; [apply alike_refl, wf_leaf|]. split; [|reflexivity]. split; [split; [constructor|]; split; [constructor|intros k; reflexivity]|]. split; [|reflexivity]. split; [constructor|]. split; [constructor|intros k; reflexivity]. Qed.
Theorem o_reading depth cwd fs files : same_outcome same_maps (read_journal_files depth cwd fs files) (o_read_journal_files order depth cwd fs files).
Proof. eapply so_strengthen; [apply o_files_alike, new_alike|]. intros a b _ _ H. apply jalike_maps in H. tauto. Qed.
Theorem o_running depth cwd fs args : o_run order depth cwd fs args = run depth cwd fs args.
Proof.
  unfold o_run, run. destruct (process_arguments args) as [[commands files]| |]; [|reflexivity|reflexivity]. cbn [bind]. unfold o_execute_command, execute_command.
  destruct (nth_error commands 0) as [verb|]; [|reflexivity]. cbn [unwrap bind]. pose proof (o_files_alike depth cwd fs files _ _ new_alike) as H.
  unfold read_journal_files, o_read_journal_files. destruct (fold_outcome _ files journal_new) as [j| |] eqn:E1 in H |- *, (fold_outcome _ files journal_new) as [j'| |] eqn:E2 in H |- *; cbn in H; try contradiction; try (subst; reflexivity).
  cbn [bind]. apply (order_alike depth 0) in H. destruct H as (A & _ & X). unfold report_accounts, balance_report. rewrite (alike_flatten _ _ A), X, (alike_lines _ _ [] _ A). reflexivity.
Qed.
End Order.

Theorem maps_reading depth cwd fs src j j' : one_entry_each j -> one_entry_each j' -> same_maps j j' ->
  same_outcome same_maps (read_into_journal depth cwd fs src j) (read_into_journal depth cwd fs src j').
Proof. intros W W' S. eapply so_strengthen; [apply read_alike, jalike_maps; auto|]. intros a b _ _ H. apply jalike_maps in H. tauto. Qed.
Lemma alike_paths : forall a p a', alike a a' -> flatten_at p a = flatten_at p a'.
Proof.
  apply (account_ind' (fun a => forall p a', alike a a' -> flatten_at p a = flatten_at p a')). intros n cs ps IH p [n' cs' ps'] A.
  pose proof (kids_sorted (fun c => flatten_at (p ++ [ac_name c]) c) (fun c => flatten_at (p ++ [ac_name c]) c) _ _ A) as K.
  assert (K' : forall c c', In c (ac_children (Acct n cs ps)) -> alike c c' -> flatten_at (p ++ [ac_name c]) c = flatten_at (p ++ [ac_name c']) c').
  { intros c c' I X. rewrite Forall_forall in IH. replace (ac_name c') with (ac_name c) by (apply X). apply IH; assumption. }
  specialize (K K'). cbn [ac_children] in K. cbn [flatten_at ac_children]. rewrite K. reflexivity.
Qed.
Theorem maps_reports j j' : one_entry_each j -> one_entry_each j' -> same_maps j j' ->
  balance_report j = balance_report j' /\ report_accounts j = report_accounts j' /\ get_account_balances j = get_account_balances j'.
Proof.
  intros W W' S. assert (A : jalike j j') by (apply jalike_maps; auto). destruct A as (A & _ & X). unfold balance_report, report_accounts, get_account_balances. rewrite X.
  split; [apply alike_lines, A|]. split; [apply alike_flatten, A|]. rewrite (alike_paths _ [] _ A). unfold own_balance, all_posts. rewrite X. reflexivity.
Qed.
Theorem read_one_entry depth cwd fs files j : read_journal_files depth cwd fs files = Ok j -> one_entry_each j.
Proof.
  intros H. pose proof (o_files_alike (fun _ _ j => j) ltac:(intros d n x O; split; [exact O|]; split; try reflexivity; split; reflexivity) depth cwd fs files _ _ new_alike) as A.
  unfold read_journal_files in H. rewrite H in A. destruct (fold_outcome _ files journal_new) as [j'| |] in A; cbn in A; try contradiction. apply jalike_maps in A. tauto.
Qed.
Lemma alike_exists a a' p : alike a a' -> (get_account a p = None <-> get_account a' p = None).
Proof. intros (_ & _ & _ & P). pose proof (P p) as E. unfold posts_at in E. destruct (get_account a p), (get_account a' p); cbn in E; split; congruence. Qed.
Theorem maps_lookups j j' : one_entry_each j -> one_entry_each j' -> same_maps j j' ->
  (forall name, find_account (j_master j) name = find_account (j_master j') name)
  /\ (forall p, match get_account (j_master j) p, get_account (j_master j') p with
               | Some a, Some a' => account_total (j_xacts j) a = account_total (j_xacts j') a'
               | None, None => True
               | _, _ => False
               end)
  /\ forall astar source target now moment oldest,
     pool_find_price astar (j_pool j) source target now moment oldest = pool_find_price astar (j_pool j') source target now moment oldest.
Proof.
  intros W W' S. assert (J : jalike j j') by (apply jalike_maps; auto). destruct J as (A & B & X). split; [|split].
  - intros name. unfold find_account. rewrite !foc_find by (try apply A; lia).
    pose proof (alike_exists _ _ (components name) A) as E1. pose proof (alike_exists _ _ [hd [] (components name)] A) as E2.
    destruct (get_account (j_master j) (components name)), (get_account (j_master j') (components name)); try (exfalso; intuition congruence); [reflexivity|].
    destruct (get_account (j_master j) _), (get_account (j_master j') _); try (exfalso; intuition congruence); reflexivity.
  - rewrite <- X. clear -A. intros p. revert A. generalize (j_master j), (j_master j'). induction p as [|n p IH]; intros a a' A; [apply alike_total, A|].
    rewrite !get_account_cons. destruct (find_child n (ac_children a)) as [c|] eqn:E.
    + destruct (alike_child _ _ _ _ A E) as (c' & -> & C). apply IH, C.
    + destruct (find_child n (ac_children a')) as [c'|] eqn:E'; [|exact I]. destruct (alike_child _ _ _ _ (alike_sym _ _ A) E') as (c & F & _). congruence.
  - intros astar source target now moment oldest. unfold pool_find_price. destruct (comm_eqb source target); [reflexivity|].
    rewrite (deref_alike _ _ source B), (deref_alike _ _ target B), (proj2 (proj2 B)). reflexivity.
Qed.

(** ** All maps backwards *)
Fixpoint backwards (a : account) : account := let 'Acct n cs ps := a in Acct n (rev (map backwards cs)) ps.
Lemma backwards_name a : ac_name (backwards a) = ac_name a.
Proof. destruct a. reflexivity. Qed.
Lemma backwards_names cs : map ac_name (map backwards cs) = map ac_name cs.
Proof. rewrite map_map. apply map_ext, backwards_name. Qed.
Lemma backwards_wf : forall a, wf_tree a -> wf_tree (backwards a).
Proof.
  apply (account_ind' (fun a => wf_tree a -> wf_tree (backwards a))). intros n cs ps IH W. inversion W as [? ? ? N C K]; subst. cbn [backwards]. rewrite Forall_forall in IH.
  constructor.
  - rewrite map_rev, backwards_names. apply NoDup_rev, N.
  - intros c I. apply in_rev in I. apply in_map_iff in I as (c0 & <- & I). rewrite backwards_name. apply C, I.
  - intros c I. apply in_rev in I. apply in_map_iff in I as (c0 & <- & I). apply IH; auto.
Qed.
Lemma backwards_posts p : forall a, wf_tree a -> posts_at a p = posts_at (backwards a) p.
Proof.
  induction p as [|n p IH]; intros [x cs ps] W; [reflexivity|]. inversion W as [? ? ? N C K]; subst. rewrite !posts_at_cons. cbn [backwards ac_children].
  pose proof (backwards_wf _ W) as W'. inversion W' as [? ? ? N' _ _]; subst.
  destruct (find_child n cs) as [c|] eqn:F.
  - destruct (find_child_some _ _ _ F) as [I E]. replace (find_child n (rev (map backwards cs))) with (Some (backwards c)); [apply IH, K, I|].
    symmetry. rewrite <- E, <- (backwards_name c). apply find_child_in; [exact N'|]. rewrite <- in_rev. apply in_map, I.
  - replace (find_child n (rev (map backwards cs))) with (@None account); [reflexivity|]. symmetry. apply find_child_none. rewrite map_rev, backwards_names, <- in_rev. apply find_child_none, F.
Qed.
Lemma lookup_member {A} (m : list (str * A)) k v : NoDup (map fst m) -> (lookup k m = Some v <-> In (k, v) m).
Proof.
  induction m as [|[k1 v1] m IH]; cbn [map fst lookup In]; intros N; [split; [discriminate|tauto]|]. inversion N as [|? ? N1 N2]; subst.
  destruct (str_eqb k k1) eqn:E.
  - apply str_eqb_eq in E. subst k1. split; [intros [= ->]; auto|]. intros [[= ->]|I]; [reflexivity|]. elim N1. apply in_map_iff. exists (k, v). auto.
  - rewrite (IH N2). split; [auto|]. intros [[= -> ->]|I]; [rewrite str_eqb_refl in E; discriminate|exact I].
Qed.
Lemma lookup_rev {A} (m : list (str * A)) : NoDup (map fst m) -> NoDup (map fst (rev m)) /\ same_entries m (rev m).
Proof.
  intros N. assert (N' : NoDup (map fst (rev m))) by (rewrite map_rev; apply NoDup_rev, N). split; [exact N'|]. intros k.
  destruct (lookup k m) as [v|] eqn:E; symmetry.
  - apply lookup_member; [exact N'|]. rewrite <- in_rev. apply lookup_member; assumption.
  - destruct (lookup k (rev m)) as [v|] eqn:E'; [|reflexivity]. apply lookup_member in E'; [|exact N']. rewrite <- in_rev in E'. apply lookup_member in E'; [congruence|exact N].
Qed.
Definition all_backwards : ordering := fun _ _ j =>
  mkJournal (backwards (j_master j)) (mkPool (rev (p_comms (j_pool j))) (rev (p_ann (j_pool j))) (p_hist (j_pool j))) (j_xacts j).
Theorem backwards_rearranges : rearranges all_backwards.
Proof.
  intros d n j (W & N1 & N2). destruct (lookup_rev _ N1) as [M1 S1]. destruct (lookup_rev _ N2) as [M2 S2].
  split; [split; [apply backwards_wf, W|]; split; assumption|]. split; try assumption; try reflexivity. split; [symmetry; apply backwards_name|]. intros p. apply backwards_posts, W.
Qed.
