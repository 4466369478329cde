(** Facts about the memory model: allocations, the invariant of the memory, and its agreement with the
    journal. *)
From Coq Require Import String List NArith ZArith Bool Lia ZifyBool ZifyNat ZifyN.
From Verif Require Import Base BaseFacts Decimal Dates Amount Balance Scanner History Pool Account Journal Xact Parser Memory.
From Verif Require Import SpecDecimal SpecAmount SpecDates SpecPool SpecAccount SpecXact SpecJournal SpecReading SpecMemory.
From Verif Require Import DecimalFacts BalanceFacts PoolFacts AccountFacts AccountProofs XactFacts XactProofs JournalFacts ReadingFacts.
Import ListNotations.
Open Scope nat_scope.

(** ** Allocations *)
Section Alloc.
  Variable next : nat -> nat.
  Hypothesis G : forall c, c < next c.
  Fixpoint after (n : nat) : alloc := match n with O => no_alloc | S n => room next (after n) n end.
  Lemma iter_lt i k : i < k -> Nat.iter i next 0 < Nat.iter k next 0.
  Proof.
    intros H. induction H as [|k H IH]; cbn [Nat.iter nat_rect]; [apply G|]. eapply Nat.lt_trans; [exact IH|]. apply G.
  Qed.
  Lemma iter_le_inv i k : Nat.iter i next 0 < Nat.iter k next 0 -> i < k.
  Proof.
    intros H. destruct (Nat.lt_ge_cases i k) as [|L]; [assumption|exfalso]. destruct (Nat.eq_dec i k) as [->|N]; [lia|].
    assert (k < i) by lia. apply iter_lt in H0. lia.
  Qed.
  Lemma after_spec n : al_cap (after n) = Nat.iter (al_gen (after n)) next 0 /\ n <= al_cap (after n)
    /\ forall i, i < al_gen (after n) -> Nat.iter i next 0 < n.
  Proof.
    induction n as [|n (C & L & H)]; [cbn; repeat split; lia|]. cbn [after]. unfold room. destruct (Nat.ltb_spec n (al_cap (after n))) as [Y|Y].
    - split; [exact C|]. split; [lia|]. intros i Hi. specialize (H i Hi). lia.
    - cbn [al_cap al_gen]. split; [cbn; f_equal; exact C|]. split; [pose proof (G (al_cap (after n))); lia|].
      intros i Hi. destruct (Nat.eq_dec i (al_gen (after n))) as [->|N]; [rewrite <- C; lia|]. assert (i < al_gen (after n)) by lia. specialize (H i H0). lia.
  Qed.
  Lemma after_mono k n : k <= n -> al_gen (after k) <= al_gen (after n).
  Proof. induction 1 as [|n H IH]; [lia|]. cbn [after]. unfold room. destruct (_ <? _); cbn [al_gen]; lia. Qed.
  Lemma after_pos n : 1 <= n -> 1 <= al_gen (after n).
  Proof. intros H. apply after_mono in H. cbn in H. lia. Qed.
  Lemma same_alloc k n : 1 <= k <= n -> (al_gen (after k) = al_gen (after n) <-> ~ moved next k n).
  Proof.
    intros [K L]. destruct (after_spec k) as (Ck & Lk & Hk). destruct (after_spec n) as (Cn & Ln & Hn). split.
    - intros E (c & (i & ->) & [A B]). rewrite Cn in Ln. assert (S i < al_gen (after n)) by (apply iter_le_inv; lia).
      rewrite <- E in H. specialize (Hk _ H). lia.
    - intros M. pose proof (after_mono _ _ L). destruct (Nat.eq_dec (al_gen (after k)) (al_gen (after n))); [assumption|exfalso]. apply M.
      pose proof (after_pos _ K). exists (al_cap (after k)). split; [|split; [exact Lk|rewrite Ck; apply Hn; lia]].
      exists (al_gen (after k) - 1). rewrite Ck. f_equal. lia.
  Qed.
  Lemma iter_ge i : next 0 <= Nat.iter (S i) next 0.
  Proof. destruct i as [|i]; [cbn; lia|]. apply Nat.lt_le_incl. apply (iter_lt 1). lia. Qed.
  Lemma small_same k n : 1 <= k <= n -> n <= next 0 -> al_gen (after k) = al_gen (after n).
  Proof. intros K L. apply same_alloc; [exact K|]. intros (c & (i & ->) & [A B]). pose proof (iter_ge i). lia. Qed.
End Alloc.

(** ** Small lemmas *)
Lemma path_eqb_eq p q : path_eqb p q = true <-> p = q.
Proof.
  revert q; induction p as [|x p IH]; intros [|y q]; cbn [path_eqb]; try (split; [discriminate|congruence]); [split; reflexivity|].
  rewrite andb_true_iff, str_eqb_eq, IH. split; [intros [-> ->]; reflexivity|intros E; injection E; auto].
Qed.
Lemma set_acct_same f p a : set_acct f p a p = Some a.
Proof. unfold set_acct. assert (path_eqb p p = true) as -> by (apply path_eqb_eq; reflexivity). reflexivity. Qed.
Lemma set_acct_other f p a q : q <> p -> set_acct f p a q = f q.
Proof. intros N. unfold set_acct. destruct (path_eqb q p) eqn:E; [|reflexivity]. apply path_eqb_eq in E. congruence. Qed.
Lemma set_acct_cases f p a q : q = p /\ set_acct f p a q = Some a \/ q <> p /\ set_acct f p a q = f q.
Proof.
  destruct (list_eq_dec str_eq_dec q p) as [->|N]; [left; split; [reflexivity|apply set_acct_same]|right; split; [exact N|apply set_acct_other, N]].
Qed.
Lemma mem_str_in s l : mem_str s l = true <-> In s l.
Proof.
  unfold mem_str. rewrite existsb_exists. split; [intros (x & I & E); apply str_eqb_eq in E; subst; exact I|intros I; exists s; split; [exact I|apply str_eqb_eq; reflexivity]].
Qed.
Lemma mem_str_not s l : mem_str s l = false <-> ~ In s l.
Proof. rewrite <- mem_str_in. destruct (mem_str s l); split; congruence. Qed.
Lemma snoc_inj {A} (p q : list A) n k : p ++ [n] = q ++ [k] -> p = q /\ n = k.
Proof. apply app_inj_tail. Qed.
Lemma path_snoc (p : path) : p = [] \/ exists q n, p = q ++ [n].
Proof. destruct p as [|x p]; [left; reflexivity|right]. destruct (exists_last (l := x :: p) ltac:(discriminate)) as (q & n & E). eauto. Qed.
Lemma acct_addr_snoc m q n a : m_accts m q = Some a -> acct_addr m (q ++ [n]) = AAcct q (al_gen (ma_alloc a)) n.
Proof. intros H. unfold acct_addr. rewrite rev_app_distr. cbn [rev app]. rewrite rev_involutive, H. reflexivity. Qed.
Lemma firstn_prefix {A} (l r : list A) n : n <= length l -> firstn n (l ++ r) = firstn n l.
Proof. intros H. rewrite firstn_app. replace (n - length l) with 0 by lia. apply app_nil_r. Qed.

Section Policy.
Variable pol : policy.
Hypothesis G : grows pol.
Notation vafter := (after (vec_next pol)).
Notation mafter := (after (map_next pol)).

(** ** Addresses that are or have been valid *)
Definition was (m : mem) (a : addr) : Prop :=
  match a with
  | AMaster => True
  | AXact g i => exists n, i < n <= length (m_xacts m) /\ g = al_gen (vafter n)
  | APost xi g k => exists x n, nth_error (m_xacts m) xi = Some x /\ k < n <= length (mx_posts x) /\ g = al_gen (vafter n)
  | AAcct p g s => exists ma n, m_accts m p = Some ma /\ n <= length (ma_subs ma) /\ In s (firstn n (ma_subs ma)) /\ g = al_gen (mafter n)
  | AComm g s => exists n, n <= length (m_comms m) /\ In s (firstn n (m_comms m)) /\ g = al_gen (mafter n)
  end.

(** Things are only added. *)
Record extends (m m' : mem) : Prop := {
  e_x : length (m_xacts m) <= length (m_xacts m');
  e_p : forall xi x, nth_error (m_xacts m) xi = Some x ->
          exists x', nth_error (m_xacts m') xi = Some x' /\ length (mx_posts x) <= length (mx_posts x');
  e_a : forall p a, m_accts m p = Some a -> exists a' r, m_accts m' p = Some a' /\ ma_subs a' = ma_subs a ++ r;
  e_c : exists r, m_comms m' = m_comms m ++ r;
  e_q : forall xi k q, posting_at m xi k q -> exists q', posting_at m' xi k q' /\ mp_account q' = mp_account q /\ mp_xact q' = mp_xact q
          /\ (mp_amount q <> None -> mp_amount q' = mp_amount q) /\ mp_cost q' = mp_cost q;
  e_b : forall p a, m_accts m p = Some a -> exists a' r, m_accts m' p = Some a' /\ ma_parent a' = ma_parent a /\ ma_posts a' = ma_posts a ++ r;
  e_n : exists r, m_nodes m' = m_nodes m ++ r }.
Lemma same_accts (f g : path -> option macct) : f = g -> forall p a, f p = Some a -> exists a' r, g p = Some a' /\ ma_parent a' = ma_parent a /\ ma_posts a' = ma_posts a ++ r.
Proof. intros -> p a H. exists a, []. rewrite app_nil_r. auto. Qed.
Lemma same_xacts m m' : m_xacts m' = m_xacts m -> forall xi k q, posting_at m xi k q -> exists q', posting_at m' xi k q' /\ mp_account q' = mp_account q /\ mp_xact q' = mp_xact q
          /\ (mp_amount q <> None -> mp_amount q' = mp_amount q) /\ mp_cost q' = mp_cost q.
Proof. intros E xi k q H. exists q. split; [|auto]. unfold posting_at in *. rewrite E. exact H. Qed.
Lemma extends_refl m : extends m m.
Proof.
  constructor; [lia|eauto| |exists []; rewrite app_nil_r; reflexivity|apply same_xacts; reflexivity|apply same_accts; reflexivity|exists []; rewrite app_nil_r; reflexivity].
  intros p a H. exists a, []. rewrite app_nil_r. auto.
Qed.
Lemma extends_trans a b c : extends a b -> extends b c -> extends a c.
Proof.
  intros [A1 A2 A3 (r & A4) A5 A6 (n & A7)] [B1 B2 B3 (r' & B4) B5 B6 (n' & B7)]. constructor.
  - lia.
  - intros xi x H. apply A2 in H as (x' & H & L). apply B2 in H as (y & H & L'). exists y. split; [exact H|lia].
  - intros p x H. apply A3 in H as (x' & q & H & E). apply B3 in H as (y & q' & H & E'). exists y, (q ++ q'). split; [exact H|]. rewrite E', E, app_assoc. reflexivity.
  - exists (r ++ r'). rewrite B4, A4, app_assoc. reflexivity.
  - intros xi k q H. apply A5 in H as (q1 & H & E1 & E2 & E3 & E4). apply B5 in H as (q2 & H & F1 & F2 & F3 & F4). exists q2. split; [exact H|].
    split; [congruence|]. split; [congruence|]. split; [|congruence]. intros N. rewrite <- E3 by exact N. apply F3. rewrite E3 by exact N. exact N.
  - intros p x H. apply A6 in H as (x' & q & H & E & E'). apply B6 in H as (y & q' & H & F & F'). exists y, (q ++ q'). split; [exact H|]. split; [congruence|]. rewrite F', E', app_assoc. reflexivity.
  - exists (n ++ n'). rewrite B7, A7, app_assoc. reflexivity.
Qed.
Lemma was_extends m m' a : extends m m' -> was m a -> was m' a.
Proof.
  intros [E1 E2 E3 (r & E4) _ _ _] H. destruct a as [|g i|xi g k|p g s|g s]; cbn [was] in *.
  - exact I.
  - destruct H as (n & L & E). exists n. split; [lia|exact E].
  - destruct H as (x & n & N & L & E). apply E2 in N as (x' & N & L'). exists x', n. split; [exact N|]. split; [lia|exact E].
  - destruct H as (ma & n & N & L & I & E). apply E3 in N as (a' & q & N & S). exists a', n. split; [exact N|]. rewrite S, app_length, firstn_prefix by lia.
    split; [lia|]. split; assumption.
  - destruct H as (n & L & I & E). exists n. rewrite E4, app_length, firstn_prefix by lia. split; [lia|]. split; assumption.
Qed.

(** ** The invariant of the memory *)
Definition was_opt (m : mem) (o : option (option addr)) : Prop :=
  forall a, o = Some (Some a) -> was m a /\ exists s, names a = TCommodity s.
Record minv (m : mem) : Prop := {
  mi_x : m_xalloc m = vafter (length (m_xacts m));
  mi_p : forall xi x, nth_error (m_xacts m) xi = Some x -> mx_alloc x = vafter (length (mx_posts x));
  mi_a : forall p a, m_accts m p = Some a -> ma_alloc a = mafter (length (ma_subs a));
  mi_c : m_calloc m = mafter (length (m_comms m));
  mi_root : exists a, m_accts m [] = Some a /\ ma_parent a = None;
  mi_tree : forall p n, m_accts m (p ++ [n]) <> None <-> exists a, m_accts m p = Some a /\ In n (ma_subs a);
  mi_parent : forall p n a, m_accts m (p ++ [n]) = Some a -> exists ptr, ma_parent a = Some ptr /\ names ptr = TAccount p /\ was m ptr;
  mi_refs : forall p a ptr, m_accts m p = Some a -> In ptr (ma_posts a) ->
     exists xi k x, ptr = APost xi (al_gen (vafter (S k))) k /\ nth_error (m_xacts m) xi = Some x /\ k < length (mx_posts x);
  mi_posts : forall xi x k p, nth_error (m_xacts m) xi = Some x -> nth_error (mx_posts x) k = Some p ->
     was m (mp_account p) /\ names (mp_xact p) = TXact xi /\ was m (mp_xact p) /\ was_opt m (mp_amount p) /\ was_opt m (mp_cost p);
  mi_nodes : Forall2 (fun s ptr => names ptr = TCommodity s /\ was m ptr) (m_comms m) (m_nodes m) }.

Lemma minv_new : minv mem_new.
Proof.
  constructor; cbn [mem_new m_xalloc m_xacts m_accts m_calloc m_comms m_nodes length].
  - reflexivity.
  - intros [|xi]; discriminate.
  - intros p a H. destruct (set_acct_cases (fun _ => None) [] (mkMA None [] no_alloc []) p) as [[-> E]|[_ E]]; rewrite E in H; [|discriminate]. injection H as <-. reflexivity.
  - reflexivity.
  - eexists. split; reflexivity.
  - intros p n. split.
    + intros H. rewrite set_acct_other in H; [congruence|]. destruct p; discriminate.
    + intros (a & H & I). destruct (set_acct_cases (fun _ => None) [] (mkMA None [] no_alloc []) p) as [[-> E]|[_ E]]; rewrite E in H; [|discriminate]. injection H as <-. destruct I.
  - intros p n a H. rewrite set_acct_other in H; [discriminate|]. destruct p; discriminate.
  - intros p a ptr H I. destruct (set_acct_cases (fun _ => None) [] (mkMA None [] no_alloc []) p) as [[-> E]|[_ E]]; rewrite E in H; [|discriminate]. injection H as <-. destruct I.
  - intros [|xi]; discriminate.
  - constructor.
Qed.

Lemma was_opt_extends m m' o : extends m m' -> was_opt m o -> was_opt m' o.
Proof. intros E H a Ha. destruct (H a Ha) as [W N]. split; [eapply was_extends; eassumption|exact N]. Qed.

(** What is in place after any change: everything that only needs to be carried over. *)
Lemma minv_change m m' :
  minv m -> extends m m' ->
  m_xalloc m' = vafter (length (m_xacts m')) ->
  (forall xi x, nth_error (m_xacts m') xi = Some x -> mx_alloc x = vafter (length (mx_posts x))) ->
  (forall p a, m_accts m' p = Some a -> ma_alloc a = mafter (length (ma_subs a))) ->
  m_calloc m' = mafter (length (m_comms m')) ->
  (exists a, m_accts m' [] = Some a /\ ma_parent a = None) ->
  (forall p n, m_accts m' (p ++ [n]) <> None <-> exists a, m_accts m' p = Some a /\ In n (ma_subs a)) ->
  (forall p n a, m_accts m' (p ++ [n]) = Some a ->
     (exists b, m_accts m (p ++ [n]) = Some b /\ ma_parent a = ma_parent b) \/ exists ptr, ma_parent a = Some ptr /\ names ptr = TAccount p /\ was m ptr) ->
  (forall p a ptr, m_accts m' p = Some a -> In ptr (ma_posts a) ->
     (exists b, m_accts m p = Some b /\ In ptr (ma_posts b))
     \/ exists xi k x, ptr = APost xi (al_gen (vafter (S k))) k /\ nth_error (m_xacts m') xi = Some x /\ k < length (mx_posts x)) ->
  (forall xi x k p, nth_error (m_xacts m') xi = Some x -> nth_error (mx_posts x) k = Some p ->
     (exists y q, nth_error (m_xacts m) xi = Some y /\ nth_error (mx_posts y) k = Some q /\ mp_account p = mp_account q /\ mp_xact p = mp_xact q
        /\ was_opt m (mp_amount p) /\ mp_cost p = mp_cost q)
     \/ was m (mp_account p) /\ names (mp_xact p) = TXact xi /\ was m (mp_xact p) /\ was_opt m (mp_amount p) /\ was_opt m (mp_cost p)) ->
  Forall2 (fun s ptr => names ptr = TCommodity s /\ was m' ptr) (m_comms m') (m_nodes m') ->
  minv m'.
Proof.
  intros I E Hx Hp Ha Hc Hr Ht Hpa Href Hpo Hn. constructor; try assumption.
  - intros p n a H. destruct (Hpa p n a H) as [(b & Hb & Eb)|(ptr & A & B & C)].
    + destruct (mi_parent m I p n b Hb) as (ptr & A & B & C). exists ptr. rewrite Eb. split; [exact A|]. split; [exact B|]. eapply was_extends; eassumption.
    + exists ptr. split; [exact A|]. split; [exact B|]. eapply was_extends; eassumption.
  - intros p a ptr H In. destruct (Href p a ptr H In) as [(b & Hb & Ib)|X]; [|exact X].
    destruct (mi_refs m I p b ptr Hb Ib) as (xi & k & x & Ep & N & L). apply (e_p _ _ E) in N as (x' & N & L'). exists xi, k, x'. split; [exact Ep|]. split; [exact N|lia].
  - intros xi x k p Nx Nk. destruct (Hpo xi x k p Nx Nk) as [(y & q & Ny & Nq & E1 & E2 & E3 & E4)|(A & B & C & D & F)].
    + destruct (mi_posts m I xi y k q Ny Nq) as (A & B & C & D & F). rewrite E1, E2, E4. split; [eapply was_extends; eassumption|]. split; [exact B|].
      split; [eapply was_extends; eassumption|]. split; eapply was_opt_extends; eassumption.
    + split; [eapply was_extends; eassumption|]. split; [exact B|]. split; [eapply was_extends; eassumption|]. split; eapply was_opt_extends; eassumption.
Qed.

Lemma nodes_extend m m' : extends m m' -> m_comms m' = m_comms m -> m_nodes m' = m_nodes m -> minv m ->
  Forall2 (fun s ptr => names ptr = TCommodity s /\ was m' ptr) (m_comms m') (m_nodes m').
Proof.
  intros E -> -> I. eapply Forall2_impl; [|apply (mi_nodes m I)]. intros s ptr [A B]. split; [exact A|]. eapply was_extends; eassumption.
Qed.

(** The current address of an account. *)
Lemma acct_addr_was m p a : minv m -> m_accts m p = Some a -> was m (acct_addr m p) /\ names (acct_addr m p) = TAccount p.
Proof.
  intros I H. destruct (path_snoc p) as [->|(q & n & ->)]; [split; [exact Logic.I|reflexivity]|].
  assert (X : m_accts m (q ++ [n]) <> None) by congruence. apply (mi_tree m I) in X as (b & Hb & In). rewrite (acct_addr_snoc _ _ _ _ Hb). split; [|reflexivity].
  cbn [was]. exists b, (length (ma_subs b)). split; [exact Hb|]. split; [lia|]. split; [rewrite firstn_all; exact In|]. rewrite (mi_a m I _ _ Hb). reflexivity.
Qed.

Lemma create_minv m p first : minv m -> (exists a, m_accts m p = Some a /\ ~ In first (ma_subs a)) ->
  minv (m_create pol m p first) /\ extends m (m_create pol m p first).
Proof.
  intros I (a & Ha & Nin). unfold m_create. rewrite Ha.
  assert (Nn : m_accts m (p ++ [first]) = None).
  { destruct (m_accts m (p ++ [first])) eqn:E; [|reflexivity]. assert (X : m_accts m (p ++ [first]) <> None) by congruence.
    apply (mi_tree m I) in X as (b & Hb & Ib). congruence. }
  set (child := mkMA (Some _) [] no_alloc []). set (a' := mkMA _ _ _ _). set (m' := mkMem _ _ _ _ _ _).
  assert (Np : p <> p ++ [first]) by (intros X; apply (f_equal (@length _)) in X; rewrite app_length in X; cbn in X; lia).
  assert (At : forall q, q = p ++ [first] /\ m_accts m' q = Some child \/ q = p /\ m_accts m' q = Some a' \/ q <> p /\ q <> p ++ [first] /\ m_accts m' q = m_accts m q).
  { intros q. subst m'. cbn [m_accts]. destruct (set_acct_cases (set_acct (m_accts m) p a') (p ++ [first]) child q) as [[-> E]|[N E]]; [auto|].
    rewrite E. destruct (set_acct_cases (m_accts m) p a' q) as [[-> E']|[N' E']]; [auto|]. right. right. auto. }
  assert (Ap : m_accts m' p = Some a') by (destruct (At p) as [[X _]|[[_ X]|[X _]]]; [contradiction|exact X|contradiction]).
  assert (E : extends m m').
  { constructor; try (subst m'; cbn [m_xacts m_comms]).
    - lia.
    - eauto.
    - intros q b Hb. destruct (At q) as [[-> X]|[[-> X]|(_ & _ & X)]].
      + congruence.
      + exists a', [first]. split; [exact X|]. rewrite Ha in Hb. injection Hb as <-. reflexivity.
      + exists b, []. rewrite X, app_nil_r. auto.
    - exists []. rewrite app_nil_r. reflexivity.
    - apply same_xacts. reflexivity.
    - intros q b Hb. destruct (At q) as [[-> X]|[[-> X]|(_ & _ & X)]].
      + congruence.
      + exists a', []. rewrite app_nil_r. rewrite Ha in Hb. injection Hb as <-. auto.
      + exists b, []. rewrite X, app_nil_r. auto.
    - exists []. rewrite app_nil_r. reflexivity. }
  split; [|exact E]. eapply minv_change; [exact I|exact E|..].
  - apply (mi_x m I).
  - apply (mi_p m I).
  - intros q b Hb. destruct (At q) as [[-> X]|[[-> X]|(_ & _ & X)]]; rewrite X in Hb.
    + injection Hb as <-. reflexivity.
    + injection Hb as <-. subst a'. cbn [ma_alloc ma_subs]. rewrite app_length, Nat.add_1_r. cbn [after]. rewrite <- (mi_a m I _ _ Ha). reflexivity.
    + apply (mi_a m I _ _ Hb).
  - apply (mi_c m I).
  - destruct (mi_root m I) as (b & Hb & Pb). destruct (At []) as [[X _]|[[X Y]|(_ & _ & X)]].
    + destruct p; discriminate.
    + exists a'. split; [exact Y|]. subst p. rewrite Ha in Hb. injection Hb as <-. exact Pb.
    + exists b. rewrite X. auto.
  - intros q n. split.
    + intros H. destruct (At (q ++ [n])) as [[X Y]|[[X Y]|(N1 & N2 & Y)]].
      * apply snoc_inj in X as [-> ->]. exists a'. split; [exact Ap|]. subst a'. cbn. apply in_or_app. right. left. reflexivity.
      * assert (Z : m_accts m (q ++ [n]) <> None) by congruence. apply (mi_tree m I) in Z as (b & Hb & Ib). apply (e_a _ _ E) in Hb as (b' & r & Hb & Sb).
        exists b'. split; [exact Hb|]. rewrite Sb. apply in_or_app. auto.
      * rewrite Y in H. apply (mi_tree m I) in H as (b & Hb & Ib). apply (e_a _ _ E) in Hb as (b' & r & Hb & Sb).
        exists b'. split; [exact Hb|]. rewrite Sb. apply in_or_app. auto.
    + intros (b & Hb & Ib). destruct (At q) as [[-> X]|[[-> X]|(N1 & N2 & X)]]; rewrite X in Hb.
      * injection Hb as <-. destruct Ib.
      * injection Hb as <-. subst a'. cbn [ma_subs] in Ib. apply in_app_or in Ib as [Ib|[<-|[]]].
        -- assert (Z : m_accts m (p ++ [n]) <> None) by (apply (mi_tree m I); eauto). destruct (m_accts m (p ++ [n])) as [c|] eqn:Ec; [|congruence].
           apply (e_a _ _ E) in Ec as (c' & r & Ec & _). congruence.
        -- destruct (At (p ++ [first])) as [[_ Y]|[[Y _]|(_ & Y & _)]]; congruence.
      * assert (Z : m_accts m (q ++ [n]) <> None) by (apply (mi_tree m I); eauto). destruct (m_accts m (q ++ [n])) as [c|] eqn:Ec; [|congruence].
        apply (e_a _ _ E) in Ec as (c' & r & Ec & _). congruence.
  - intros q n b Hb. destruct (At (q ++ [n])) as [[X Y]|[[X Y]|(N1 & N2 & Y)]]; rewrite Y in Hb.
    + right. injection Hb as <-. apply snoc_inj in X as [-> ->]. destruct (acct_addr_was m p a I Ha) as [W N]. exists (acct_addr m p). auto.
    + left. injection Hb as <-. exists a. rewrite X. auto.
    + left. eauto.
  - intros q b ptr Hb Ib. left. destruct (At q) as [[X Y]|[[-> Y]|(N1 & N2 & Y)]]; rewrite Y in Hb; [injection Hb as <-; destruct Ib|injection Hb as <-; eauto|eauto].
  - intros xi x k q Nx Nk. left. exists x, q. repeat (split; [solve [auto]|]). split; [|reflexivity]. apply (mi_posts m I xi x k q Nx Nk).
  - eapply nodes_extend; [exact E|reflexivity|reflexivity|exact I].
Qed.
End Policy.
