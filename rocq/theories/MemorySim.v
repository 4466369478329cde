(** The memory model follows the journal: every step of the reader keeps the invariant of the memory and
    the agreement of both. *)
From Coq Require Import String List NArith ZArith Bool Lia ZifyBool ZifyNat ZifyN.
From Verif Require Import Base BaseFacts Decimal Dates Amount Balance Scanner History Pool Account Journal Xact Parser Memory.
From Verif Require Import SpecDecimal SpecAmount SpecDates SpecPool SpecAccount SpecXact SpecJournal SpecReading SpecMemory.
From Verif Require Import DecimalFacts BalanceFacts PoolFacts AccountFacts AccountProofs XactFacts XactProofs JournalFacts ReadingFacts MemoryFacts.
Import ListNotations.
Open Scope nat_scope.

(** ** Agreement *)
Definition acct_sim (a : option account) (b : option macct) : Prop :=
  match a, b with
  | None, None => True
  | Some a, Some b => ma_subs b = map ac_name (ac_children a) /\ map names (ma_posts b) = map (fun r => TPost (fst r) (snd r)) (ac_posts a)
  | _, _ => False
  end.
Definition tree_sim (t : account) (f : path -> option macct) (base : path) : Prop := forall p, acct_sim (get_account t p) (f (base ++ p)).
Definition post_sim (strong : Prop) (p : post) (q : mpost) : Prop :=
  names (mp_account q) = TAccount (po_account p) /\ amount_points (po_amount p) (mp_amount q) /\ (strong -> amount_points (po_cost p) (mp_cost q)).
Definition xact_sim (strong : Prop) (x : xact) (y : mxact) : Prop := Forall2 (post_sim strong) (x_posts x) (mx_posts y).
Record sim (md : mode) (j : journal) (m : mem) : Prop := {
  s_x : Forall2 (xact_sim False) (j_xacts j) (m_xacts m);
  s_now : forall xi x y, md = InXact xi -> nth_error (j_xacts j) xi = Some x -> nth_error (m_xacts m) xi = Some y -> xact_sim True x y;
  s_a : tree_sim (j_master j) (m_accts m) [];
  s_c : m_comms m = map fst (p_comms (j_pool j)) }.

Lemma foc_name fuel : forall t name t' p, find_or_create fuel t name true = Ok (Some (t', p)) -> ac_name t' = ac_name t.
Proof.
  induction fuel as [|f IH]; intros [n cs ps] name t' p H; cbn [find_or_create] in H; [discriminate|].
  destruct (find_child name cs); [injection H as <- _; reflexivity|]. destruct (split_first name) as [first rest].
  destruct (find_child first cs) as [c|]; destruct rest as [|r0 rest]; try (injection H as <- _; reflexivity);
  inv_bind H; inv_bind H; destruct v0; injection H as <- _; reflexivity.
Qed.
Lemma find_child_mem n cs : mem_str n (map ac_name cs) = match find_child n cs with Some _ => true | None => false end.
Proof.
  destruct (find_child n cs) as [c|] eqn:E.
  - apply mem_str_in. apply find_child_some in E as [I <-]. apply in_map, I.
  - apply mem_str_not. apply find_child_none, E.
Qed.
Lemma forall2_nth {A B} (R : A -> B -> Prop) l l' : Forall2 R l l' -> forall i x, nth_error l i = Some x -> exists y, nth_error l' i = Some y /\ R x y.
Proof. induction 1 as [|a b l l' H F IH]; intros [|i] x Hx; try discriminate; cbn in *; [injection Hx as <-; eauto|eauto]. Qed.
Lemma forall2_nth_r {A B} (R : A -> B -> Prop) l l' : Forall2 R l l' -> forall i y, nth_error l' i = Some y -> exists x, nth_error l i = Some x /\ R x y.
Proof. induction 1 as [|a b l l' H F IH]; intros [|i] x Hx; try discriminate; cbn in *; [injection Hx as <-; eauto|eauto]. Qed.
Lemma forall2_len {A B} (R : A -> B -> Prop) l l' : Forall2 R l l' -> length l = length l'.
Proof. induction 1; cbn; congruence. Qed.

Lemma create_keys p s a : pool_find p s = None -> map fst (p_comms (pool_create p s a)) = map fst (p_comms p) ++ [s].
Proof. intros H. unfold pool_create. destruct (add_commodity _ _). cbn [p_comms]. rewrite insert_keys_new by exact H. apply map_app. Qed.

Section Policy.
Variable pol : policy.
Hypothesis G : grows pol.
Notation minv := (minv pol).

(** ** Accounts *)
Definition same_rest (m m' : mem) : Prop :=
  m_xalloc m' = m_xalloc m /\ m_xacts m' = m_xacts m /\ m_calloc m' = m_calloc m /\ m_comms m' = m_comms m /\ m_nodes m' = m_nodes m.
Lemma same_rest_refl m : same_rest m m.
Proof. repeat split. Qed.
Lemma same_rest_trans a b c : same_rest a b -> same_rest b c -> same_rest a c.
Proof. intros (A & B & C & D & E) (A' & B' & C' & D' & E'). repeat split; congruence. Qed.

Lemma create_at m base first a : m_accts m base = Some a ->
  let m' := m_create pol m base first in
  same_rest m m' /\ m_accts m' (base ++ [first]) = Some (mkMA (Some (acct_addr m base)) [] no_alloc [])
  /\ (exists a', m_accts m' base = Some a' /\ ma_subs a' = ma_subs a ++ [first] /\ ma_posts a' = ma_posts a)
  /\ forall q, q <> base -> q <> base ++ [first] -> m_accts m' q = m_accts m q.
Proof.
  intros Ha. unfold m_create. rewrite Ha. cbv zeta. split; [repeat split|]. cbn [m_accts]. split; [apply set_acct_same|]. split.
  - rewrite set_acct_other; [rewrite set_acct_same; eexists; repeat split|].
    intros X. apply (f_equal (@length _)) in X. rewrite app_length in X. cbn in X. lia.
  - intros q N1 N2. rewrite set_acct_other by exact N2. rewrite set_acct_other by exact N1. reflexivity.
Qed.
Lemma base_ne (base : path) k p : base ++ k :: p <> base.
Proof. intros X. apply (f_equal (@length _)) in X. rewrite app_length in X. cbn in X. lia. Qed.

Lemma foc_sim fuel : forall t m base name t' p,
  minv m -> tree_sim t (m_accts m) base -> find_or_create fuel t name true = Ok (Some (t', p)) ->
  exists m', m_find_or_create pol fuel m base name = (m', base ++ p) /\ tree_sim t' (m_accts m') base /\ minv m' /\ extends m m' /\ same_rest m m'
    /\ (forall q, (forall r, q <> base ++ r) -> m_accts m' q = m_accts m q) /\ m_accts m' (base ++ p) <> None.
Proof.
  induction fuel as [|f IH]; intros t m base name t' p I S H; cbn [find_or_create] in H; [discriminate|].
  destruct t as [n cs ps]. cbn [m_find_or_create].
  pose proof (S []) as S0. rewrite app_nil_r in S0. cbn [get_account acct_sim] in S0. destruct (m_accts m base) as [a|] eqn:Ha; [|destruct S0].
  cbn [ac_children ac_posts] in S0. destruct S0 as [Sub Po]. rewrite Sub, find_child_mem.
  destruct (find_child name cs) as [c|] eqn:Fc.
  { injection H as <- <-. exists m. split; [reflexivity|]. split; [exact S|]. split; [exact I|]. split; [apply MemoryFacts.extends_refl|]. split; [apply same_rest_refl|].
    split; [reflexivity|]. pose proof (S [name]) as S1. cbn [get_account ac_children] in S1. rewrite Fc in S1. cbn in S1. destruct (m_accts m (base ++ [name])); [discriminate|destruct S1]. }
  destruct (split_first name) as [first rest]. rewrite find_child_mem. destruct (find_child first cs) as [c|] eqn:Ff.
  - (* the first component exists *)
    destruct rest as [|r0 rest].
    { injection H as <- <-. exists m. split; [reflexivity|]. split; [exact S|]. split; [exact I|]. split; [apply MemoryFacts.extends_refl|]. split; [apply same_rest_refl|].
      split; [reflexivity|]. pose proof (S [first]) as S1. cbn [get_account ac_children] in S1. rewrite Ff in S1. cbn in S1. destruct (m_accts m (base ++ [first])); [discriminate|destruct S1]. }
    inv_bind H. inv_bind H. destruct v0 as [child' p']. injection H as <- <-. apply unwrap_ok in EQ0. subst v.
    assert (Sc : tree_sim c (m_accts m) (base ++ [first])).
    { intros q. rewrite <- app_assoc. pose proof (S (first :: q)) as Sq. cbn [get_account ac_children] in Sq. rewrite Ff in Sq. exact Sq. }
    destruct (IH _ _ _ _ _ _ I Sc EQ) as (m' & E & S' & I' & Ex & R & Fr & P). exists m'.
    assert (Ap : (base ++ [first]) ++ p' = base ++ first :: p') by (rewrite <- app_assoc; reflexivity).
    rewrite E, <- Ap. split; [reflexivity|]. split; [|split; [exact I'|split; [exact Ex|split; [exact R|split; [|exact P]]]]].
    + apply foc_name in EQ. pose proof (find_child_some _ _ _ Ff) as [_ Nc]. intros q. destruct q as [|k q].
      * rewrite app_nil_r. rewrite Fr; [|intros r; rewrite <- app_assoc; apply not_eq_sym, base_ne]. rewrite Ha. cbn. rewrite set_child_names by congruence. auto.
      * cbn [get_account ac_children]. rewrite find_set_child by congruence. destruct (str_eqb first k) eqn:Ek.
        -- apply str_eqb_eq in Ek. subst k. rewrite Ff. specialize (S' q). rewrite <- app_assoc in S'. exact S'.
        -- rewrite Fr; [exact (S (k :: q))|]. intros r X. rewrite <- app_assoc in X. apply app_inv_head in X. injection X as -> _. rewrite str_eqb_refl in Ek. discriminate.
    + intros q Hq. apply Fr. intros r. rewrite <- app_assoc. apply Hq.
  - (* it is created *)
    assert (Nin : ~ In first (ma_subs a)) by (rewrite Sub; apply find_child_none, Ff).
    destruct (create_minv pol m base first I ltac:(eauto)) as [I1 E1]. destruct (create_at m base first a Ha) as (R1 & C1 & (a' & A1 & A2 & A3) & F1).
    set (m1 := m_create pol m base first) in *.
    assert (S1 : tree_sim (Acct first [] []) (m_accts m1) (base ++ [first])).
    { intros [|k q].
      - rewrite app_nil_r, C1. cbn. auto.
      - cbn [get_account ac_children find_child find]. rewrite F1; [|rewrite <- app_assoc; apply base_ne|apply base_ne].
        pose proof (S (first :: k :: q)) as Sq. cbn [get_account ac_children] in Sq. rewrite Ff in Sq. rewrite <- app_assoc. exact Sq. }
    assert (Z : forall child', ac_name child' = first -> forall m', tree_sim child' (m_accts m') (base ++ [first]) ->
        (forall q, (forall r, q <> (base ++ [first]) ++ r) -> m_accts m' q = m_accts m1 q) -> tree_sim (Acct n (cs ++ [child']) ps) (m_accts m') base).
    { intros child' Nc m' S' Fr q. destruct q as [|k q].
      - rewrite app_nil_r. rewrite Fr; [|intros r; rewrite <- app_assoc; apply not_eq_sym, base_ne]. rewrite A1. cbn. rewrite A2, A3, Sub, map_app. cbn. rewrite Nc. auto.
      - cbn [get_account ac_children]. rewrite find_child_app. destruct (str_eqb (ac_name child') k) eqn:Ek.
        + apply str_eqb_eq in Ek. assert (k = first) as -> by congruence. rewrite Ff. specialize (S' q). rewrite <- app_assoc in S'. exact S'.
        + assert (Nk : first <> k) by (intros X; rewrite Nc, X, str_eqb_refl in Ek; discriminate). rewrite Fr.
          * rewrite F1; [|apply base_ne|intros X; apply app_inv_head in X; injection X; congruence].
            pose proof (S (k :: q)) as Sq. cbn [get_account ac_children] in Sq. destruct (find_child k cs); exact Sq.
          * intros r X. rewrite <- app_assoc in X. apply app_inv_head in X. injection X; congruence. }
    destruct rest as [|r0 rest].
    + injection H as <- <-. exists m1. split; [reflexivity|]. split; [apply Z; auto|]. split; [exact I1|]. split; [exact E1|]. split; [exact R1|].
      split; [|congruence]. intros q Hq. apply F1; [specialize (Hq []); rewrite app_nil_r in Hq; exact Hq|apply Hq].
    + inv_bind H. inv_bind H. destruct v0 as [child' p']. injection H as <- <-. apply unwrap_ok in EQ0. subst v.
      destruct (IH _ _ _ _ _ _ I1 S1 EQ) as (m' & E & S' & I' & Ex & R & Fr & P). exists m'.
      assert (Ap : (base ++ [first]) ++ p' = base ++ first :: p') by (rewrite <- app_assoc; reflexivity).
      rewrite E, <- Ap. split; [reflexivity|]. apply foc_name in EQ. split; [apply Z; auto|]. split; [exact I'|].
      split; [eapply MemoryFacts.extends_trans; eassumption|]. split; [eapply same_rest_trans; eassumption|]. split; [|exact P].
      intros q Hq. rewrite Fr; [apply F1; [specialize (Hq []); rewrite app_nil_r in Hq; exact Hq|apply Hq]|]. intros r. rewrite <- app_assoc. apply Hq.
Qed.

Lemma register_sim t m name t' p : minv m -> tree_sim t (m_accts m) [] -> register_account t name = Ok (t', p) ->
  exists m', m_register pol m name = (m', p) /\ tree_sim t' (m_accts m') [] /\ minv m' /\ extends m m' /\ same_rest m m' /\ m_accts m' p <> None.
Proof.
  intros I S H. unfold register_account in H. destruct name as [|c name]; [discriminate|]. inv_bind H. apply unwrap_ok in H. subst v.
  destruct (foc_sim _ _ _ _ _ _ _ I S EQ) as (m' & E & S' & I' & Ex & R & _ & P). exists m'. auto 10.
Qed.

(** ** Commodities *)
Lemma comm_sim_step m (p : pool) s a :
  minv m -> m_comms m = map fst (p_comms p) ->
  let m' := fst (m_commodity pol m s) in let c := snd (m_commodity pol m s) in
  minv m' /\ extends m m' /\ m_comms m' = map fst (p_comms (fst (pool_find_or_create p s a)))
  /\ m_xacts m' = m_xacts m /\ m_xalloc m' = m_xalloc m /\ m_accts m' = m_accts m
  /\ points_to (comm_of s) c /\ (forall x, c = Some x -> was pol m' x).
Proof.
  intros I S. cbv zeta. rewrite foc_cases. unfold m_commodity. destruct s as [|c0 s0].
  { cbn. split; [exact I|]. split; [apply MemoryFacts.extends_refl|]. repeat (split; [first [exact S|reflexivity|exact Logic.I]|]). discriminate. }
  cbn [is_empty]. set (s := c0 :: s0).
  assert (B : mem_str s (m_comms m) = match pool_find p s with Some _ => true | None => false end).
  { rewrite S. unfold pool_find. destruct (lookup s (p_comms p)) eqn:E.
    - apply mem_str_in. apply lookup_in. congruence.
    - apply mem_str_not. intros X. apply lookup_in in X. congruence. }
  rewrite B. destruct (pool_find p s) as [d|] eqn:Fd.
  - cbn [fst snd]. split; [exact I|]. split; [apply MemoryFacts.extends_refl|]. split; [destruct a as [x|]; [destruct (lookup s (p_ann p))|]; exact S|].
    repeat (split; [reflexivity|]). intros x [= <-]. cbn [was]. exists (length (m_comms m)). split; [lia|]. split; [rewrite firstn_all; apply mem_str_in; rewrite B; reflexivity|].
    rewrite (mi_c _ _ I). reflexivity.
  - cbn [fst snd]. set (m' := mkMem _ _ _ _ _ _).
    assert (E : extends m m').
    { constructor; subst m'; cbn [m_xacts m_accts m_comms m_nodes]; [apply le_n|eauto| |exists [s]; reflexivity|apply same_xacts; reflexivity|apply same_accts; reflexivity|eexists; reflexivity]. intros q b Hb. exists b, []. rewrite app_nil_r. auto. }
    assert (Al : room (map_next pol) (m_calloc m) (length (m_comms m)) = after (map_next pol) (length (m_comms m ++ [s]))).
    { rewrite app_length, Nat.add_1_r. cbn [after]. rewrite <- (mi_c _ _ I). reflexivity. }
    assert (W : was pol m' (AComm (al_gen (room (map_next pol) (m_calloc m) (length (m_comms m)))) s)).
    { cbn [was]. exists (length (m_comms m ++ [s])). subst m'. cbn [m_comms]. split; [apply le_n|]. rewrite firstn_all. split; [apply in_or_app; right; left; reflexivity|].
      rewrite Al. reflexivity. }
    split.
    { eapply minv_change; [exact I|exact E|..].
      - apply (mi_x _ _ I).
      - apply (mi_p _ _ I).
      - apply (mi_a _ _ I).
      - exact Al.
      - apply (mi_root _ _ I).
      - apply (mi_tree _ _ I).
      - intros q n b Hb. left. eauto.
      - intros q b ptr Hb Hi. left. eauto.
      - intros xi x k q Nx Nk. left. exists x, q. repeat (split; [solve [auto]|]). split; [|reflexivity]. apply (mi_posts _ _ I xi x k q Nx Nk).
      - subst m'. cbn [m_comms m_nodes]. apply Forall2_app; [|constructor; [|constructor]].
        + eapply XactFacts.Forall2_impl; [|apply (mi_nodes _ _ I)]. intros y ptr [A1 A2]. split; [exact A1|]. eapply was_extends; eassumption.
        + split; [reflexivity|exact W]. }
    split; [exact E|]. split; [subst m'; cbn [m_comms fst]; rewrite create_keys, S; [reflexivity|exact Fd]|].
    repeat (split; [reflexivity|]). intros x [= <-]. exact W.
Qed.

(** ** Transactions and postings *)
Lemma nth_snoc {A} (l : list A) x i y : nth_error (l ++ [x]) i = Some y -> nth_error l i = Some y \/ i = length l /\ y = x.
Proof.
  intros H. destruct (Nat.lt_ge_cases i (length l)) as [L|L]; [rewrite nth_error_app1 in H by exact L; auto|].
  rewrite nth_error_app2 in H by exact L. destruct (i - length l) as [|k] eqn:E; [|destruct k; discriminate]. injection H as <-. right. split; [lia|reflexivity].
Qed.
Lemma nth_update_cases {A} (f : A -> A) l xi i y : nth_error (update_nth xi f l) i = Some y ->
  i <> xi /\ nth_error l i = Some y \/ i = xi /\ exists x, nth_error l i = Some x /\ y = f x.
Proof.
  revert xi i; induction l as [|a l IH]; intros [|xi] [|i] H; cbn in H; try discriminate.
  - injection H as <-. right. split; [reflexivity|]. exists a. auto.
  - left. split; [discriminate|exact H].
  - left. split; [discriminate|]. exact H.
  - destruct (IH xi i H) as [[N E]|[-> (x & E & ->)]]; [left; split; [congruence|exact E]|right; eauto].
Qed.
Lemma nth_update_eq {A} (f : A -> A) l xi x : nth_error l xi = Some x -> nth_error (update_nth xi f l) xi = Some (f x).
Proof. revert xi; induction l as [|a l IH]; intros [|xi] H; cbn in *; try discriminate; [congruence|auto]. Qed.
Lemma nth_update_ne {A} (f : A -> A) l xi i : i <> xi -> nth_error (update_nth xi f l) i = nth_error l i.
Proof. revert xi i; induction l as [|a l IH]; intros [|xi] [|i] N; cbn; try reflexivity; try congruence. apply IH. congruence. Qed.
Lemma update_len {A} (f : A -> A) l xi : length (update_nth xi f l) = length l.
Proof. revert xi; induction l as [|a l IH]; intros [|xi]; cbn; auto. Qed.

Lemma add_xact_minv m : minv m -> minv (m_add_xact pol m) /\ extends m (m_add_xact pol m).
Proof.
  intros I. set (m' := m_add_xact pol m).
  assert (E : extends m m').
  { constructor; subst m'; unfold m_add_xact; cbn [m_xacts m_accts m_comms].
    - rewrite app_length. lia.
    - intros xi x H. exists x. rewrite nth_error_app1 by (apply nth_error_Some; congruence). auto.
    - intros q b Hb. exists b, []. rewrite app_nil_r. auto.
    - exists []. rewrite app_nil_r. reflexivity.
    - intros xi k q (x & Nx & Nk). exists q. split; [|auto]. exists x. split; [|exact Nk]. cbn [m_xacts]. rewrite nth_error_app1 by (apply nth_error_Some; congruence). exact Nx.
    - apply same_accts. reflexivity.
    - exists []. rewrite app_nil_r. reflexivity. }
  split; [|exact E]. eapply minv_change; [exact I|exact E|..]; subst m'; unfold m_add_xact; cbn [m_xalloc m_xacts m_accts m_calloc m_comms m_nodes].
  - rewrite app_length, Nat.add_1_r. cbn [after]. rewrite <- (mi_x _ _ I). reflexivity.
  - intros xi x H. apply nth_snoc in H as [H|[_ ->]]; [apply (mi_p _ _ I _ _ H)|reflexivity].
  - apply (mi_a _ _ I).
  - apply (mi_c _ _ I).
  - apply (mi_root _ _ I).
  - apply (mi_tree _ _ I).
  - intros q n b Hb. left. eauto.
  - intros q b ptr Hb Hi. left. eauto.
  - intros xi x k q Nx Nk. left. apply nth_snoc in Nx as [Nx|[_ ->]]; [|destruct k; discriminate]. exists x, q. repeat (split; [solve [auto]|]). split; [|reflexivity]. apply (mi_posts _ _ I xi x k q Nx Nk).
  - eapply (nodes_extend pol m (m_add_xact pol m)); [exact E|reflexivity|reflexivity|exact I].
Qed.

(** The posting is added; its account learns the address it has then. *)
Lemma add_post_minv m xi p amt cost x a :
  minv m -> nth_error (m_xacts m) xi = Some x -> m_accts m p = Some a -> was_opt pol m amt -> was_opt pol m cost ->
  let m' := m_add_post pol m xi p amt cost in minv m' /\ extends m m'.
Proof.
  intros I Nx Ha Wa Wc m'. assert (D : m' = m_add_post pol m xi p amt cost) by reflexivity. unfold m_add_post in D. rewrite Nx, Ha in D.
  set (al := room (vec_next pol) (mx_alloc x) (length (mx_posts x))) in *. set (new := mkMP _ _ _ _) in *. set (a' := mkMA _ _ _ _) in *. cbv zeta in D.
  assert (Lx : xi < length (m_xacts m)) by (apply nth_error_Some; congruence).
  assert (Al : al = after (vec_next pol) (S (length (mx_posts x)))) by (cbn [after]; rewrite <- (mi_p _ _ I _ _ Nx); reflexivity).
  assert (E : extends m m').
  { rewrite D. constructor; cbn [m_xacts m_accts m_comms].
    - rewrite update_len. lia.
    - intros i y H. destruct (Nat.eq_dec i xi) as [->|N].
      + rewrite (nth_update_eq _ _ _ _ H). eexists. split; [reflexivity|]. cbn [mx_posts]. rewrite app_length. lia.
      + rewrite nth_update_ne by exact N. eauto.
    - intros q b Hb. destruct (set_acct_cases (m_accts m) p a' q) as [[-> X]|[_ X]]; rewrite X.
      + exists a', []. rewrite Ha in Hb. injection Hb as <-. rewrite app_nil_r. auto.
      + exists b, []. rewrite app_nil_r. auto.
    - exists []. rewrite app_nil_r. reflexivity.
    - intros i k q (y & Ny & Nk). exists q. split; [|auto]. destruct (Nat.eq_dec i xi) as [->|N].
      + eexists. cbn [m_xacts]. rewrite (nth_update_eq _ _ _ _ Ny). split; [reflexivity|]. cbn [mx_posts]. rewrite nth_error_app1 by (apply nth_error_Some; congruence). exact Nk.
      + exists y. cbn [m_xacts]. rewrite nth_update_ne by exact N. auto.
    - intros q b Hb. destruct (set_acct_cases (m_accts m) p a' q) as [[-> X]|[_ X]]; rewrite X.
      + exists a'. eexists. split; [reflexivity|]. rewrite Ha in Hb. injection Hb as <-. subst a'. cbn. auto.
      + exists b, []. rewrite app_nil_r. auto.
    - exists []. rewrite app_nil_r. reflexivity. }
  split; [|exact E]. eapply minv_change; [exact I|exact E|..]; rewrite ?D; cbn [m_xalloc m_xacts m_accts m_calloc m_comms m_nodes].
  - rewrite update_len. apply (mi_x _ _ I).
  - intros i y H. apply nth_update_cases in H as [[_ H]|[-> (z & H & ->)]]; [apply (mi_p _ _ I _ _ H)|]. rewrite Nx in H. injection H as <-.
    cbn [mx_alloc mx_posts]. rewrite app_length, Nat.add_1_r. exact Al.
  - intros q b Hb. destruct (set_acct_cases (m_accts m) p a' q) as [[-> X]|[_ X]]; rewrite X in Hb; [injection Hb as <-; apply (mi_a _ _ I _ _ Ha)|apply (mi_a _ _ I _ _ Hb)].
  - apply (mi_c _ _ I).
  - destruct (mi_root _ _ I) as (b & Hb & Pb). destruct (set_acct_cases (m_accts m) p a' []) as [[<- X]|[_ X]]; rewrite X; [|eauto].
    exists a'. split; [reflexivity|]. subst a'. cbn. congruence.
  - intros q n. assert (Z : forall q, set_acct (m_accts m) p a' q <> None <-> m_accts m q <> None).
    { intros q0. destruct (set_acct_cases (m_accts m) p a' q0) as [[-> X]|[_ X]]; rewrite X; [split; congruence|reflexivity]. }
    rewrite Z, (mi_tree _ _ I). split; intros (b & Hb & Hi).
    + destruct (set_acct_cases (m_accts m) p a' q) as [[-> X]|[_ X]]; rewrite X; [|eauto]. exists a'. rewrite Ha in Hb. injection Hb as <-. auto.
    + destruct (set_acct_cases (m_accts m) p a' q) as [[-> X]|[_ X]]; rewrite X in Hb; [|eauto]. injection Hb as <-. eauto.
  - intros q n b Hb. left. destruct (set_acct_cases (m_accts m) p a' (q ++ [n])) as [[Y X]|[_ X]]; rewrite X in Hb; [|eauto]. injection Hb as <-. rewrite Y. eauto.
  - intros q b ptr Hb Hi. destruct (set_acct_cases (m_accts m) p a' q) as [[-> X]|[_ X]]; rewrite X in Hb; [|eauto]. injection Hb as <-.
    subst a'. cbn [ma_posts] in Hi. apply in_app_or in Hi as [Hi|[<-|[]]]; [eauto|]. right. exists xi, (length (mx_posts x)).
    rewrite (nth_update_eq _ _ _ _ Nx). eexists. split; [rewrite Al; reflexivity|]. split; [reflexivity|]. cbn [mx_posts]. rewrite app_length. cbn. lia.
  - intros i y k q Ny Nk. apply nth_update_cases in Ny as [[_ Ny]|[-> (z & Ny & ->)]].
    + left. exists y, q. repeat (split; [solve [auto]|]). split; [|reflexivity]. apply (mi_posts _ _ I i y k q Ny Nk).
    + cbn [mx_posts] in Nk. apply nth_snoc in Nk as [Nk|[_ ->]].
      * left. exists z, q. repeat (split; [solve [auto]|]). split; [|reflexivity]. apply (mi_posts _ _ I xi z k q Ny Nk).
      * right. subst new. cbn [mp_account mp_xact mp_amount mp_cost]. split; [apply (acct_addr_was _ _ _ _ I Ha)|]. split; [reflexivity|].
        split; [cbn [was]; exists (length (m_xacts m)); split; [lia|]; rewrite (mi_x _ _ I); reflexivity|]. auto.
  - assert (Z : m_comms m' = m_comms m /\ m_nodes m' = m_nodes m) by (rewrite D; split; reflexivity). destruct Z as [Z1 Z2].
    pose proof (nodes_extend pol m m' E Z1 Z2 I) as Z. rewrite D in Z. exact Z.
Qed.

Lemma fill_first m ps : (forall k q, nth_error ps k = Some q -> was_opt pol m (mp_amount q) /\ was_opt pol m (mp_cost q)) ->
  forall v, m_first_value ps = Some v -> was_opt pol m (Some v).
Proof.
  induction ps as [|q ps IH]; cbn [m_first_value]; [discriminate|]. intros H v Hv. pose proof (H 0 q eq_refl) as [A C].
  unfold m_value in Hv. destruct (mp_cost q) as [c|]; [injection Hv as <-; exact C|]. destruct (mp_amount q) as [c|]; [injection Hv as <-; exact A|].
  apply IH; [|exact Hv]. intros k r Hr. apply (H (S k) r Hr).
Qed.
Lemma finalize_minv m xi : minv m -> minv (m_finalize m xi) /\ extends m (m_finalize m xi).
Proof.
  intros I.
  assert (L : forall ps, length (m_fill ps) = length ps) by (intros ps; unfold m_fill; destruct (m_first_value ps); [apply map_length|reflexivity]).
  assert (E : extends m (m_finalize m xi)).
  { constructor; unfold m_finalize; cbn [m_xacts m_accts m_comms].
    - rewrite update_len. lia.
    - intros i y H. destruct (Nat.eq_dec i xi) as [->|N].
      + rewrite (nth_update_eq _ _ _ _ H). eexists. split; [reflexivity|]. cbn [mx_posts]. rewrite L. lia.
      + rewrite nth_update_ne by exact N. eauto.
    - intros q b Hb. exists b, []. rewrite app_nil_r. auto.
    - exists []. rewrite app_nil_r. reflexivity.
    - intros i k q (y & Ny & Nk). destruct (Nat.eq_dec i xi) as [->|N].
      + unfold posting_at. cbn [m_xacts]. rewrite (nth_update_eq _ _ _ _ Ny). unfold m_fill. destruct (m_first_value (mx_posts y)) as [v|] eqn:V.
        * eexists. split; [eexists; split; [reflexivity|]; cbn [mx_posts]; rewrite nth_error_map, Nk; reflexivity|].
          destruct (m_value q) eqn:Mq; [auto|]. cbn. repeat (split; [reflexivity|]). split; [|reflexivity]. unfold m_value in Mq. intros X. destruct (mp_cost q); congruence.
        * exists q. split; [|auto]. eexists. split; [reflexivity|]. cbn [mx_posts]. exact Nk.
      + exists q. split; [|auto]. exists y. cbn [m_xacts]. rewrite nth_update_ne by exact N. auto.
    - apply same_accts. reflexivity.
    - exists []. rewrite app_nil_r. reflexivity. }
  split; [|exact E]. eapply minv_change; [exact I|exact E|..]; unfold m_finalize; cbn [m_xalloc m_xacts m_accts m_calloc m_comms m_nodes].
  - rewrite update_len. apply (mi_x _ _ I).
  - intros i y H. apply nth_update_cases in H as [[_ H]|[-> (z & H & ->)]]; [apply (mi_p _ _ I _ _ H)|]. cbn [mx_alloc mx_posts]. rewrite L. apply (mi_p _ _ I _ _ H).
  - apply (mi_a _ _ I).
  - apply (mi_c _ _ I).
  - apply (mi_root _ _ I).
  - apply (mi_tree _ _ I).
  - intros q n b Hb. left. eauto.
  - intros q b ptr Hb Hi. left. eauto.
  - intros i y k q Ny Nk. left. apply nth_update_cases in Ny as [[_ Ny]|[-> (z & Ny & ->)]].
    + exists y, q. repeat (split; [solve [auto]|]). split; [|reflexivity]. apply (mi_posts _ _ I i y k q Ny Nk).
    + cbn [mx_posts] in Nk. unfold m_fill in Nk. destruct (m_first_value (mx_posts z)) as [v|] eqn:V.
      * rewrite nth_error_map in Nk. destruct (nth_error (mx_posts z) k) as [r|] eqn:Nr; [|discriminate]. injection Nk as <-.
        destruct (mi_posts _ _ I xi z k r Ny Nr) as (_ & _ & _ & B & C). exists z, r. split; [exact Ny|]. split; [exact Nr|]. destruct (m_value r); cbn; repeat (split; [solve [auto]|]); [auto|].
        split; [|reflexivity]. eapply fill_first; [|exact V]. intros k0 q0 N0. apply (mi_posts _ _ I xi z k0 q0 Ny N0).
      * exists z, q. repeat (split; [solve [auto]|]). split; [|reflexivity]. apply (mi_posts _ _ I xi z k q Ny Nk).
  - eapply (nodes_extend pol m (m_finalize m xi)); [exact E|reflexivity|reflexivity|exact I].
Qed.
End Policy.
