(** Which pointers stay valid. *)
From Coq Require Import String List NArith ZArith Bool Lia ZifyBool ZifyNat ZifyN.
From Verif Require Import Base BaseFacts Decimal Dates Amount Balance Scanner History Pool Account Journal Xact Parser Memory.
From Verif Require Import SpecDecimal SpecAmount SpecDates SpecPool SpecAccount SpecXact SpecJournal SpecReading SpecMemory.
From Verif Require Import DecimalFacts BalanceFacts PoolFacts AccountFacts AccountProofs XactFacts XactProofs JournalFacts ReadingFacts MemoryFacts MemorySim MemoryRead.
Import ListNotations.
Open Scope nat_scope.

Section Policy.
Variable pol : policy.
Hypothesis G : grows pol.
Notation vafter := (after (vec_next pol)).
Notation mafter := (after (map_next pol)).

(** The number of elements of the container of an address, in the memory. *)
Definition msize (m : mem) (a : addr) : nat :=
  match a with
  | AMaster => 1
  | AXact _ _ => length (m_xacts m)
  | APost xi _ _ => match nth_error (m_xacts m) xi with Some x => length (mx_posts x) | None => 0 end
  | AAcct p _ _ => match m_accts m p with Some a => length (ma_subs a) | None => 0 end
  | AComm _ _ => length (m_comms m)
  end.
Definition gen_of (a : addr) : nat :=
  match a with AMaster => 0 | AXact g _ => g | APost _ g _ => g | AAcct _ g _ => g | AComm g _ => g end.
Lemma growth_grows a c : c < growth pol a c.
Proof. destruct G as [V M]. destruct a; cbn [growth]; auto. Qed.

Lemma was_size m a : was pol m a -> a = AMaster \/ exists n, 1 <= n <= msize m a /\ gen_of a = al_gen (after (growth pol a) n).
Proof.
  destruct a as [|g i|xi g k|p g s|g s]; cbn [was msize growth gen_of].
  - auto.
  - intros (n & L & E). right. exists n. split; [lia|exact E].
  - intros (x & n & N & L & E). rewrite N. right. exists n. split; [lia|exact E].
  - intros (ma & n & N & L & I & E). rewrite N. right. exists n. split; [|exact E]. split; [|exact L]. destruct n; [destruct I|lia].
  - intros (n & L & I & E). right. exists n. split; [|exact E]. split; [|exact L]. destruct n; [destruct I|lia].
Qed.
Lemma in_firstn {A} (l : list A) n x : In x (firstn n l) -> In x l.
Proof. rewrite <- (firstn_skipn n l) at 2. intros H. apply in_or_app. left. exact H. Qed.
Lemma valid_iff m a : minv pol m -> was pol m a -> (valid m a <-> a = AMaster \/ gen_of a = al_gen (after (growth pol a) (msize m a))).
Proof.
  intros I W. destruct a as [|g i|xi g k|p g s|g s]; cbn [was msize growth gen_of] in *; unfold valid; cbn [deref_addr names].
  - split; auto.
  - destruct W as (n & L & E). rewrite <- (mi_x _ _ I). assert (i <? length (m_xacts m) = true) as -> by (apply Nat.ltb_lt; lia). rewrite andb_true_r.
    destruct (Nat.eqb_spec g (al_gen (m_xalloc m))) as [Y|Y]; split; auto; try discriminate; intros [X|X]; try discriminate; congruence.
  - destruct W as (x & n & N & L & E). rewrite N. rewrite <- (mi_p _ _ I _ _ N). assert (k <? length (mx_posts x) = true) as -> by (apply Nat.ltb_lt; lia). rewrite andb_true_r.
    destruct (Nat.eqb_spec g (al_gen (mx_alloc x))) as [Y|Y]; split; auto; try discriminate; intros [X|X]; try discriminate; congruence.
  - destruct W as (ma & n & N & L & In & E). rewrite N. rewrite <- (mi_a _ _ I _ _ N). assert (mem_str s (ma_subs ma) = true) as -> by (apply mem_str_in; eapply in_firstn, In). rewrite andb_true_r.
    destruct (Nat.eqb_spec g (al_gen (ma_alloc ma))) as [Y|Y]; split; auto; try discriminate; intros [X|X]; try discriminate; congruence.
  - destruct W as (n & L & In & E). rewrite <- (mi_c _ _ I). assert (mem_str s (m_comms m) = true) as -> by (apply mem_str_in; eapply in_firstn, In). rewrite andb_true_r.
    destruct (Nat.eqb_spec g (al_gen (m_calloc m))) as [Y|Y]; split; auto; try discriminate; intros [X|X]; try discriminate; congruence.
Qed.
Lemma valid_was m a : minv pol m -> valid m a -> was pol m a /\ 1 <= msize m a.
Proof.
  intros I V. destruct a as [|g i|xi g k|p g s|g s]; unfold valid in V; cbn [deref_addr names was msize] in *.
  - auto.
  - destruct (g =? _) eqn:Eg; [|discriminate]. destruct (i <? _) eqn:Ei; [|discriminate]. apply Nat.eqb_eq in Eg. apply Nat.ltb_lt in Ei.
    split; [|lia]. exists (length (m_xacts m)). rewrite <- (mi_x _ _ I). split; [lia|exact Eg].
  - destruct (nth_error (m_xacts m) xi) as [x|] eqn:N; [|discriminate]. destruct (g =? _) eqn:Eg; [|discriminate]. destruct (k <? _) eqn:Ei; [|discriminate]. apply Nat.eqb_eq in Eg. apply Nat.ltb_lt in Ei.
    split; [|lia]. exists x, (length (mx_posts x)). rewrite <- (mi_p _ _ I _ _ N). split; [reflexivity|]. split; [lia|exact Eg].
  - destruct (m_accts m p) as [ma|] eqn:N; [|discriminate]. destruct (g =? _) eqn:Eg; [|discriminate]. destruct (mem_str s _) eqn:Ei; [|discriminate]. apply Nat.eqb_eq in Eg. apply mem_str_in in Ei.
    split; [|destruct (ma_subs ma); [destruct Ei|cbn; lia]]. exists ma, (length (ma_subs ma)). rewrite <- (mi_a _ _ I _ _ N), firstn_all. split; [reflexivity|]. split; [lia|]. split; [exact Ei|exact Eg].
  - destruct (g =? _) eqn:Eg; [|discriminate]. destruct (mem_str s _) eqn:Ei; [|discriminate]. apply Nat.eqb_eq in Eg. apply mem_str_in in Ei.
    split; [|destruct (m_comms m); [destruct Ei|cbn; lia]]. exists (length (m_comms m)). rewrite <- (mi_c _ _ I), firstn_all. split; [lia|]. split; [exact Ei|exact Eg].
Qed.

(** The sizes in the journal. *)
Lemma size_sim md j m a : sim md j m -> elements j a = msize m a.
Proof.
  intros [S1 S2 S3 S4]. destruct a as [|g i|xi g k|p g s|g s]; cbn [elements msize].
  - reflexivity.
  - eapply forall2_len, S1.
  - destruct (nth_error (j_xacts j) xi) as [x|] eqn:N.
    + destruct (forall2_nth _ _ _ S1 _ _ N) as (y & -> & F). eapply forall2_len, F.
    + destruct (nth_error (m_xacts m) xi) as [y|] eqn:N'; [|reflexivity]. destruct (forall2_nth_r _ _ _ S1 _ _ N') as (x & X & _). congruence.
  - specialize (S3 p). cbn [app] in S3. destruct (get_account (j_master j) p) as [b|], (m_accts m p) as [ma|]; cbn in S3; try contradiction; [|reflexivity].
    destruct S3 as [-> _]. rewrite map_length. reflexivity.
  - rewrite S4, map_length. reflexivity.
Qed.
Lemma size_extends m m' a : extends m m' -> msize m a <= msize m' a.
Proof.
  intros [E1 E2 E3 (r & E4) _ _ _]. destruct a as [|g i|xi g k|p g s|g s]; cbn [msize].
  - lia.
  - exact E1.
  - destruct (nth_error (m_xacts m) xi) as [x|] eqn:N; [|lia]. apply E2 in N as (x' & -> & L). exact L.
  - destruct (m_accts m p) as [ma|] eqn:N; [|lia]. apply E3 in N as (a' & q & -> & ->). rewrite app_length. lia.
  - rewrite E4, app_length. lia.
Qed.

(** ** Lifetime of a pointer *)
Lemma pointer_lifetime j m j' m' a : memory pol j m -> evolves pol j m j' m' -> valid m a ->
  (valid m' a <-> ~ moved (growth pol a) (elements j a) (elements j' a)).
Proof.
  intros H E V. apply memory_R in H. destruct (evolves_follows pol _ _ _ _ H E) as [H' X]. destruct H as (_ & M & S), H' as (_ & M' & S').
  destruct (valid_was _ _ M V) as [W L]. rewrite (size_sim _ _ _ a S), (size_sim _ _ _ a S').
  pose proof (size_extends _ _ a X) as L'. apply (valid_iff _ _ M W) in V. rewrite (valid_iff _ _ M' (was_extends _ _ _ _ X W)).
  destruct a as [|g i|xi g k|p g s|g s]; [cbn [msize growth]; split; [|auto]; intros _ (c & _ & Y); lia|..].
  all: match goal with |- context [AMaster] => idtac end.
  all: rewrite <- (same_alloc _ (growth_grows _) _ _ (conj L L')); destruct V as [V|V]; [discriminate|].
  all: split; [intros [Y|Y]; [discriminate|congruence]|intros Y; right; congruence].
Qed.

(** Valid pointers are equal exactly if they point to the same thing. *)
Lemma valid_equal m a b : valid m a -> valid m b -> (a = b <-> names a = names b).
Proof.
  intros A B. split; [congruence|]. intros N.
  destruct a as [|g i|xi g k|p g s|g s], b as [|g' i'|xi' g' k'|p' g' s'|g' s']; unfold valid in A, B; cbn [deref_addr names] in *; try discriminate N.
  - reflexivity.
  - injection N as N. exfalso. destruct p'; discriminate N.
  - injection N as <-. destruct (g =? _) eqn:E1; [|discriminate]. destruct (g' =? _) eqn:E2; [|discriminate]. apply Nat.eqb_eq in E1, E2. congruence.
  - injection N as <- <-. destruct (nth_error _ xi); [|discriminate]. destruct (g =? _) eqn:E1; [|discriminate]. destruct (g' =? _) eqn:E2; [|discriminate]. apply Nat.eqb_eq in E1, E2. congruence.
  - injection N as N. exfalso. destruct p; discriminate N.
  - injection N as N. apply snoc_inj in N as [<- <-]. destruct (m_accts m p); [|discriminate]. destruct (g =? _) eqn:E1; [|discriminate]. destruct (g' =? _) eqn:E2; [|discriminate]. apply Nat.eqb_eq in E1, E2. congruence.
  - injection N as <-. destruct (g =? _) eqn:E1; [|discriminate]. destruct (g' =? _) eqn:E2; [|discriminate]. apply Nat.eqb_eq in E1, E2. congruence.
Qed.

(** ** Stored pointers *)
Lemma stored_was m a : minv pol m -> stored m a -> was pol m a.
Proof.
  intros I H. destruct H as [xi k p (x & Nx & Nk)|xi k p (x & Nx & Nk)|xi k p a (x & Nx & Nk) E|xi k p a (x & Nx & Nk) E|p ma a N In|p ma a N E|a In].
  - destruct (mi_posts _ _ I _ _ _ _ Nx Nk) as (A & _). exact A.
  - destruct (mi_posts _ _ I _ _ _ _ Nx Nk) as (_ & _ & A & _). exact A.
  - destruct (mi_posts _ _ I _ _ _ _ Nx Nk) as (_ & _ & _ & A & _). apply (A _ E).
  - destruct (mi_posts _ _ I _ _ _ _ Nx Nk) as (_ & _ & _ & _ & A). apply (A _ E).
  - destruct (mi_refs _ _ I _ _ _ N In) as (xi & k & x & -> & Nx & L). cbn [was]. exists x, (S k). split; [exact Nx|]. split; [lia|reflexivity].
  - destruct (path_snoc p) as [->|(q & n & ->)].
    + destruct (mi_root _ _ I) as (b & Hb & Pb). congruence.
    + destruct (mi_parent _ _ I _ _ _ N) as (ptr & P & _ & W). congruence.
  - pose proof (mi_nodes _ _ I) as F. apply In_nth_error in In as (i & Hi). destruct (forall2_nth_r _ _ _ F _ _ Hi) as (s & _ & _ & W). exact W.
Qed.
Lemma small_size j a : small pol j -> a <> AMaster -> elements j a <= growth pol a 0.
Proof.
  intros (A & B & C & D) N. destruct a as [|g i|xi g k|p g s|g s]; cbn [elements growth]; auto; [congruence| |].
  - destruct (nth_error (j_xacts j) xi) as [x|] eqn:E; [|lia]. rewrite Forall_forall in B. apply B. eapply nth_error_In, E.
  - destruct (get_account (j_master j) p) as [b|] eqn:E; [|lia]. eapply C, E.
Qed.
Lemma stored_fits j m a : memory pol j m -> stored m a -> elements j a <= growth pol a 0 -> valid m a.
Proof.
  intros H St L0. apply memory_R in H as (_ & M & S). pose proof (stored_was _ _ M St) as W. apply (valid_iff _ _ M W).
  destruct (was_size _ _ W) as [->|(n & L & E)]; [auto|]. right.
  rewrite E. apply small_same; [apply growth_grows|exact L|]. rewrite <- (size_sim _ _ _ a S). exact L0.
Qed.
Lemma stored_valid j m a : memory pol j m -> small pol j -> stored m a -> valid m a.
Proof.
  intros H Sm St. assert (N : a <> AMaster \/ a = AMaster) by (destruct a; (left; discriminate) || (right; reflexivity)). destruct N as [N| ->]; [|reflexivity].
  eapply stored_fits; [exact H|exact St|]. apply small_size; assumption.
Qed.
(** Stored pointers are never updated. *)
Lemma stored_stays j m j' m' a : memory pol j m -> evolves pol j m j' m' -> stored m a -> stored m' a.
Proof.
  intros H E St. apply memory_R in H. destruct (evolves_follows pol _ _ _ _ H E) as [_ X].
  destruct St as [xi k p P|xi k p P|xi k p a P E0|xi k p a P E0|p ma a N In|p ma a N E0|a In].
  - destruct (e_q _ _ X _ _ _ P) as (q & P' & <- & _). eapply st_account, P'.
  - destruct (e_q _ _ X _ _ _ P) as (q & P' & _ & <- & _). eapply st_xact, P'.
  - destruct (e_q _ _ X _ _ _ P) as (q & P' & _ & _ & A & _). eapply st_amount; [exact P'|]. rewrite A by congruence. exact E0.
  - destruct (e_q _ _ X _ _ _ P) as (q & P' & _ & _ & _ & A). eapply st_cost; [exact P'|]. rewrite A. exact E0.
  - destruct (e_b _ _ X _ _ N) as (a' & r & N' & _ & E0). eapply st_posting; [exact N'|]. rewrite E0. apply in_or_app. left. exact In.
  - destruct (e_b _ _ X _ _ N) as (a' & r & N' & E1 & _). eapply st_parent; [exact N'|]. congruence.
  - destruct (e_n _ _ X) as (r & E0). apply st_node. rewrite E0. apply in_or_app. left. exact In.
Qed.

Lemma posting_stays j m j' m' xi k q : memory pol j m -> evolves pol j m j' m' -> posting_at m xi k q ->
  exists q', posting_at m' xi k q' /\ mp_account q' = mp_account q /\ mp_xact q' = mp_xact q
    /\ (mp_amount q <> None -> mp_amount q' = mp_amount q) /\ mp_cost q' = mp_cost q.
Proof. intros H E. destruct (evolves_follows pol _ _ _ _ (memory_R pol _ _ H) E) as [_ X]. apply (e_q _ _ X). Qed.
Lemma account_stays j m j' m' p ma : memory pol j m -> evolves pol j m j' m' -> m_accts m p = Some ma ->
  exists ma' r, m_accts m' p = Some ma' /\ ma_parent ma' = ma_parent ma /\ ma_posts ma' = ma_posts ma ++ r.
Proof. intros H E. destruct (evolves_follows pol _ _ _ _ (memory_R pol _ _ H) E) as [_ X]. apply (e_b _ _ X). Qed.
Lemma nodes_stay j m j' m' : memory pol j m -> evolves pol j m j' m' -> exists r, m_nodes m' = m_nodes m ++ r.
Proof. intros H E. destruct (evolves_follows pol _ _ _ _ (memory_R pol _ _ H) E) as [_ X]. apply (e_n _ _ X). Qed.

(** ** The postings of an account *)
Lemma posting_pointer j m p a i xi k : memory pol j m -> get_account (j_master j) p = Some a -> nth_error (ac_posts a) i = Some (xi, k) ->
  exists ma ptr x, m_accts m p = Some ma /\ nth_error (ma_posts ma) i = Some ptr /\ names ptr = TPost xi k
    /\ nth_error (j_xacts j) xi = Some x /\ k < length (x_posts x)
    /\ (valid m ptr <-> ~ moved (vec_next pol) (S k) (length (x_posts x))).
Proof.
  intros H Ha Hi. apply memory_R in H as (_ & M & S). pose proof S as [S1 S2 S3 S4]. specialize (S3 p). cbn [app] in S3. rewrite Ha in S3.
  destruct (m_accts m p) as [ma|] eqn:Hm; [|destruct S3]. cbn [acct_sim] in S3. destruct S3 as [_ E].
  assert (N : nth_error (map names (ma_posts ma)) i = Some (TPost xi k)) by (rewrite E, nth_error_map; unfold postref in *; rewrite Hi; reflexivity).
  rewrite nth_error_map in N. destruct (nth_error (ma_posts ma) i) as [ptr|] eqn:Np; [|discriminate]. injection N as N.
  assert (St : stored m ptr) by (eapply st_posting; [exact Hm|eapply nth_error_In, Np]).
  destruct (mi_refs _ _ M _ _ _ Hm (nth_error_In _ _ Np)) as (xi' & k' & y & -> & Ny & Lk). cbn [names] in N. injection N as -> ->.
  destruct (forall2_nth_r _ _ _ S1 _ _ Ny) as (x & Nx & F). assert (L : length (x_posts x) = length (mx_posts y)) by (eapply forall2_len, F).
  exists ma. eexists. exists x. split; [reflexivity|]. split; [exact Np|]. split; [reflexivity|]. split; [exact Nx|]. rewrite L. split; [exact Lk|].
  rewrite (valid_iff _ _ M (stored_was _ _ M St)). cbn [gen_of growth msize]. rewrite Ny. rewrite <- (same_alloc _ (proj1 G) (Datatypes.S k)) by lia.
  split; [intros [X|X]; [discriminate|exact X]|auto].
Qed.

Lemma small_postings j m p ma ptr : memory pol j m -> Forall (fun x => length (x_posts x) <= vec_next pol 0) (j_xacts j) ->
  m_accts m p = Some ma -> In ptr (ma_posts ma) -> valid m ptr.
Proof.
  intros H F Hm I. eapply stored_fits; [exact H|eapply st_posting; eassumption|]. apply memory_R in H as (_ & M & _).
  destruct (mi_refs _ _ M _ _ _ Hm I) as (xi & k & y & -> & _ & _). cbn [elements growth].
  destruct (nth_error (j_xacts j) xi) as [x|] eqn:E; [|lia]. rewrite Forall_forall in F. eapply F, nth_error_In, E.
Qed.

(** ** What the pointers point to *)
Lemma posting_pointers j m xi x k p : memory pol j m -> nth_error (j_xacts j) xi = Some x -> nth_error (x_posts x) k = Some p ->
  exists q, posting_at m xi k q /\ names (mp_account q) = TAccount (po_account p) /\ names (mp_xact q) = TXact xi /\ amount_points (po_amount p) (mp_amount q).
Proof.
  intros H Nx Nk. apply memory_R in H as (_ & M & [S1 _ _ _]). destruct (forall2_nth _ _ _ S1 _ _ Nx) as (y & Ny & F).
  destruct (forall2_nth _ _ _ F _ _ Nk) as (q & Nq & A & B & _). exists q. split; [exists y; auto|]. split; [exact A|]. split; [|exact B].
  apply (mi_posts _ _ M _ _ _ _ Ny Nq).
Qed.
Lemma account_pointers j m p n a : memory pol j m -> get_account (j_master j) (p ++ [n]) = Some a ->
  exists ma ptr, m_accts m (p ++ [n]) = Some ma /\ ma_parent ma = Some ptr /\ names ptr = TAccount p.
Proof.
  intros H Ha. apply memory_R in H as (_ & M & [_ _ S3 _]). specialize (S3 (p ++ [n])). cbn [app] in S3. rewrite Ha in S3. destruct (m_accts m (p ++ [n])) as [ma|] eqn:Hm; [|destruct S3].
  destruct (mi_parent _ _ M _ _ _ Hm) as (ptr & A & B & _). eauto.
Qed.
Lemma node_pointers j m : memory pol j m -> m_comms m = map fst (p_comms (j_pool j)) /\ map names (m_nodes m) = map TCommodity (m_comms m).
Proof.
  intros H. apply memory_R in H as (_ & M & [_ _ _ S4]). split; [exact S4|]. pose proof (mi_nodes _ _ M) as F. clear -F. induction F as [|s ptr l l' [E _] F IH]; cbn; [reflexivity|]. congruence.
Qed.
End Policy.
