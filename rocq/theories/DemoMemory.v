(** Journals in which stored pointers dangle, whatever the growth policy. *)
From Coq Require Import String List NArith ZArith Bool Lia ZifyBool ZifyNat ZifyN.
From Verif Require Import Base BaseFacts Decimal Dates Amount Balance Scanner History Pool Account Journal Xact Parser Memory.
From Verif Require Import SpecDecimal SpecAmount SpecDates SpecPool SpecAccount SpecXact SpecJournal SpecText SpecReading SpecScan SpecWhole SpecMemory.
From Verif Require Import PoolFacts AccountFacts AccountProofs JournalFacts WholeProofs MemoryFacts MemorySim MemoryRead MemoryProofs DemoJournal DemoScan DemoWhole.
Import ListNotations.
Open Scope list_scope.
Open Scope nat_scope.

(** ** A transaction with any number of postings *)
Definition zero_post : str := lit "    Assets:Cash  0 EUR
".
Definition many_lines (n : nat) : list str := demo_header :: repeat zero_post n.
Definition many_xact (n : nat) : wxact := mkWX (mkDate 2023 4 5) (Some (mkDate 2023 4 6)) (lit "The; Shop") (lit "a note")
  (repeat (mkWP cash (Some (0%Z, 0, lit "EUR"))) n).
Lemma denotes_0 : denotes (lit "0") 0 0.
Proof. apply (denotes_check [] false (lit "0") [] []); auto. Qed.
Lemma writes_zero : writes_posting zero_post (mkWP cash (Some (0%Z, 0, lit "EUR"))).
Proof. eexists _, _, _. split; [reflexivity|]. split; [exact (amount_line _ _ _ (after_eur (lit "0") eq_refl))|split; [reflexivity|exact denotes_0]]. Qed.
Lemma forall2_repeat {A B} (P : A -> B -> Prop) a b n : P a b -> Forall2 P (repeat a n) (repeat b n).
Proof. intros H. induction n; cbn; constructor; auto. Qed.
Lemma many_written n : writes_journal (many_lines n) [many_xact n].
Proof. apply (wj_last demo_header (repeat zero_post n)); [apply writes_demo_header|]. apply forall2_repeat, writes_zero. Qed.
Lemma many_lines_of n : lines_of (concat (many_lines n)) (many_lines n).
Proof.
  split; [reflexivity|left]. constructor.
  - exists (lit "2023-04-05=2023-04-06  The; Shop  ;  a note"). split; [reflexivity|]. intros X. vm_compute in X. repeat destruct X as [X|X]; try discriminate X; exact X.
  - apply Forall_forall. intros l Hl. apply repeat_spec in Hl. subst l. exists (lit "    Assets:Cash  0 EUR"). split; [reflexivity|]. intros X. vm_compute in X. repeat destruct X as [X|X]; try discriminate X; exact X.
Qed.
Lemma repeat_at {A} (a : A) n i x : nth_error (repeat a n) i = Some x -> x = a.
Proof. intros H. apply nth_error_In in H. eapply repeat_spec, H. Qed.
Lemma many_well_formed n : 2 <= n -> well_formed (many_xact n).
Proof.
  intros L. split; [cbn [many_xact wx_posts]; rewrite repeat_length; exact L|]. split; [|split].
  - cbn [many_xact wx_posts]. intros i k H _. destruct (nth_error _ i) eqn:E; [|discriminate]. apply repeat_at in E. subst. discriminate.
  - exists (lit "EUR"). apply Forall_forall. intros p Hp u k s E. apply repeat_spec in Hp. subst p. injection E as _ _ <-. reflexivity.
  - exists 0. split; [lia|]. split.
    + apply Forall_forall. intros p Hp u k s E. apply repeat_spec in Hp. subst p. injection E as _ <- _. lia.
    + assert (Z : sumZ (map Z.abs (written_units (many_xact n))) = 0%Z).
      { unfold written_units. cbn [many_xact wx_posts]. clear L. induction n as [|n IH]; [reflexivity|]. cbn [repeat flat_map wp_amount app map]. unfold sumZ in *. cbn [fold_right]. rewrite IH. reflexivity. }
      rewrite Z. vm_compute. reflexivity.
Qed.

Lemma evolves_trans pol a m b m' c m'' : evolves pol a m b m' -> evolves pol b m' c m'' -> evolves pol a m c m''.
Proof. intros H1 H2. induction H2; [exact H1|econstructor; eauto..]. Qed.
Lemma memory_reachable pol j m : memory pol j m -> reachable_journal j.
Proof. intros H. induction H; [constructor|eapply rj_read; eauto|eapply rj_register; eauto|eapply rj_commodity; eauto]. Qed.
Definition nofs : filesystem := fun _ => None.

Lemma read_many pol n j m : memory pol j m -> 2 <= n ->
  exists j' m' x, evolves pol j m j' m' /\ j_xacts j' = j_xacts j ++ [x] /\ length (x_posts x) = n
    /\ Forall (fun p => po_account p = components cash /\ exists a, po_amount p = Some a /\ a_c a = Some (lit "EUR")) (x_posts x).
Proof.
  intros H L. destruct (journal_accepted 0 [] nofs _ _ _ j (many_lines_of n) (many_written n)) as (j' & new & E & X & F).
  - constructor; [apply many_well_formed, L|constructor].
  - eapply memory_reachable, H.
  - inversion F as [|w x ws xs F1 F2]; subst. inversion F2; subst. exists j'. eexists. exists x. split; [eapply ev_read; [apply ev_same|exact E]|]. split; [exact X|].
    destruct F1 as (_ & _ & _ & _ & F1). cbn [many_xact wx_posts] in F1. split; [rewrite <- (forall2_len _ _ _ F1); apply repeat_length|].
    apply Forall_forall. intros p Hp. apply In_nth_error in Hp as (i & Hi). destruct (forall2_nth_r _ _ _ F1 _ _ Hi) as (wp & Hw & P). apply repeat_at in Hw. subst wp.
    destruct P as (P1 & _ & _ & a & P2 & P3). cbn [wp_account wp_amount] in *. split; [exact P1|]. exists a. split; [exact P2|]. apply P3.
Qed.

(** A pointer that is alone in its container, and the container outgrows its first allocation. *)
Lemma dangles pol j m j' m' a : grows pol -> memory pol j m -> evolves pol j m j' m' -> stored m a -> a <> AMaster ->
  elements j a = 1 -> growth pol a 0 < elements j' a -> stored m' a /\ ~ valid m' a.
Proof.
  intros G H E St Na E1 L. split; [eapply stored_stays; eassumption|]. pose proof (growth_grows pol G a 0) as G0.
  assert (V : valid m a) by (eapply stored_fits; [exact G|exact H|exact St|lia]).
  rewrite (pointer_lifetime pol G _ _ _ _ _ H E V). intros N. apply N. exists (growth pol a 0). split; [exists 0; reflexivity|]. lia.
Qed.

(** ** Postings *)
Lemma postings_dangle pol : grows pol -> exists j m p ma ptr, memory pol j m /\ m_accts m p = Some ma /\ In ptr (ma_posts ma) /\ ~ valid m ptr.
Proof.
  intros G. destruct (read_many pol (S (S (vec_next pol 0))) _ _ (ev_same pol journal_new mem_new) ltac:(lia)) as (j & m & x & E & X & L & F).
  cbn [journal_new j_xacts app] in X. destruct (memory_R pol _ _ E) as (I & _ & _).
  assert (A : account_of (j_xacts j) (0, 0) = Some (components cash)).
  { unfold account_of, get_post. rewrite X. cbn [fst snd nth_error]. destruct (x_posts x) as [|p ps]; [discriminate|]. inversion F as [|? ? [F1 _] _]; subst. cbn. rewrite F1. reflexivity. }
  destruct (i_links _ _ I) as [L1 L2]. destruct (L2 _ _ A) as (a & Ha).
  destruct (L1 (components cash) (ac_posts a)) as [_ L3]; [unfold posts_at; rewrite Ha; reflexivity|]. apply L3 in A. apply In_nth_error in A as (i & Hi).
  destruct (posting_pointer pol G _ _ _ _ _ _ _ E Ha Hi) as (ma & ptr & y & Hm & Hp & _ & Ny & _ & V). exists j, m, (components cash), ma, ptr.
  split; [exact E|]. split; [exact Hm|]. split; [eapply nth_error_In, Hp|]. rewrite V. rewrite X in Ny. injection Ny as <-. rewrite L. intros N. apply N.
  destruct G as [Gv _]. specialize (Gv 0). exists (vec_next pol 0). split; [exists 0; reflexivity|]. lia.
Qed.

(** ** The first journal: one transaction in one account and one commodity *)
Definition first_j : journal := from_ok journal_new (parse_text 0 [] nofs (concat (many_lines 2)) journal_new).
Lemma first_j_ok : parse_text 0 [] nofs (concat (many_lines 2)) journal_new = Ok first_j.
Proof. vm_compute. reflexivity. Qed.
Definition first_m (pol : policy) : mem := m_read pol 0 [] nofs (text_source (concat (many_lines 2))) mem_new.
Lemma first_memory pol : memory pol first_j (first_m pol).
Proof. eapply ev_read; [apply ev_same|exact first_j_ok]. Qed.
Lemma first_post pol : exists q, posting_at (first_m pol) 0 0 q /\ (exists g, mp_account q = AAcct [lit "Assets"] g (lit "Cash"))
  /\ (exists g, mp_xact q = AXact g 0) /\ exists g, mp_amount q = Some (Some (AComm g (lit "EUR"))).
Proof.
  assert (E : exists x p a, nth_error (j_xacts first_j) 0 = Some x /\ nth_error (x_posts x) 0 = Some p /\ po_account p = [lit "Assets"; lit "Cash"] /\ po_amount p = Some a /\ a_c a = Some (lit "EUR")).
  { eexists _, _, _. repeat (split; [vm_compute; reflexivity|]). vm_compute. reflexivity. }
  destruct E as (x & p & a & Nx & Np & Ea & Em & Ec). destruct (posting_pointers pol _ _ _ _ _ _ (first_memory pol) Nx Np) as (q & P & A & B & C).
  exists q. split; [exact P|]. rewrite Ea in A. rewrite Em in C. cbn in C. destruct (mp_amount q) as [o|]; [|destruct C]. rewrite Ec in C. split; [|split].
  - destruct (mp_account q) as [|g i|xi g k|r g s|g s]; try discriminate. injection A as A. apply (app_inj_tail r [lit "Assets"]) in A as [-> ->]. eauto.
  - destruct (mp_xact q) as [|g i|xi g k|r g s|g s]; try discriminate. injection B as ->. eauto.
  - destruct o as [o|]; [|destruct C]. cbn in C. destruct o as [|g i|xi g k|r g s|g s]; try discriminate. injection C as ->. eauto.
Qed.

(** ** Growing each container *)
Definition xs (i : nat) : str := repeat 120%N (S i).
Lemma xs_inj i k : xs i = xs k -> i = k.
Proof. intros H. apply (f_equal (@length _)) in H. unfold xs in H. rewrite !repeat_length in H. lia. Qed.
Lemma xs_no_colon i : ~ In colon (xs i).
Proof. intros H. apply repeat_spec in H. discriminate. Qed.
Lemma many_names {A} (f : nat -> A) n : (forall i k, f i = f k -> i = k) -> NoDup (map f (seq 0 n)).
Proof. intros H. apply FinFun.Injective_map_NoDup; [exact H|apply seq_NoDup]. Qed.

Lemma register_many pol prefix path n : (forall i, components (prefix ++ xs i) = path ++ [xs i]) -> forall j m, memory pol j m ->
  exists j' m', evolves pol j m j' m' /\ (forall q, exists_at (j_master j) q -> exists_at (j_master j') q)
    /\ forall i, i < n -> exists_at (j_master j') (path ++ [xs i]).
Proof.
  intros C j m H. induction n as [|n (j' & m' & E & K & F)]; [exists j, m; split; [apply ev_same|]; split; [auto|lia]|].
  assert (W : wf_tree (j_master j')). { destruct (evolves_follows pol _ _ _ _ (memory_R pol _ _ H) E) as [(I & _) _]. apply I. }
  destruct (register_then_find (j_master j') (prefix ++ xs n) W) as (t & p & R & _ ); [destruct prefix; discriminate|].
  assert (Pc : p = components (prefix ++ xs n)) by (eapply register_ok; eassumption). subst p.
  exists (set_master j' t). eexists. split; [eapply ev_register; [exact E|exact R]|]. cbn [set_master j_master].
  assert (X := fun q => register_exists _ _ _ _ q W R). split; [intros q Hq; apply X; left; apply K, Hq|].
  intros i Hi. apply X. destruct (Nat.eq_dec i n) as [->|N]; [right|left; apply F; lia].
  rewrite C. apply prefix_of_refl.
Qed.
Lemma children_many t p n : (forall i, i < n -> exists_at t (p ++ [xs i])) -> 0 < n -> exists a, get_account t p = Some a /\ n <= length (ac_children a).
Proof.
  intros H N. destruct (H 0 N) as (b & Hb). rewrite get_account_app in Hb. destruct (get_account t p) as [a|] eqn:Ha; [|discriminate]. exists a. split; [reflexivity|].
  rewrite <- (map_length ac_name). rewrite <- (seq_length n 0), <- (map_length xs). apply NoDup_incl_length; [apply many_names, xs_inj|].
  intros x Hx. apply in_map_iff in Hx as (i & <- & Hi). apply in_seq in Hi. destruct (H i ltac:(lia)) as (c & Hc). rewrite get_account_app, Ha in Hc. cbn [get_account] in Hc.
  destruct (find_child (xs i) (ac_children a)) as [d|] eqn:E; [|discriminate]. apply find_child_some in E as [I <-]. apply in_map, I.
Qed.
Lemma commodities_many pol n : forall j m, memory pol j m -> exists j' m', evolves pol j m j' m' /\ n <= length (p_comms (j_pool j')).
Proof.
  intros j m H. assert (Z : exists j' m', evolves pol j m j' m' /\ forall i, i < n -> exists c, pool_find (j_pool j') (xs i) = Some c).
  { induction n as [|n (j' & m' & E & F)]; [exists j, m; split; [apply ev_same|lia]|].
    exists (set_pool j' (fst (pool_find_or_create (j_pool j') (xs n) None))). eexists. split; [eapply ev_commodity; [exact E|intros ? ?; discriminate]|]. cbn [set_pool j_pool].
    intros i Hi. destruct (Nat.eq_dec i n) as [->|N]; [apply foc_finds; discriminate|]. destruct (F i ltac:(lia)) as (c & Hc). exists c. apply foc_extends, Hc. }
  destruct Z as (j' & m' & E & F). exists j', m'. split; [exact E|]. rewrite <- (map_length fst). rewrite <- (seq_length n 0), <- (map_length xs). apply NoDup_incl_length; [apply many_names, xs_inj|].
  intros x Hx. apply in_map_iff in Hx as (i & <- & Hi). apply in_seq in Hi. destruct (F i ltac:(lia)) as (c & Hc). apply lookup_in. unfold pool_find in Hc. congruence.
Qed.
Lemma xacts_many pol n : forall j m, memory pol j m -> exists j' m', evolves pol j m j' m' /\ n <= length (j_xacts j').
Proof.
  induction n as [|n IH]; intros j m H; [exists j, m; split; [apply ev_same|lia]|]. destruct (IH j m H) as (j' & m' & E & L).
  destruct (read_many pol 2 j' m' (evolves_trans _ _ _ _ _ _ _ H E) ltac:(lia)) as (j2 & m2 & x & E2 & X & _).
  exists j2, m2. split; [eapply evolves_trans; eassumption|]. rewrite X, app_length. cbn. lia.
Qed.

(** Dangling pointers of each kind. *)
Lemma assets_names i : components (lit "Assets:" ++ xs i) = [lit "Assets"; xs i].
Proof.
  change (lit "Assets:" ++ xs i) with (lit "Assets" ++ colon :: xs i). rewrite components_cons; [|vm_compute; intuition discriminate|discriminate].
  rewrite components_plain by apply xs_no_colon. reflexivity.
Qed.
Lemma account_dangles pol : grows pol -> exists j m xi k q, memory pol j m /\ posting_at m xi k q /\ ~ valid m (mp_account q).
Proof.
  intros G. destruct (first_post pol) as (q & P & (g & A) & _). pose proof (first_memory pol) as H.
  destruct (register_many pol (lit "Assets:") [lit "Assets"] (S (map_next pol 0)) assets_names _ _ H) as (j & m & E & _ & F).
  destruct (children_many _ _ _ F) as (a & Ha & L); [lia|].
  destruct (posting_stays pol _ _ _ _ _ _ _ H E P) as (q' & P' & A' & _).
  exists j, m, 0, 0, q'. split; [eapply evolves_trans; eassumption|]. split; [exact P'|]. rewrite A'.
  refine (proj2 (dangles pol _ _ _ _ _ G H E (st_account _ _ _ _ P) _ _ _)); rewrite A; [discriminate|vm_compute; reflexivity|].
  cbn [growth elements]. rewrite Ha. lia.
Qed.
Lemma parent_dangles pol : grows pol -> exists j m p ma a, memory pol j m /\ m_accts m p = Some ma /\ ma_parent ma = Some a /\ ~ valid m a.
Proof.
  intros G. pose proof (first_memory pol) as H.
  assert (C : exists a, get_account (j_master first_j) ([lit "Assets"] ++ [lit "Cash"]) = Some a) by (eexists; vm_compute; reflexivity). destruct C as (c & C).
  destruct (account_pointers pol _ _ _ _ _ H C) as (ma & ptr & Hm & Hp & N).
  assert (X : exists g, ptr = AAcct [] g (lit "Assets")).
  { destruct ptr as [|g i|xi g k|r g s|g s]; try discriminate. cbn [names] in N. injection N as N. apply (app_inj_tail r []) in N as [-> ->]. eauto. }
  destruct X as (g & ->).
  destruct (register_many pol [] [] (S (map_next pol 0)) ltac:(intros i; cbn [app]; apply components_plain, xs_no_colon) _ _ H) as (j & m & E & _ & F).
  destruct (children_many _ _ _ F) as (a & Ha & L); [lia|].
  destruct (account_stays pol _ _ _ _ _ _ H E Hm) as (ma' & r & Hm' & Hp' & _).
  exists j, m, ([lit "Assets"] ++ [lit "Cash"]), ma'. eexists. split; [eapply evolves_trans; eassumption|]. split; [exact Hm'|]. split; [rewrite Hp'; exact Hp|].
  refine (proj2 (dangles pol _ _ _ _ _ G H E (st_parent _ _ _ _ Hm Hp) _ _ _)); [discriminate|vm_compute; reflexivity|].
  cbn [growth elements]. rewrite Ha. lia.
Qed.
Lemma xact_dangles pol : grows pol -> exists j m xi k q, memory pol j m /\ posting_at m xi k q /\ ~ valid m (mp_xact q).
Proof.
  intros G. destruct (first_post pol) as (q & P & _ & (g & A) & _). pose proof (first_memory pol) as H.
  destruct (xacts_many pol (S (vec_next pol 0)) _ _ H) as (j & m & E & L).
  destruct (posting_stays pol _ _ _ _ _ _ _ H E P) as (q' & P' & _ & A' & _).
  exists j, m, 0, 0, q'. split; [eapply evolves_trans; eassumption|]. split; [exact P'|]. rewrite A'.
  refine (proj2 (dangles pol _ _ _ _ _ G H E (st_xact _ _ _ _ P) _ _ _)); rewrite A; [discriminate|vm_compute; reflexivity|].
  cbn [growth elements]. lia.
Qed.
Lemma amount_dangles pol : grows pol -> exists j m xi k q a, memory pol j m /\ posting_at m xi k q /\ mp_amount q = Some (Some a) /\ ~ valid m a.
Proof.
  intros G. destruct (first_post pol) as (q & P & _ & _ & (g & A)). pose proof (first_memory pol) as H.
  destruct (commodities_many pol (S (map_next pol 0)) _ _ H) as (j & m & E & L).
  destruct (posting_stays pol _ _ _ _ _ _ _ H E P) as (q' & P' & _ & _ & A' & _).
  exists j, m, 0, 0, q'. eexists. split; [eapply evolves_trans; eassumption|]. split; [exact P'|]. split; [rewrite A' by congruence; exact A|].
  refine (proj2 (dangles pol _ _ _ _ _ G H E (st_amount _ _ _ _ _ P A) _ _ _)); [discriminate|vm_compute; reflexivity|].
  cbn [growth elements]. lia.
Qed.
Lemma node_dangles pol : grows pol -> exists j m a, memory pol j m /\ In a (m_nodes m) /\ ~ valid m a.
Proof.
  intros G. pose proof (first_memory pol) as H. destruct (node_pointers pol _ _ H) as [N1 N2].
  assert (N0 : m_comms (first_m pol) = [lit "EUR"]) by (rewrite N1; vm_compute; reflexivity). rewrite N0 in N2.
  destruct (m_nodes (first_m pol)) as [|a [|b l]] eqn:EN; [discriminate| |discriminate]. cbn [map] in N2. assert (N3 : names a = TCommodity (lit "EUR")) by congruence. clear N2. rename N3 into N2.
  destruct (commodities_many pol (S (map_next pol 0)) _ _ H) as (j & m & E & L).
  destruct (nodes_stay pol _ _ _ _ H E) as (r & Er). rewrite EN in Er.
  exists j, m, a. split; [eapply evolves_trans; eassumption|]. split; [rewrite Er; left; reflexivity|].
  assert (St : stored (first_m pol) a) by (apply st_node; rewrite EN; left; reflexivity).
  assert (X : exists g, a = AComm g (lit "EUR")). { destruct a as [|g i|xi g k|p g s|g s]; try discriminate. cbn [names] in N2. injection N2 as ->. eauto. }
  destruct X as (g & ->).
  refine (proj2 (dangles pol _ _ _ _ _ G H E St _ _ _)); [discriminate|vm_compute; reflexivity|]. cbn [growth elements]. lia.
Qed.

(** ** The standard library's policy *)
Lemma std_grows : grows std_policy.
Proof.
  split; intros c; cbn [std_policy vec_next map_next]; [lia|]. destruct (c <? 3) eqn:E; [lia|]. destruct (c <? 7) eqn:E2; lia.
Qed.
(** Five postings, and four. *)
Definition five : str := concat (many_lines 5).
Definition five_j : journal := from_ok journal_new (parse_text 0 [] nofs five journal_new).
Definition five_m : mem := m_read std_policy 0 [] nofs (text_source five) mem_new.
Lemma five_memory : memory std_policy five_j five_m.
Proof. eapply ev_read; [apply ev_same|]. vm_compute. reflexivity. Qed.
Definition four : str := concat (many_lines 4).
Definition four_j : journal := from_ok journal_new (parse_text 0 [] nofs four journal_new).
Definition four_m : mem := m_read std_policy 0 [] nofs (text_source four) mem_new.
Lemma four_memory : memory std_policy four_j four_m.
Proof. eapply ev_read; [apply ev_same|]. vm_compute. reflexivity. Qed.
Fixpoint all_children (ok : nat -> bool) (a : account) : bool :=
  match a with Acct _ cs _ => ok (length cs) && (fix go l := match l with [] => true | c :: l => all_children ok c && go l end) cs end.
Lemma all_children_get ok : forall p t, all_children ok t = true -> forall a, get_account t p = Some a -> ok (length (ac_children a)) = true.
Proof.
  induction p as [|n p IH]; intros [m cs ps] H a Ha; cbn [all_children] in H; apply andb_prop in H as [H1 H2].
  - injection Ha as <-. exact H1.
  - cbn [get_account ac_children] in Ha. destruct (find_child n cs) as [c|] eqn:E; [|discriminate]. apply find_child_some in E as [I _]. apply (IH c); [|exact Ha].
    clear -H2 I. induction cs as [|d cs IH]; [destruct I|]. apply andb_prop in H2 as [H2 H3]. destruct I as [->|I]; [exact H2|apply IH; assumption].
Qed.
Definition small_check (pol : policy) (j : journal) : bool :=
  (length (j_xacts j) <=? vec_next pol 0) && forallb (fun x => length (x_posts x) <=? vec_next pol 0) (j_xacts j)
  && all_children (fun n => n <=? map_next pol 0) (j_master j) && (length (p_comms (j_pool j)) <=? map_next pol 0).
Lemma small_check_ok pol j : small_check pol j = true -> small pol j.
Proof.
  intros H. apply andb_prop in H as [H H4]. apply andb_prop in H as [H H3]. apply andb_prop in H as [H1 H2].
  split; [apply Nat.leb_le, H1|]. split; [|split; [|apply Nat.leb_le, H4]].
  - apply Forall_forall. intros x Hx. rewrite forallb_forall in H2. apply Nat.leb_le, H2, Hx.
  - intros p a Ha. apply Nat.leb_le. exact (all_children_get _ _ _ H3 _ Ha).
Qed.
Lemma four_small : small std_policy four_j.
Proof. apply small_check_ok. vm_compute. reflexivity. Qed.

(** Four commodities: the first one gets a second address. *)
Definition moves : str := lit "2023-04-05 A
    Assets:Cash  1 EUR
    Assets:Bank

2023-04-05 B
    Assets:Cash  1 USD
    Assets:Bank

2023-04-05 C
    Assets:Cash  1 GBP
    Assets:Bank

2023-04-05 D
    Assets:Cash  1 CHF
    Assets:Bank  1 EUR
".
Definition moves_j : journal := from_ok journal_new (parse_text 0 [] nofs moves journal_new).
Definition moves_m : mem := m_read std_policy 0 [] nofs (text_source moves) mem_new.
Lemma moves_memory : memory std_policy moves_j moves_m.
Proof. eapply ev_read; [apply ev_same|]. vm_compute. reflexivity. Qed.

(** Two amounts in one commodity, in one account. *)
Lemma same_commodity_two_pointers : exists xi k q xi' k' q' a b,
  posting_at moves_m xi k q /\ posting_at moves_m xi' k' q' /\ names (mp_account q) = names (mp_account q')
  /\ mp_amount q = Some (Some a) /\ mp_amount q' = Some (Some b) /\ names a = names b /\ a <> b.
Proof.
  exists 0, 1. eexists. exists 3, 1. do 3 eexists. split; [eexists; split; vm_compute; reflexivity|]. split; [eexists; split; vm_compute; reflexivity|].
  split; [vm_compute; reflexivity|]. split; [reflexivity|]. split; [reflexivity|]. split; [reflexivity|discriminate].
Qed.
Lemma one_pointer pol j m a b : grows pol -> memory pol j m -> small pol j -> stored m a -> stored m b -> names a = names b -> a = b.
Proof. intros G H S A B E. eapply valid_equal; [eapply stored_valid; eassumption..|exact E]. Qed.
