(** Proofs about the full names that are kept: what is kept is what would be computed. *)
From Coq Require Import String List NArith ZArith Bool Lia.
From Verif Require Import Base BaseFacts Account Journal Memory Heap NameCache.
From Verif Require Import SpecAccount SpecMemory SpecHeap SpecEnd SpecExact SpecNameCache.
From Verif Require Import AccountFacts AccountProofs MemoryFacts HeapFacts HeapTree HeapReport HeapSafeTree EndProofs HeapExactProofs.
Import ListNotations.
Open Scope nat_scope.

Section Ind.
  Variable P : nacct -> Prop.
  Hypothesis H : forall n par al k cs, Forall P cs -> P (NAcct n par al k cs).
  Fixpoint nacct_ind' (a : nacct) : P a :=
    let 'NAcct n par al k cs := a in
    H n par al k cs ((fix go l : Forall P l := match l with [] => Forall_nil _ | c :: l' => Forall_cons c (nacct_ind' c) (go l') end) cs).
End Ind.

(** ** Without what is kept, it is the tree of [Heap] *)
Fixpoint erase (a : nacct) : hacct := let 'NAcct n p al _ cs := a in HAcct n p al (map erase cs) [].
Lemma e_name a : hc_name (erase a) = na_name a.
Proof. destruct a; reflexivity. Qed.
Lemma e_parent a : hc_parent (erase a) = na_parent a.
Proof. destruct a; reflexivity. Qed.
Lemma e_alloc a : hc_alloc (erase a) = na_alloc a.
Proof. destruct a; reflexivity. Qed.
Lemma e_children a : hc_children (erase a) = map erase (na_children a).
Proof. destruct a; reflexivity. Qed.
Lemma e_find n cs : find_hchild n (map erase cs) = option_map erase (find_nchild n cs).
Proof. unfold find_hchild, find_nchild. induction cs as [|c cs IH]; cbn [map find]; [reflexivity|]. rewrite e_name. destruct (str_eqb _ _); [reflexivity|exact IH]. Qed.
Lemma e_set n c cs : set_hchild n (erase c) (map erase cs) = map erase (set_nchild n c cs).
Proof. induction cs as [|d cs IH]; cbn [map set_hchild set_nchild]; [reflexivity|]. rewrite e_name. destruct (str_eqb _ _); cbn [map]; [reflexivity|]. f_equal. exact IH. Qed.
Lemma e_get p : forall t, get_hacct (erase t) p = option_map erase (get_nacct t p).
Proof.
  induction p as [|n p IH]; intros t; cbn [get_hacct get_nacct]; [reflexivity|]. rewrite e_children, e_find.
  destruct (find_nchild n (na_children t)) as [c|]; cbn [option_map]; [apply IH|reflexivity].
Qed.
Lemma e_account t a : h_account (erase t) a = n_account t a.
Proof.
  destruct a as [|? ?|? ? ?|p g n|? ?]; cbn [h_account n_account]; try reflexivity. rewrite e_get. destruct (get_nacct t p) as [s|]; cbn [option_map]; [|reflexivity].
  rewrite e_alloc, e_children, e_find. destruct (_ =? _); [|reflexivity]. destruct (find_nchild n (na_children s)); reflexivity.
Qed.
Lemma e_up f : forall t par full, h_up f (erase t) par full = n_up f t par full.
Proof.
  induction f as [|f IH]; intros t [a|] full; cbn [h_up n_up]; try reflexivity. rewrite e_account. destruct (n_account t a) as [p|q|]; cbn [bind]; try reflexivity.
  rewrite e_get. destruct (get_nacct t p) as [s|]; cbn [option_map]; [|reflexivity]. rewrite e_parent, e_name. apply IH.
Qed.
Lemma e_foc pol f : forall self here base name,
  h_find_or_create pol f (erase self) here base name = bind (n_find_or_create pol f self here base name) (fun r => Ok (erase (fst r), snd r)).
Proof.
  induction f as [|f IH]; intros self here base name; cbn [h_find_or_create n_find_or_create]; [reflexivity|]. destruct self as [n par al k cs]. cbn [erase]. rewrite e_find.
  destruct (find_nchild name cs) as [d|]; cbn [option_map]; [reflexivity|]. destruct (split_first name) as [first rest]. rewrite e_find, map_length.
  destruct (find_nchild first cs) as [child|]; cbn [option_map].
  - destruct rest as [|c rest]; [reflexivity|]. rewrite IH. destruct (n_find_or_create pol f child _ _ _) as [[child' r]|q|]; cbn [bind fst snd]; try reflexivity. rewrite e_set. reflexivity.
  - destruct rest as [|c rest].
    + cbn [bind fst snd erase]. rewrite map_app. reflexivity.
    + change (HAcct first (Some here) no_alloc [] []) with (erase (NAcct first (Some here) no_alloc [] [])). rewrite IH.
      destruct (n_find_or_create pol f _ _ _ _) as [[child' r]|q|]; cbn [bind fst snd]; try reflexivity. cbn [erase]. rewrite map_app. reflexivity.
Qed.
Lemma nfind_name n cs c : find_nchild n cs = Some c -> na_name c = n.
Proof. unfold find_nchild. intros H. apply find_some in H as [_ H]. apply str_eqb_eq, H. Qed.
Lemma e_keep p : forall t full, erase (n_keep t p full) = erase t.
Proof.
  induction p as [|m p IH]; intros [n par al k cs] full; cbn [n_keep erase]; [reflexivity|]. destruct (find_nchild m cs) as [c|] eqn:F; [|reflexivity].
  cbn [erase]. rewrite <- e_set, IH. rewrite (set_self m (erase c)); [reflexivity|]. rewrite e_find, F. reflexivity.
Qed.
(** [n_register] gives the address away; this is the one of [Heap]. *)
Lemma e_register pol t name t' : n_register pol t name = Ok t' -> exists a, h_register pol (erase t) name = Ok (erase t', a).
Proof.
  unfold n_register, h_register. destruct name as [|c name]; [discriminate|]. intros E. inv_bind E. destruct v as [t1 a]. inv_bind E. injection E as <-.
  exists a. rewrite e_foc, EQ. cbn [bind fst snd]. rewrite e_account, EQ0. reflexivity.
Qed.
Lemma e_register_back pol t name t' a : h_register pol (erase t) name = Ok (t', a) -> exists t1, n_register pol t name = Ok t1.
Proof.
  unfold n_register, h_register. destruct name as [|c name]; [discriminate|]. intros E. rewrite e_foc in E. destruct (n_find_or_create _ _ _ _ _ _) as [[t1 a1]|q|]; cbn [bind fst snd] in E |- *; try discriminate.
  rewrite e_account in E. destruct (n_account t1 a1); cbn [bind] in E |- *; try discriminate. eexists. reflexivity.
Qed.

(** ** What is kept *)
Definition kept_at (t : nacct) (p : path) : str := match get_nacct t p with Some a => na_kept a | None => [] end.
Lemma nset_find n c cs k : na_name c = n -> find_nchild n cs <> None ->
  find_nchild k (set_nchild n c cs) = if str_eqb n k then Some c else find_nchild k cs.
Proof.
  intros E. unfold find_nchild. induction cs as [|d cs IH]; cbn [find set_nchild]; intros N; [contradiction|].
  destruct (str_eqb (na_name d) n) eqn:D; cbn [find].
  - rewrite E. apply str_eqb_eq in D. rewrite D. destruct (str_eqb n k); reflexivity.
  - destruct (str_eqb (na_name d) k) eqn:F.
    + apply str_eqb_eq in F. subst k. destruct (str_eqb n (na_name d)) eqn:G; [|reflexivity]. apply str_eqb_eq in G. rewrite G, str_eqb_refl in D. discriminate.
    + apply IH, N.
Qed.
Lemma nfind_snoc n cs c : find_nchild n (cs ++ [c]) = match find_nchild n cs with Some d => Some d | None => if str_eqb (na_name c) n then Some c else None end.
Proof. unfold find_nchild. induction cs as [|d cs IH]; cbn [app find]; [reflexivity|]. destruct (str_eqb (na_name d) n); [reflexivity|exact IH]. Qed.
Lemma foc_name pol f self here base name t' a : n_find_or_create pol f self here base name = Ok (t', a) -> na_name t' = na_name self /\ na_kept t' = na_kept self.
Proof.
  destruct f as [|f]; cbn [n_find_or_create]; [discriminate|]. destruct self as [n par al k cs]. destruct (find_nchild name cs); [intros X; injection X as <- _; auto|].
  destruct (split_first name) as [first rest]. destruct (find_nchild first cs) as [child|]; destruct rest as [|c rest]; intros X; try (injection X as <- _; auto).
  - inv_bind X. destruct v. injection X as <- _. auto.
  - inv_bind X. destruct v. injection X as <- _. auto.
Qed.
(** Registering an account keeps what is kept. *)
Lemma foc_kept pol f : forall self here base name t' a, n_find_or_create pol f self here base name = Ok (t', a) -> forall p, kept_at t' p = kept_at self p.
Proof.
  induction f as [|f IH]; intros self here base name t' a E p; pose proof (foc_name _ _ _ _ _ _ _ _ E) as [N K]; cbn [n_find_or_create] in E; [discriminate|]. destruct self as [n par al k cs].
  destruct (find_nchild name cs) as [d|]; [injection E as <- _; reflexivity|]. destruct (split_first name) as [first rest].
  destruct p as [|m p]; [exact K|]. unfold kept_at. destruct (find_nchild first cs) as [child|] eqn:F.
  - destruct rest as [|c rest]; [injection E as <- _; reflexivity|]. inv_bind E. destruct v as [child' r]. injection E as <- _. cbn [get_nacct na_children].
    destruct (foc_name _ _ _ _ _ _ _ _ EQ) as [N' _]. rewrite nset_find by (try congruence; rewrite N'; exact (nfind_name _ _ _ F)).
    destruct (str_eqb first m) eqn:M; [|reflexivity]. apply str_eqb_eq in M. subst m. rewrite F. apply (IH _ _ _ _ _ _ EQ p).
  - destruct rest as [|c rest].
    + injection E as <- _. cbn [get_nacct na_children]. rewrite nfind_snoc. destruct (find_nchild m cs) as [d|]; [reflexivity|]. cbn [na_name]. destruct (str_eqb first m); [|reflexivity]. destruct p; reflexivity.
    + inv_bind E. destruct v as [child' r]. injection E as <- _. cbn [get_nacct na_children]. rewrite nfind_snoc. destruct (find_nchild m cs) as [d|]; [reflexivity|].
      destruct (str_eqb (na_name child') m); [|reflexivity]. pose proof (IH _ _ _ _ _ _ EQ p) as X. unfold kept_at in X. rewrite X. destruct p; reflexivity.
Qed.
Lemma register_kept pol t name t' p : n_register pol t name = Ok t' -> kept_at t' p = kept_at t p.
Proof. unfold n_register. destruct name as [|c name]; [discriminate|]. intros E. inv_bind E. destruct v as [t1 a]. inv_bind E. injection E as <-. eapply foc_kept, EQ. Qed.
Lemma keep_kept p : forall t full a, get_nacct t p = Some a -> na_name (n_keep t p full) = na_name t /\ kept_at (n_keep t p full) p = full /\ forall q, q <> p -> kept_at (n_keep t p full) q = kept_at t q.
Proof.
  induction p as [|m p IH]; intros [n par al k cs] full a G; cbn [n_keep].
  - split; [reflexivity|]. split; [reflexivity|]. intros [|x q] N; [congruence|reflexivity].
  - cbn [get_nacct na_children] in G. destruct (find_nchild m cs) as [c|] eqn:F; [|discriminate]. destruct (IH c full a G) as (A & B & C). pose proof (nfind_name _ _ _ F) as FN.
    split; [reflexivity|]. unfold kept_at. split.
    + cbn [get_nacct na_children]. rewrite nset_find by congruence. rewrite str_eqb_refl. exact B.
    + intros [|x q] N; [reflexivity|]. cbn [get_nacct na_children]. rewrite nset_find by congruence. destruct (str_eqb m x) eqn:M; [|reflexivity].
      apply str_eqb_eq in M. subst x. rewrite F. apply C. congruence.
Qed.

(** ** Which pointers are followed *)
Section Program.
Variable pol : policy.
Hypothesis GR : grows pol.
(** The pointers from [p] up to the master account. *)
Definition chain (t : hacct) (p : path) : Prop :=
  forall q n r c, p = (q ++ [n]) ++ r -> get_hacct t (q ++ [n]) = Some c -> exists b, hc_parent c = Some b /\ h_account t b = Ok q.
Lemma up_chain t : rooted t -> forall p fuel c full, get_hacct t p = Some c -> length p <= fuel -> ((exists s, h_up fuel t (hc_parent c) full = Ok s) <-> chain t p).
Proof.
  intros (R1 & R2 & R3) p. induction p as [|n q IH] using rev_ind; intros fuel c full G L.
  - injection G as <-. rewrite R2. split; [|intros _; exists full; destruct fuel; reflexivity]. intros _ q n r c E. destruct q; discriminate.
  - destruct (R3 q n c G) as (b & PB & AB). cbn [app] in AB. rewrite app_length in L. cbn [length] in L. destruct fuel as [|f]; [lia|]. rewrite PB. cbn [h_up].
    destruct (account_cases t b) as [X|(q' & EB & AP)].
    + rewrite X. cbn [bind]. split; [intros (s & Y); discriminate|]. intros H. destruct (H q n [] c) as (b' & P' & HA); [symmetry; apply app_nil_r|exact G|]. congruence.
    + assert (q' = q) by congruence. subst q'. rewrite EB. cbn [bind]. destruct (account_found _ _ _ EB) as (s & Gs). rewrite Gs. rewrite (IH f s _ Gs) by lia. split.
      * intros H q0 n0 r c0 E G0. destruct (path_snoc r) as [->|(r0 & x & ->)].
        { rewrite app_nil_r in E. apply snoc_inj in E as [<- <-]. rewrite G in G0. injection G0 as <-. eauto. }
        { rewrite app_assoc in E. apply snoc_inj in E as [-> _]. eapply H; [reflexivity|exact G0]. }
      * intros H q0 n0 r c0 E G0. eapply (H q0 n0 (r ++ [n])); [|exact G0]. rewrite E, <- !app_assoc. reflexivity.
Qed.
Lemma parent_stays t ps q n m c : ktree pol ps [] t -> get_hacct t ((q ++ [n]) ++ [m]) = Some c ->
  ((exists b, hc_parent c = Some b /\ h_account t b = Ok (q ++ [n])) <->
   forall before after r k k', ps = before ++ (q ++ n :: m :: r) :: after -> (forall x, ~ In (q ++ n :: m :: x) before) ->
     accounts_below q (before ++ [q ++ n :: m :: r]) k -> accounts_below q ps k' -> ~ moved (map_next pol) k k').
Proof.
  intros T G. destruct (tree_parent_ok pol t ps T q n m c G) as (b & a & x & E1 & E2 & P & HA).
  assert (L : 1 <= length (kids q (b ++ [q ++ n :: m :: x])) <= length (kids q ps)).
  { split; [apply kids_pos|]. rewrite E1. replace (b ++ (q ++ n :: m :: x) :: a) with ((b ++ [q ++ n :: m :: x]) ++ a) by (rewrite <- app_assoc; reflexivity). apply kids_mono. }
  pose proof (same_alloc (map_next pol) (proj2 GR) _ _ L) as SA. split.
  - intros (b0 & P0 & H0) before after r k k' E F B1 B2 M. rewrite P in P0. injection P0 as <-. rewrite HA in H0. destruct (Nat.eqb_spec (al_gen (MemoryFacts.after (map_next pol) (length (kids q (b ++ [q ++ n :: m :: x]))))) (al_gen (MemoryFacts.after (map_next pol) (length (kids q ps))))) as [Y|Y]; [|discriminate].
    apply SA in Y. apply Y. apply below_kids in B1, B2. subst k k'.
    assert (EB : b ++ [q ++ n :: m :: x] = before ++ [q ++ n :: m :: r]).
    { assert (EA : forall y, (q ++ [n; m]) ++ y = q ++ n :: m :: y) by (intros y; rewrite <- app_assoc; reflexivity).
      pose proof (upto_first (q ++ [n; m]) b x a) as U1. pose proof (upto_first (q ++ [n; m]) before r after) as U2. rewrite (EA x) in U1. rewrite (EA r) in U2.
      etransitivity; [symmetry; apply U1; intros y; rewrite EA; apply E2|]. etransitivity; [|apply U2; intros y; rewrite EA; apply F]. f_equal. etransitivity; [symmetry; exact E1|exact E]. }
    rewrite EB. exact M.
  - intros H. eexists. split; [exact P|]. rewrite HA. rewrite (proj2 SA); [rewrite Nat.eqb_refl; reflexivity|]. eapply H; [exact E1|exact E2|apply below_kids; reflexivity|apply below_kids; reflexivity].
Qed.
Lemma chain_stays t ps p c : ktree pol ps [] t -> get_hacct t p = Some c -> (chain t p <-> line_stays pol ps p).
Proof.
  intros T G. split.
  - intros H before w after q n m r r' k k' E -> EP F B1 B2. assert (EA : p = ((q ++ [n]) ++ [m]) ++ r) by (rewrite EP, <- !app_assoc; reflexivity).
    destruct (ktree_get pol ps (q ++ [n; m]) [] t r' T) as (d & Gd); [cbn [app]; rewrite <- app_assoc, E; apply in_app_iff; right; left; reflexivity|].
    replace (q ++ [n; m]) with ((q ++ [n]) ++ [m]) in Gd by (rewrite <- app_assoc; reflexivity).
    eapply (proj1 (parent_stays t ps q n m d T Gd)); [|exact E|exact F|exact B1|exact B2]. eapply H; [exact EA|exact Gd].
  - intros S q m r d E Gd. destruct (path_snoc q) as [->|(q0 & n & ->)].
    + destruct (tree_parent pol t ps T [] m d Gd) as (P & _). exists AMaster. split; [exact P|reflexivity].
    + apply (parent_stays t ps q0 n m d T Gd). intros before after r' k k' E1 E2 B1 B2. eapply (S before _ after q0 n m r r'); try eassumption; [reflexivity|]. rewrite E, <- !app_assoc. reflexivity.
Qed.

(** ** Histories *)
Record ninv (rs : list request) (t : nacct) : Prop := {
  n_tree : ktree pol (registered rs) [] (erase t);
  n_rooted : rooted (erase t);
  n_wf : wf_tree (v_account (erase t));
  n_good : tgood pol (fun _ => True) [] is_master (erase t);
  n_asked : forall p, In (AskName p) rs -> kept_at t p = shown_name p;
  n_unasked : forall p, ~ In (AskName p) rs -> kept_at t p = [] }.
Lemma inv_start : ninv [] nacct_new.
Proof.
  split.
  - constructor; [reflexivity|reflexivity|intros c []|intros c []].
  - split; [reflexivity|]. split; [reflexivity|]. intros p n c G. destruct p; discriminate G.
  - destruct (reachable_trees [] (Forall_nil _)) as (m & E & W). injection E as <-. exact W.
  - constructor; [reflexivity|constructor|intros c []|intros c []].
  - intros p [].
  - intros p _. destruct p; reflexivity.
Qed.
Lemma registered_snoc rs r : registered (rs ++ [r]) = registered rs ++ registered [r].
Proof. induction rs as [|[n|p] rs IH]; cbn [app registered]; [reflexivity|f_equal; exact IH|exact IH]. Qed.
Lemma inv_register rs t name t' : ninv rs t -> n_register pol t name = Ok t' -> ninv (rs ++ [Register name]) t'.
Proof.
  intros [T R W Gd A U] E. destruct (e_register _ _ _ _ E) as (a & EH). assert (NE : name <> []) by (intros ->; discriminate).
  pose proof (register_agree pol (erase t) name R) as AG. rewrite EH in AG. cbn [agree fst snd] in AG. destruct AG as (EA & R').
  destruct (register_then_find _ name W NE) as (m' & p & EF & W' & _ & EP & _). rewrite EF in EA. injection EA as -> EA2.
  pose proof (register_fine pol (fun _ => True) (erase t) name Gd NE) as F. rewrite EH in F. destruct F as (Gd' & _). cbn [fst] in Gd'.
  split; [|exact R'|exact W'|exact Gd'| |].
  - rewrite registered_snoc. cbn [registered]. rewrite <- EP, EA2. eapply register_ktree; eassumption.
  - intros q I0. rewrite (register_kept _ _ _ _ q E). apply A. apply in_app_iff in I0 as [I0|[I0|[]]]; [exact I0|discriminate].
  - intros q I0. rewrite (register_kept _ _ _ _ q E). apply U. intros X. apply I0, in_app_iff. left. exact X.
Qed.
Lemma can_register rs t name : ninv rs t -> name <> [] -> exists t', n_register pol t name = Ok t'.
Proof.
  intros [T R W Gd A U] NE. pose proof (register_agree pol (erase t) name R) as AG. pose proof (register_fine pol (fun _ => True) (erase t) name Gd NE) as F.
  destruct (register_then_find _ name W NE) as (m' & p & EF & _). rewrite EF in AG.
  destruct (h_register pol (erase t) name) as [[t' a]|e|] eqn:E; cbn [agree] in AG; [|destruct e; try discriminate|discriminate].
  - eapply e_register_back, E.
  - destruct F.
Qed.
(** What is answered. *)
Lemma fullname_cases rs t p a : ninv rs t -> get_nacct t p = Some a ->
  (n_fullname t p = Panic PNull /\ ~ line_stays pol (registered rs) p /\ ~ (In (AskName p) rs /\ shown_name p <> []))
  \/ exists t', n_fullname t p = Ok (t', shown_name p) /\ (line_stays pol (registered rs) p \/ In (AskName p) rs /\ shown_name p <> [])
       /\ ninv (rs ++ [AskName p]) t' /\ (shown_name p <> [] -> In (AskName p) rs -> t' = t).
Proof.
  intros I G. pose proof I as [T R W Gd A U]. assert (GE : get_hacct (erase t) p = Some (erase a)) by (rewrite e_get, G; reflexivity).
  pose proof (chain_stays _ _ _ _ T GE) as CS. pose proof (up_chain _ R p (length p) (erase a) (na_name a) GE (le_n _)) as UC.
  pose proof (fullname_agree _ _ _ R GE) as FA. apply agree_or in FA. rewrite shown_fullname in FA. unfold h_fullname in FA. rewrite e_parent, e_name in *.
  assert (KA : kept_at t p = na_kept a) by (unfold kept_at; rewrite G; reflexivity).
  assert (IS : registered (rs ++ [AskName p]) = registered rs) by (rewrite registered_snoc; apply app_nil_r).
  assert (SAME : kept_at t p = shown_name p -> ninv (rs ++ [AskName p]) t).
  { intros K. split; try assumption; [rewrite IS; exact T| |].
    - intros q X. apply in_app_iff in X as [X|[X|[]]]; [apply A, X|]. injection X as <-. exact K.
    - intros q X. apply U. intros Y. apply X, in_app_iff. left. exact Y. }
  unfold n_fullname. rewrite G. destruct (na_parent a) as [b|] eqn:PA.
  - destruct (na_kept a) as [|k0 k] eqn:KE.
    + rewrite e_up in FA, UC. destruct FA as [FA|FA].
      * left. rewrite FA. split; [reflexivity|]. split.
        { intros S. apply CS, UC in S as (s & S). congruence. }
        { intros (X & Y). apply A in X. congruence. }
      * right. rewrite FA. cbn [bind]. eexists. split; [reflexivity|]. split; [left; apply CS, UC; eauto|]. destruct (keep_kept p t (shown_name p) a G) as (_ & K1 & K2).
        split; [|intros NE X; apply A in X; congruence]. split; rewrite ?e_keep, ?IS; try assumption.
        { intros q X. destruct (list_eq_dec str_eq_dec q p) as [->|N]; [exact K1|]. rewrite (K2 q N). apply A. apply in_app_iff in X as [X|[X|[]]]; [exact X|congruence]. }
        { intros q X. assert (N : q <> p) by (intros ->; apply X, in_app_iff; right; left; reflexivity). rewrite (K2 q N). apply U. intros Y. apply X, in_app_iff. left. exact Y. }
    + right. exists t. destruct (in_dec (fun x y : path => list_eq_dec str_eq_dec x y) p (flat_map (fun r => match r with AskName q => [q] | _ => [] end) rs)) as [X|X].
      * apply in_flat_map in X as ([n|q] & X & Y); [destruct Y|]. destruct Y as [->|[]]. pose proof (A _ X) as K. assert (E : k0 :: k = shown_name p) by congruence. rewrite <- E.
        split; [reflexivity|]. split; [right; split; [exact X|discriminate]|]. split; [apply SAME; exact K|reflexivity].
      * assert (Y : ~ In (AskName p) rs) by (intros Y; apply X, in_flat_map; exists (AskName p); split; [exact Y|left; reflexivity]). apply U in Y. congruence.
  - assert (p = []) as ->. { destruct (path_snoc p) as [->|(q & n & ->)]; [reflexivity|]. destruct R as (_ & _ & R3). destruct (R3 _ _ _ GE) as (b & X & _). rewrite e_parent in X. congruence. }
    right. exists t. change (shown_name []) with (@nil N). split; [reflexivity|]. split; [left; apply CS, UC; exists (na_name a); reflexivity|]. split; [|congruence]. apply SAME.
    destruct (in_dec (fun x y : path => list_eq_dec str_eq_dec x y) [] (flat_map (fun r => match r with AskName q => [q] | _ => [] end) rs)) as [X|X].
    + apply in_flat_map in X as ([n|q] & X & Y); [destruct Y|]. destruct Y as [->|[]]. apply A, X.
    + apply U. intros Y; apply X, in_flat_map; exists (AskName []); split; [exact Y|left; reflexivity].
Qed.
Lemma history rs : forall rs0 t t' l, ninv rs0 t -> answers pol t rs = Ok (t', l) -> ninv (rs0 ++ rs) t' /\ forall p s, In (p, s) l -> s = shown_name p.
Proof.
  induction rs as [|[name|p] rs IH]; intros rs0 t t' l I E; cbn [answers] in E.
  - injection E as <- <-. rewrite app_nil_r. split; [exact I|intros p s []].
  - inv_bind E. pose proof (inv_register _ _ _ _ I EQ) as I'. destruct (IH _ _ _ _ I' E) as (X & Y). rewrite <- app_assoc in X. split; [exact X|exact Y].
  - inv_bind E. destruct v as [t1 s]. inv_bind E. destruct v as [t2 l2]. injection E as <- <-.
    destruct (get_nacct t p) as [a|] eqn:G; [|unfold n_fullname in EQ; rewrite G in EQ; discriminate].
    destruct (fullname_cases _ _ _ _ I G) as [(X & _)|(t1' & X & _ & I' & _)]; [congruence|]. rewrite EQ in X. injection X as <- ->.
    destruct (IH _ _ _ _ I' EQ0) as (X & Y). rewrite <- app_assoc in X. split; [exact X|]. intros q s0 [Z|Z]; [injection Z as <- <-; reflexivity|apply Y, Z].
Qed.
Lemma history_inv rs t l : answers pol nacct_new rs = Ok (t, l) -> ninv rs t.
Proof. intros E. exact (proj1 (history rs [] _ _ _ inv_start E)). Qed.
Lemma present_get rs t p : ninv rs t -> p <> [] -> (present (registered rs) p <-> exists a, get_nacct t p = Some a).
Proof.
  intros [T _ _ _ _ _] NE. split.
  - intros (r & X). destruct (ktree_get pol _ p [] _ r T X) as (c & Gc). rewrite e_get in Gc. destruct (get_nacct t p) as [a|]; [eauto|discriminate].
  - intros (a & G). destruct (path_snoc p) as [->|(q & n & ->)]; [contradiction|]. destruct (tree_parent pol _ _ T q n (erase a)) as (_ & X & _); [rewrite e_get, G; reflexivity|exact X].
Qed.

Lemma answers_right rs t l p s : answers pol nacct_new rs = Ok (t, l) -> In (p, s) l -> s = shown_name p.
Proof. intros E. exact (proj2 (history rs [] _ _ _ inv_start E) p s). Qed.
Lemma ask_defined rs t l p : answers pol nacct_new rs = Ok (t, l) -> present (registered rs) p ->
  (line_stays pol (registered rs) p \/ In (AskName p) rs /\ shown_name p <> [] -> exists t', n_fullname t p = Ok (t', shown_name p))
  /\ (~ (line_stays pol (registered rs) p \/ In (AskName p) rs /\ shown_name p <> []) -> n_fullname t p = Panic PNull).
Proof.
  intros E X. pose proof (history_inv _ _ _ E) as I. assert (G : exists a, get_nacct t p = Some a) by (destruct p as [|n p]; [cbn; eauto|apply (present_get _ _ _ I); [discriminate|exact X]]).
  destruct G as (a & G). destruct (fullname_cases _ _ _ _ I G) as [(H & N1 & N2)|(t' & H & D & _)].
  - split; [intros [?|?]; contradiction|auto].
  - split; [eauto|contradiction].
Qed.
Lemma ask_again rs t l p : answers pol nacct_new rs = Ok (t, l) -> In (AskName p) rs -> shown_name p <> [] -> n_fullname t p = Ok (t, shown_name p).
Proof.
  intros E X NE. pose proof (history_inv _ _ _ E) as I. assert (K : kept_at t p = shown_name p) by (apply (n_asked _ _ I), X).
  unfold kept_at in K. destruct (get_nacct t p) as [a|] eqn:G; [|congruence]. destruct (fullname_cases _ _ _ _ I G) as [(_ & _ & N2)|(t' & H & _ & _ & S)]; [destruct N2; auto|]. rewrite H, (S NE X). reflexivity.
Qed.
Lemma register_more rs t l name : answers pol nacct_new rs = Ok (t, l) -> name <> [] -> exists t', n_register pol t name = Ok t'.
Proof. intros E. exact (can_register _ _ name (history_inv _ _ _ E)). Qed.
Lemma few_lines ps p : (forall q k, accounts_below q ps k -> k <= map_next pol 0) -> line_stays pol ps p.
Proof.
  intros F before w after q n m r r' k k' E EW EP N B1 B2 (c & (i & ->) & L1 & L2). apply F in B2. pose proof (iter_ge (map_next pol) (proj2 GR) i). lia.
Qed.
End Program.
