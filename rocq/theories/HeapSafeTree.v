(** When the program with pointers has defined behaviour: the tree of accounts. *)
From Coq Require Import String List NArith ZArith Bool Lia.
From Verif Require Import Base BaseFacts Decimal Dates Amount Balance Scanner History Pool Account Journal Xact Parser Report Options Lib Memory Heap.
From Verif Require Import SpecHeap SpecMemory MemoryFacts HeapFacts HeapTree HeapRead HeapSafe.
Import ListNotations.
Open Scope nat_scope.

Section Program.
Variable pol : policy.
Notation aft := (after (map_next pol)).

(** The addresses that the account at [base ++ [n]] can have had, with [len] accounts beside it now. *)
Definition had (base : path) (len : nat) (n : str) (a : addr) : Prop := exists k, 1 <= k <= len /\ a = AAcct base (al_gen (aft k)) n.
(** [here]: the addresses that the account itself can have had; [pb]: pointers to postings. *)
Inductive tgood (pb : addr -> Prop) (base : path) (here : addr -> Prop) : hacct -> Prop :=
| tg n par al cs ps : al = aft (length cs) -> Forall pb ps ->
    (forall c, In c cs -> exists a, hc_parent c = Some a /\ here a) ->
    (forall c, In c cs -> tgood pb (base ++ [hc_name c]) (had base (length cs) (hc_name c)) c) ->
    tgood pb base here (HAcct n par al cs ps).
Lemma tgood_mono pb base here t : tgood pb base here t -> forall (pb' here' : addr -> Prop), (forall a, pb a -> pb' a) -> (forall a, here a -> here' a) -> tgood pb' base here' t.
Proof.
  induction 1 as [base here n par al cs ps A P H C IH]. intros pb' here' M N. constructor; [exact A| | |].
  - eapply Forall_impl; [exact M|exact P].
  - intros c I0. destruct (H c I0) as (a & E & X). eauto.
  - intros c I0. apply (IH c I0); auto.
Qed.
Lemma had_mono base n m s a : n <= m -> had base n s a -> had base m s a.
Proof. intros L (k & K & E). exists k. split; [lia|exact E]. Qed.
Lemma hset_length n c cs : length (set_hchild n c cs) = length cs.
Proof. induction cs as [|d cs IH]; cbn; [reflexivity|]. destruct (str_eqb _ _); cbn; congruence. Qed.
Lemma hset_in n c cs d : In d (set_hchild n c cs) -> d = c \/ In d cs.
Proof. induction cs as [|x cs IH]; cbn; [auto|]. destruct (str_eqb _ _); cbn; intros [->|H]; auto. destruct (IH H); auto. Qed.
Lemma hfind_in' n cs c : find_hchild n cs = Some c -> In c cs.
Proof. unfold find_hchild. intros H. apply find_some in H. apply H. Qed.

(** A pointer into the tree below [base] that can be followed. *)
Definition points (base : path) (t : hacct) (a : addr) : Prop :=
  exists q s n, a = AAcct (base ++ q) (al_gen (hc_alloc s)) n /\ get_hacct t q = Some s /\ find_hchild n (hc_children s) <> None.
Lemma points_child base t n c a : find_hchild n (hc_children t) = Some c -> points (base ++ [n]) c a -> points base t a.
Proof.
  intros F (q & s & k & -> & G & X). exists (n :: q), s, k. rewrite <- app_assoc. split; [reflexivity|]. split; [|exact X]. cbn. rewrite F. exact G.
Qed.
Lemma foc_tree fuel : forall self at_ here base name pb t' a, tgood pb base here self -> here at_ ->
  h_find_or_create pol fuel self at_ base name = Ok (t', a) ->
  tgood pb base here t' /\ points base t' a /\ hc_name t' = hc_name self /\ hc_parent t' = hc_parent self.
Proof.
  induction fuel as [|f IH]; intros self at_ here base name pb t' a T AT; cbn [h_find_or_create]; [discriminate|].
  destruct self as [n par al cs ps]. inversion T as [? ? ? ? ? A P H C]; subst. destruct (find_hchild name cs) as [d|] eqn:E.
  { intros X. injection X as <- <-. split; [exact T|]. split; [|auto]. exists [], (HAcct n par (aft (length cs)) cs ps), name. rewrite app_nil_r. cbn [hc_alloc get_hacct hc_children]. repeat split; congruence. }
  destruct (split_first name) as [first rest]. destruct (find_hchild first cs) as [child|] eqn:F.
  - assert (L1 : 1 <= length cs) by (apply hfind_in' in F; destruct cs; [destruct F|cbn; lia]). pose proof (hfind_name _ _ _ F) as FN. pose proof (hfind_in' _ _ _ F) as FI.
    destruct rest as [|c rest].
    { intros X. injection X as <- <-. split; [exact T|]. split; [|auto]. exists [], (HAcct n par (aft (length cs)) cs ps), first. rewrite app_nil_r. cbn [hc_alloc get_hacct hc_children]. repeat split; congruence. }
    intros X. inv_bind X. destruct v as [child' r]. injection X as <- <-. specialize (C child FI) as CC. rewrite FN in CC.
    edestruct IH as (T1 & P1 & N1 & Q1); [exact CC| |exact EQ|]. { exists (length cs). split; [lia|reflexivity]. }
    assert (FN' : hc_name child' = first) by congruence.
    split; [|split; [|split; reflexivity]].
    + constructor; [rewrite hset_length; reflexivity|exact P| |]; intros d D; (apply hset_in in D as [->|D]).
      * rewrite Q1. apply H, FI.
      * apply H, D.
      * rewrite hset_length, FN'. exact T1.
      * rewrite hset_length. apply C, D.
    + eapply points_child; [|exact P1]. cbn [hc_children]. rewrite hset_find by congruence. rewrite str_eqb_refl. reflexivity.
  - set (child := HAcct first (Some at_) no_alloc [] []).
    assert (AL : room (map_next pol) (aft (length cs)) (length cs) = aft (length (cs ++ [child]))) by (rewrite app_length; cbn; rewrite Nat.add_1_r; reflexivity).
    assert (K : forall child', hc_name child' = first -> hc_parent child' = Some at_ -> tgood pb (base ++ [first]) (had base (length (cs ++ [child])) first) child' ->
      tgood pb base here (HAcct n par (room (map_next pol) (aft (length cs)) (length cs)) (cs ++ [child']) ps)).
    { intros child' CN CP CT. constructor; [rewrite AL, !app_length; reflexivity|exact P| |]; intros d D; (apply in_app_iff in D as [D|[<-|[]]]).
      - apply H, D.
      - eauto.
      - eapply tgood_mono; [apply C, D|auto|]. intros x. apply had_mono. rewrite app_length. lia.
      - rewrite CN. replace (length (cs ++ [child'])) with (length (cs ++ [child])) by (rewrite !app_length; reflexivity). exact CT. }
    assert (NEW : forall h, tgood pb (base ++ [first]) h child) by (intros h; constructor; [reflexivity|constructor|intros ? []|intros ? []]).
    destruct rest as [|c rest].
    + intros X. injection X as <- <-. split; [apply K; auto|]. split; [|auto].
      exists [], (HAcct n par (room (map_next pol) (aft (length cs)) (length cs)) (cs ++ [child]) ps), first. rewrite app_nil_r. cbn [hc_alloc get_hacct hc_children]. split; [reflexivity|]. split; [reflexivity|].
      rewrite hfind_snoc, F. cbn [child hc_name]. rewrite str_eqb_refl. discriminate.
    + intros X. inv_bind X. destruct v as [child' r]. injection X as <- <-.
      edestruct (IH child) with (here := had base (length (cs ++ [child])) first) as (T1 & P1 & N1 & Q1); [apply NEW| |exact EQ|].
      { exists (length (cs ++ [child])). split; [rewrite app_length; cbn; lia|]. rewrite AL. reflexivity. }
      split; [apply K; auto|]. split; [|auto]. eapply points_child; [|exact P1]. cbn [hc_children]. rewrite hfind_snoc, F, N1. cbn [child hc_name]. rewrite str_eqb_refl. reflexivity.
Qed.
Lemma points_account t a : points [] t a -> exists p c, h_account t a = Ok p /\ get_hacct t p = Some c.
Proof.
  intros (q & s & n & -> & G & X). destruct (find_hchild n (hc_children s)) as [c|] eqn:F; [|contradiction]. exists (q ++ [n]), c. cbn [app h_account]. rewrite G, Nat.eqb_refl, F. split; [reflexivity|].
  clear X. revert t G. induction q as [|k q IH]; intros t; cbn [get_hacct app]; [intros E; injection E as ->; cbn [get_hacct]; rewrite F; reflexivity|].
  destruct (find_hchild k (hc_children t)) as [d|]; [apply IH|discriminate].
Qed.
(** The master account. *)
Definition is_master (a : addr) : Prop := a = AMaster.
Lemma register_fine pb t name : tgood pb [] is_master t -> name <> [] ->
  fine (fun r => tgood pb [] is_master (fst r) /\ exists p c, h_account (fst r) (snd r) = Ok p /\ get_hacct (fst r) p = Some c) (h_register pol t name).
Proof.
  intros T N. unfold h_register. destruct name as [|c name]; [exact I|]. set (k := c :: name).
  pose proof (hfoc pol (S (length k)) t AMaster [] k) as H. destruct (h_find_or_create pol (S (length k)) t AMaster [] k) as [[t' a]|q|] eqn:E; cbn [bind fine]; [|contradiction|exact I].
  destruct (foc_tree _ _ _ is_master _ _ _ _ _ T eq_refl E) as (T' & P & _ & _). destruct (points_account _ _ P) as (p & d & EA & G). rewrite EA. cbn [bind fine fst snd]. eauto.
Qed.
Lemma push_fine pb p : forall base here t r c, tgood pb base here t -> pb r -> get_hacct t p = Some c ->
  fine (fun t' => tgood pb base here t' /\ hc_name t' = hc_name t /\ hc_parent t' = hc_parent t) (h_push t p r).
Proof.
  induction p as [|k p IH]; intros base here [n par al cs ps] r c T R G; cbn [h_push]; inversion T as [? ? ? ? ? A P H C]; subst.
  - cbn. split; [|auto]. constructor; [reflexivity| |exact H|exact C]. apply Forall_app. auto.
  - cbn [get_hacct hc_children] in G. destruct (find_hchild k cs) as [d|] eqn:F; [|discriminate]. pose proof (hfind_name _ _ _ F) as FN. pose proof (hfind_in' _ _ _ F) as FI.
    eapply fine_bind; [eapply IH; [apply C, FI|exact R|exact G]|]. intros d' _ (T1 & N1 & Q1). cbn. split; [|auto].
    constructor; [rewrite hset_length; reflexivity|exact P| |]; intros e D; (apply hset_in in D as [->|D]).
    + rewrite Q1. apply H, FI.
    + apply H, D.
    + rewrite hset_length, N1. exact T1.
    + rewrite hset_length. apply C, D.
Qed.
End Program.
