(** Accounts: the tree with pointers and the tree with names. *)
From Coq Require Import String List NArith ZArith Bool Lia.
From Verif Require Import Base BaseFacts Decimal Dates Amount Balance Scanner History Pool Account Journal Xact Parser Report Options Lib Memory Heap.
From Verif Require Import SpecHeap AccountFacts MemoryFacts ReportFacts HeapFacts.
Import ListNotations.
Open Scope nat_scope.

Section Ind.
  Variable P : hacct -> Prop.
  Hypothesis H : forall n par al cs ps, Forall P cs -> P (HAcct n par al cs ps).
  Fixpoint hacct_ind' (a : hacct) : P a :=
    let 'HAcct n par al cs ps := a in
    H n par al cs ps ((fix go l : Forall P l := match l with [] => Forall_nil _ | c :: l' => Forall_cons c (hacct_ind' c) (go l') end) cs).
End Ind.

Lemma v_name a : ac_name (v_account a) = hc_name a.
Proof. destruct a; reflexivity. Qed.
Lemma v_children a : ac_children (v_account a) = map v_account (hc_children a).
Proof. destruct a; reflexivity. Qed.
Lemma v_posts a : ac_posts (v_account a) = map ref_of (hc_posts a).
Proof. destruct a; reflexivity. Qed.
Lemma v_find n cs : find_child n (map v_account cs) = option_map v_account (find_hchild n cs).
Proof. unfold find_child, find_hchild. induction cs as [|c cs IH]; cbn [map find]; [reflexivity|]. rewrite v_name. destruct (str_eqb _ _); [reflexivity|exact IH]. Qed.
Lemma v_set n c cs : set_child n (v_account c) (map v_account cs) = map v_account (set_hchild n c cs).
Proof. induction cs as [|d cs IH]; cbn [map set_child set_hchild]; [reflexivity|]. rewrite v_name. destruct (str_eqb _ _); cbn [map]; [reflexivity|]. f_equal. exact IH. Qed.
Lemma v_get p : forall t, get_account (v_account t) p = option_map v_account (get_hacct t p).
Proof.
  induction p as [|n p IH]; intros t; cbn [get_account get_hacct]; [reflexivity|]. rewrite v_children, v_find.
  destruct (find_hchild n (hc_children t)) as [c|]; cbn [option_map]; [apply IH|reflexivity].
Qed.
Lemma hfind_name n cs c : find_hchild n cs = Some c -> hc_name c = n.
Proof. unfold find_hchild. intros H. apply find_some in H as [_ H]. apply str_eqb_eq, H. Qed.
Lemma hset_find n c cs k : hc_name c = n -> find_hchild n cs <> None ->
  find_hchild k (set_hchild n c cs) = if str_eqb n k then Some c else find_hchild k cs.
Proof.
  intros E. unfold find_hchild. induction cs as [|d cs IH]; cbn [find set_hchild]; intros N; [contradiction|].
  destruct (str_eqb (hc_name d) n) eqn:D; cbn [find].
  - rewrite E. apply str_eqb_eq in D. rewrite D. destruct (str_eqb n k); reflexivity.
  - destruct (str_eqb (hc_name d) k) eqn:F.
    + apply str_eqb_eq in F. subst k. destruct (str_eqb n (hc_name d)) eqn:G; [|reflexivity]. apply str_eqb_eq in G. rewrite G, str_eqb_refl in D. discriminate.
    + apply IH, N.
Qed.
Lemma hfind_snoc n cs c : find_hchild n (cs ++ [c]) = match find_hchild n cs with Some d => Some d | None => if str_eqb (hc_name c) n then Some c else None end.
Proof. unfold find_hchild. induction cs as [|d cs IH]; cbn [app find]; [reflexivity|]. destruct (str_eqb (hc_name d) n); [reflexivity|exact IH]. Qed.

(** The path of the account at an address. *)
Definition acct_path (a : addr) : option path := match a with AMaster => Some [] | AAcct p _ n => Some (p ++ [n]) | _ => None end.
Lemma acct_path_of a p : acct_path a = Some p -> path_of a = p.
Proof. destruct a; cbn; intros E; inversion E; reflexivity. Qed.
(** Every account below points to the one above. *)
Definition parents (base : path) (t : hacct) : Prop :=
  forall p n c, get_hacct t (p ++ [n]) = Some c -> exists a, hc_parent c = Some a /\ acct_path a = Some (base ++ p).
Lemma parents_child base t n c : parents base t -> find_hchild n (hc_children t) = Some c -> parents (base ++ [n]) c.
Proof. intros H F p k d G. rewrite <- app_assoc. apply (H (n :: p) k d). cbn. rewrite F. exact G. Qed.
Lemma parents_build base t :
  (forall n c, find_hchild n (hc_children t) = Some c -> (exists a, hc_parent c = Some a /\ acct_path a = Some base) /\ parents (base ++ [n]) c) -> parents base t.
Proof.
  intros H p n c G. destruct p as [|k p]; cbn [app get_hacct] in G.
  - destruct (find_hchild n (hc_children t)) as [d|] eqn:F; [|discriminate]. injection G as <-. rewrite app_nil_r. apply (H n), F.
  - destruct (find_hchild k (hc_children t)) as [d|] eqn:F; [|discriminate]. apply (H k) in F as [_ F]. apply F in G. rewrite <- app_assoc in G. exact G.
Qed.
Lemma parents_here base t n c : parents base t -> find_hchild n (hc_children t) = Some c -> exists a, hc_parent c = Some a /\ acct_path a = Some base.
Proof. intros H F. destruct (H [] n c) as (a & E & E2); [cbn; rewrite F; reflexivity|]. rewrite app_nil_r in E2. eauto. Qed.

Section Program.
Variable pol : policy.

Lemma hfoc fuel : forall self here base name,
  match h_find_or_create pol fuel self here base name with
  | Ok (t', a) => (exists p, find_or_create fuel (v_account self) name true = Ok (Some (v_account t', p)) /\ acct_path a = Some (base ++ p))
      /\ hc_name t' = hc_name self /\ hc_parent t' = hc_parent self /\ (acct_path here = Some base -> parents base self -> parents base t')
  | Diverge => find_or_create fuel (v_account self) name true = Diverge
  | Panic _ => False
  end.
Proof.
  induction fuel as [|f IH]; intros self here base name; cbn [h_find_or_create find_or_create]; [reflexivity|].
  destruct self as [n par al cs ps]. cbn [v_account]. rewrite !v_find. destruct (find_hchild name cs) as [d|] eqn:E; cbn [option_map].
  { split; [exists [name]; split; reflexivity|]. auto. }
  destruct (split_first name) as [first rest] eqn:SF. rewrite v_find. destruct (find_hchild first cs) as [child|] eqn:F; cbn [option_map].
  - destruct rest as [|c rest].
    { split; [exists [first]; split; reflexivity|]. auto. }
    specialize (IH child (AAcct base (al_gen al) first) (base ++ [first]) (c :: rest)).
    destruct (h_find_or_create pol f child (AAcct base (al_gen al) first) (base ++ [first]) (c :: rest)) as [[child' r]|q|]; cbn [bind]; [|contradiction|rewrite IH; reflexivity].
    destruct IH as ((p & EQ & AP) & N & PA & PP). rewrite EQ. cbn [bind unwrap].
    assert (FN : hc_name child' = first) by (rewrite N; apply hfind_name in F; exact F).
    split; [exists (first :: p); split; [rewrite v_set; reflexivity|rewrite AP, <- app_assoc; reflexivity]|].
    cbn [hc_name hc_parent]. split; [reflexivity|]. split; [reflexivity|]. intros H0 H1. apply parents_build. intros k c' G. cbn [hc_children] in G.
    rewrite hset_find in G by (auto; congruence). destruct (str_eqb first k) eqn:K.
    + injection G as <-. apply str_eqb_eq in K. subst k. rewrite PA. split; [apply (parents_here base _ first child H1); exact F|].
      apply PP; [reflexivity|]. eapply parents_child; [exact H1|]. exact F.
    + split; [apply (parents_here base _ k c' H1 G)|eapply parents_child; [exact H1|exact G]].
  - set (al' := room (map_next pol) al (length cs)). destruct rest as [|c rest].
    + split; [exists [first]; split; [cbn [v_account]; rewrite map_app; reflexivity|reflexivity]|]. cbn [hc_name hc_parent]. split; [reflexivity|]. split; [reflexivity|].
      intros H0 H1. apply parents_build. intros k c' G. cbn [hc_children] in G. rewrite hfind_snoc in G. destruct (find_hchild k cs) as [d|] eqn:K.
      * injection G as <-. split; [apply (parents_here base _ k d H1 K)|eapply parents_child; [exact H1|exact K]].
      * cbn [hc_name] in G. destruct (str_eqb first k); [|discriminate]. injection G as <-. cbn [hc_parent]. split; [eauto|]. intros p m d X. destruct p; discriminate X.
    + specialize (IH (HAcct first (Some here) no_alloc [] []) (AAcct base (al_gen al') first) (base ++ [first]) (c :: rest)).
      destruct (h_find_or_create pol f (HAcct first (Some here) no_alloc [] []) (AAcct base (al_gen al') first) (base ++ [first]) (c :: rest)) as [[child' r]|q|]; cbn [bind]; [|contradiction|cbn [v_account map] in IH; rewrite IH; reflexivity].
      destruct IH as ((p & EQ & AP) & N & PA & PP). cbn [v_account map] in EQ. rewrite EQ. cbn [bind unwrap]. cbn [hc_name hc_parent] in N, PA.
      split; [exists (first :: p); split; [cbn [v_account]; rewrite map_app; reflexivity|rewrite AP, <- app_assoc; reflexivity]|].
      cbn [hc_name hc_parent]. split; [reflexivity|]. split; [reflexivity|]. intros H0 H1. apply parents_build. intros k c' G. cbn [hc_children] in G.
      rewrite hfind_snoc in G. destruct (find_hchild k cs) as [d|] eqn:K.
      * injection G as <-. split; [apply (parents_here base _ k d H1 K)|eapply parents_child; [exact H1|exact K]].
      * rewrite N in G. destruct (str_eqb first k) eqn:FK; [|discriminate]. injection G as <-. apply str_eqb_eq in FK. subst k. rewrite PA. split; [eauto|].
        apply PP; [reflexivity|]. intros q m d X. destruct q; discriminate X.
Qed.
(** The master account. *)
Definition rooted (t : hacct) : Prop := hc_name t = [] /\ hc_parent t = None /\ parents [] t.
Lemma account_cases t a : h_account t a = Panic PNull \/ exists p, h_account t a = Ok p /\ acct_path a = Some p.
Proof.
  destruct a as [|? ?|? ? ?|p g n|? ?]; cbn [h_account acct_path]; try (left; reflexivity); [right; eauto|].
  destruct (get_hacct t p); [|left; reflexivity]. destruct (_ =? _); [|left; reflexivity]. destruct (find_hchild _ _); [right; eauto|left; reflexivity].
Qed.
Lemma register_agree t name : rooted t ->
  agree (fun r => (v_account (fst r), path_of (snd r))) (fun r => rooted (fst r)) (h_register pol t name) (register_account (v_account t) name).
Proof.
  intros (R1 & R2 & R3). unfold h_register, register_account. destruct name as [|c name]; [reflexivity|]. set (k := c :: name) in *.
  pose proof (hfoc (S (length k)) t AMaster [] k) as H. destruct (h_find_or_create pol (S (length k)) t AMaster [] k) as [[t' a]|q|]; cbn [bind agree]; [|contradiction|].
  - destruct H as ((p & E & AP) & N & PA & PP). rewrite E. cbn [bind unwrap]. destruct (account_cases t' a) as [->|(p' & -> & _)]; cbn [bind agree]; [exact I|].
    cbn [fst snd]. apply acct_path_of in AP. rewrite AP. split; [reflexivity|]. split; [congruence|]. split; [congruence|]. apply PP; [reflexivity|exact R3].
  - rewrite H. reflexivity.
Qed.
Lemma push_agree p : forall t r, agree v_account (fun t' => hc_name t' = hc_name t /\ hc_parent t' = hc_parent t /\ forall base, parents base t -> parents base t')
  (h_push t p r) (push_post (v_account t) p (ref_of r)).
Proof.
  induction p as [|k p IH]; intros [n par al cs ps] r; cbn [h_push push_post v_account].
  - apply agree_ok; [cbn [v_account]; rewrite map_app; reflexivity|]. split; [reflexivity|]. split; [reflexivity|]. intros base H. apply parents_build. intros m c F. split; [apply (parents_here base _ m c H F)|eapply parents_child; [exact H|exact F]].
  - rewrite v_find. destruct (find_hchild k cs) as [c|] eqn:F; cbn [option_map]; [|exact I].
    eapply agree_bind; [apply IH|]. intros c' _ (N & PA & PP). pose proof (hfind_name _ _ _ F) as FN. apply agree_ok; [rewrite v_set; reflexivity|].
    split; [reflexivity|]. split; [reflexivity|]. intros base H. apply parents_build. intros m d G. cbn [hc_children] in G. rewrite hset_find in G by congruence.
    destruct (str_eqb k m) eqn:K.
    + injection G as <-. apply str_eqb_eq in K. subst m. rewrite PA. split; [apply (parents_here base _ k c H F)|]. apply PP. eapply parents_child; [exact H|exact F].
    + split; [apply (parents_here base _ m d H G)|eapply parents_child; [exact H|exact G]].
Qed.
End Program.
