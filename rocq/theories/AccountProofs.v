(** Proofs of C14-C16. *)
From Coq Require Import String List NArith ZArith Bool Lia.
From Verif Require Import Base BaseFacts Account SpecAccount AccountFacts.
Import ListNotations.
Open Scope nat_scope.

Lemma reachable_trees names :
  Forall (fun n => n <> []) names ->
  exists m, register_all (Acct [] [] []) names = Ok m /\ wf_tree m.
Proof.
  assert (G : forall m, wf_tree m -> Forall (fun n => n <> []) names ->
            exists m', register_all m names = Ok m' /\ wf_tree m').
  { induction names as [|n names IH]; intros m W H; cbn [register_all]; [eauto|].
    inversion H as [|? ? Hn Hr]; subst. destruct (register_spec m n W Hn) as (m' & E & W' & _).
    rewrite E. cbn [bind]. apply IH; assumption. }
  apply G, wf_leaf.
Qed.
Lemma register_ok m name m' p :
  wf_tree m -> register_account m name = Ok (m', p) ->
  name <> [] /\ p = components name /\ wf_tree m' /\ ac_name m' = ac_name m
  /\ (forall q, posts_at m' q
                = match posts_at m q with
                  | Some l => Some l
                  | None => if prefix_of q (components name) then Some [] else None
                  end)
  /\ (exists_at m (components name) -> m' = m).
Proof.
  intros W H. assert (Hn : name <> []) by (intros ->; discriminate).
  destruct (register_spec m name W Hn) as (m1 & E & R). rewrite E in H. injection H as -> <-. auto.
Qed.
Lemma register_exists m name m' p q :
  wf_tree m -> register_account m name = Ok (m', p) ->
  exists_at m' q <-> exists_at m q \/ prefix_of q p = true.
Proof.
  intros W H. destruct (register_ok _ _ _ _ W H) as (_ & -> & _ & _ & P & _).
  rewrite !posts_at_exists, P. destruct (posts_at m q) as [l|]; [split; intros; [left|]; discriminate|].
  destruct (prefix_of q (components name)); split; intros; try discriminate; try tauto.
  destruct H0; congruence.
Qed.
Lemma register_then_find m name :
  wf_tree m -> name <> [] ->
  exists m' p, register_account m name = Ok (m', p) /\ wf_tree m'
    /\ find_account m' name = Ok (Some p) /\ p = components name /\ exists_at m' p
    /\ register_account m' name = Ok (m', p).
Proof.
  intros W Hn. destruct (register_spec m name W Hn) as (m' & E & W' & _ & P & _).
  exists m', (components name). split; [exact E|]. split; [exact W'|].
  assert (X : exists_at m' (components name)).
  { apply (register_exists _ _ _ _ _ W E). right. apply prefix_of_refl. }
  split.
  { rewrite find_account_spec by exact W'. destruct X as [a ->]. reflexivity. }
  split; [reflexivity|]. split; [exact X|].
  destruct (register_spec m' name W' Hn) as (m'' & E' & _ & _ & _ & I). rewrite E'.
  rewrite (I X). reflexivity.
Qed.
Lemma full_name m name m' p :
  wf_tree m -> register_account m name = Ok (m', p) ->
  (forall k, k <= length p -> exists_at m' (firstn k p))
  /\ (forall k a c, get_account m' (firstn k p ++ [c]) = Some a -> ac_name a = c)
  /\ (Forall (fun w => w <> []) (split_on colon name) -> fullname p = name).
Proof.
  intros W H. split; [|split].
  - intros k _. apply (register_exists _ _ _ _ _ W H). right. apply prefix_of_iff.
    exists (skipn k p). symmetry. apply firstn_skipn.
  - intros k a c. apply get_account_name.
  - intros Hs. destruct (register_ok _ _ _ _ W H) as (_ & -> & _). apply fullname_components, Hs.
Qed.
Lemma names_identify n1 n2 :
  Forall (fun w => w <> []) (split_on colon n1) -> Forall (fun w => w <> []) (split_on colon n2) ->
  components n1 = components n2 -> n1 = n2.
Proof.
  intros H1 H2 E. rewrite <- (fullname_components n1 H1), <- (fullname_components n2 H2), E. reflexivity.
Qed.
Lemma register_frame m name m' p :
  wf_tree m -> register_account m name = Ok (m', p) ->
  ac_name m' = ac_name m
  /\ (forall q, exists_at m q -> posts_at m' q = posts_at m q)
  /\ (forall q, ~ exists_at m q -> exists_at m' q <-> exists r, p = q ++ r)
  /\ (forall q, ~ exists_at m q -> exists_at m' q -> posts_at m' q = Some []).
Proof.
  intros W H. destruct (register_ok _ _ _ _ W H) as (_ & Ep & _ & N & P & _). split; [exact N|]. split; [|split].
  - intros q Hq. apply posts_at_exists in Hq. rewrite P. destruct (posts_at m q); congruence.
  - intros q Hq. rewrite (register_exists _ _ _ _ _ W H), <- prefix_of_iff. tauto.
  - intros q Hq Hq'. rewrite posts_at_exists in Hq, Hq'. rewrite P in *.
    destruct (posts_at m q); [exfalso; apply Hq; discriminate|].
    destruct (prefix_of q (components name)); congruence.
Qed.
Lemma lookup_partial m name :
  wf_tree m ->
  (exists_at m (components name) -> find_account m name = Ok (Some (components name)))
  /\ (~ exists_at m (components name) ->
      ~ exists_at m (firstn 1 (components name)) -> find_account m name = Ok None)
  /\ (~ exists_at m (components name) ->
      exists_at m (firstn 1 (components name)) -> find_account m name = Panic PUnwrap).
Proof.
  intros W. rewrite find_account_spec by exact W. unfold exists_at.
  replace (firstn 1 (components name)) with [hd [] (components name)].
  2: { pose proof (components_nonempty name). destruct (components name); [congruence|reflexivity]. }
  destruct (get_account m (components name)) as [a|]; destruct (get_account m [hd [] (components name)]) as [b|].
  all: split; [intros [? H] || intros _; try reflexivity; try discriminate|split; intros H1 H2; try reflexivity].
  all: try (exfalso; apply H1; eexists; reflexivity).
  all: try (exfalso; apply H2; eexists; reflexivity).
  all: destruct H2; discriminate.
Qed.
Lemma lookup_refuted :
  exists m name, register_all (Acct [] [] []) [lit "Assets:Cash"] = Ok m
    /\ ~ exists_at m (components name) /\ find_account m name = Panic PUnwrap.
Proof.
  eexists. exists (lit "Assets:Bank"). split; [vm_compute; reflexivity|]. split.
  - intros [a H]. vm_compute in H. discriminate.
  - vm_compute. reflexivity.
Qed.
