(** Facts about the account tree. *)
From Coq Require Import List NArith ZArith Bool Lia Permutation ZifyBool ZifyNat ZifyN.
From Verif Require Import Base BaseFacts Account SpecAccount.
Import ListNotations.
Open Scope nat_scope.

(** ** Induction over trees *)
Section AccountInd.
  Variable P : account -> Prop.
  Hypothesis H : forall n cs ps, Forall P cs -> P (Acct n cs ps).
  Fixpoint account_ind' (a : account) : P a :=
    match a with
    | Acct n cs ps =>
        H n cs ps ((fix go (l : list account) : Forall P l :=
                      match l with
                      | [] => Forall_nil P
                      | c :: l' => Forall_cons c (account_ind' c) (go l')
                      end) cs)
    end.
End AccountInd.

(** ** Names *)
Lemma split_on_nonempty sep s : split_on sep s <> [].
Proof.
  destruct s as [|c s]; cbn [split_on]; [discriminate|].
  destruct (c =? sep)%N; [discriminate|]. destruct (split_on sep s); discriminate.
Qed.
Lemma split_on_none sep s : ~ In sep s -> split_on sep s = [s].
Proof.
  induction s as [|c s IH]; [reflexivity|]. cbn [In split_on]. intros H.
  destruct (N.eqb_spec c sep); [tauto|]. rewrite IH by tauto. reflexivity.
Qed.
Lemma split_on_app sep s1 s2 : ~ In sep s1 -> split_on sep (s1 ++ sep :: s2) = s1 :: split_on sep s2.
Proof.
  induction s1 as [|c s IH]; cbn [app split_on In]; intros H.
  - rewrite N.eqb_refl. reflexivity.
  - destruct (N.eqb_spec c sep); [tauto|]. rewrite IH by tauto. reflexivity.
Qed.
Lemma split_on_no_sep sep s : Forall (fun w => ~ In sep w) (split_on sep s).
Proof.
  induction s as [|c s IH]; cbn [split_on]; [auto|]. destruct (N.eqb_spec c sep) as [->|E]; [auto|].
  destruct (split_on sep s) as [|w ws]; [|inversion IH as [|? ? Hw Hws]; subst].
  - constructor; [|auto]. intros [C|[]]; auto.
  - constructor; [|exact Hws]. intros [C|C]; auto.
Qed.
Lemma components_plain name : ~ In colon name -> components name = [name].
Proof. intros H. unfold components. rewrite split_on_none by exact H. cbn. destruct name; reflexivity. Qed.
Lemma components_single first : ~ In colon first -> components (first ++ [colon]) = [first].
Proof. intros H. unfold components. rewrite split_on_app by exact H. reflexivity. Qed.
Lemma components_cons first rest :
  ~ In colon first -> rest <> [] -> components (first ++ colon :: rest) = first :: components rest.
Proof.
  intros H Hr. unfold components. rewrite split_on_app by exact H. cbn [rev].
  destruct (rev (split_on colon rest)) as [|x l] eqn:E.
  - apply (f_equal (@rev _)) in E. rewrite rev_involutive in E.
    destruct (split_on_nonempty _ _ E).
  - apply (f_equal (@rev _)) in E. rewrite rev_involutive in E. cbn [app rev] in E.
    destruct x as [|c x].
    + destruct l as [|y l].
      * (* the rest is a single empty part: impossible for a non-empty rest *)
        exfalso. cbn [rev app] in E. destruct rest as [|c rest]; [congruence|]. cbn [split_on] in E.
        destruct (N.eqb_spec c colon).
        -- injection E as E. destruct (split_on_nonempty _ _ E).
        -- destruct (split_on colon rest); discriminate.
      * cbn [app]. change (y :: l ++ [first]) with ((y :: l) ++ [first]). rewrite rev_app_distr. reflexivity.
    + cbn [app]. reflexivity.
Qed.
Lemma components_nonempty name : components name <> [].
Proof.
  unfold components. destruct (rev (split_on colon name)) as [|x l] eqn:E.
  - apply split_on_nonempty.
  - destruct x; [|apply split_on_nonempty]. destruct l as [|y l]; [apply split_on_nonempty|].
    cbn [rev]. destruct (rev l); discriminate.
Qed.
Lemma components_no_colon name : Forall (fun w => ~ In colon w) (components name).
Proof.
  pose proof (split_on_no_sep colon name) as H. unfold components.
  destruct (rev (split_on colon name)) as [|x l] eqn:E; [exact H|].
  destruct x; [|exact H]. destruct l as [|y l]; [exact H|].
  apply (f_equal (@rev _)) in E. rewrite rev_involutive in E. cbn [rev] in E. rewrite E in H.
  apply Forall_app in H as [H _]. exact H.
Qed.

(** [split_first] in the terms of the specification. *)
Lemma split_first_spec name :
  (~ In colon name /\ split_first name = (name, []))
  \/ exists first rest, name = first ++ colon :: rest /\ ~ In colon first
                        /\ split_first name = (first, rest).
Proof.
  unfold split_first. destruct (find_char (fun c => (c =? 58)%N) name) as [i|] eqn:E.
  - right. apply find_char_some in E as (c & t & Hs & Hc & Hl & Hp & Ht).
    apply N.eqb_eq in Hc. subst c.
    exists (firstn i name), (skipn (i + 1) name).
    assert (Et : skipn (i + 1) name = t).
    { rewrite Hs at 1. rewrite skipn_app, Hl. replace (i + 1 - i) with 1 by lia.
      rewrite skipn_all2 by lia. reflexivity. }
    rewrite Et. split; [exact Hs|]. split; [|reflexivity]. intros Hin.
    rewrite forallb_forall in Hp. specialize (Hp _ Hin). discriminate.
  - left. split; [|reflexivity]. intros Hin. apply find_char_none in E.
    rewrite forallb_forall in E. specialize (E _ Hin). discriminate.
Qed.

(** ** Children *)
Lemma find_child_some n cs c : find_child n cs = Some c -> In c cs /\ ac_name c = n.
Proof.
  intros H. apply find_some in H as [H1 H2]. split; [exact H1|]. apply str_eqb_eq, H2.
Qed.
Lemma find_child_none n cs : find_child n cs = None <-> ~ In n (map ac_name cs).
Proof.
  unfold find_child. split.
  - intros H Hin. apply in_map_iff in Hin as (c & <- & Hc). apply (find_none _ _ H) in Hc.
    rewrite str_eqb_refl in Hc. discriminate.
  - intros H. destruct (find _ cs) as [c|] eqn:E; [|reflexivity]. exfalso. apply H.
    apply find_some in E as [E1 E2]. apply str_eqb_eq in E2. subst n. apply in_map, E1.
Qed.
Lemma find_child_in c cs : NoDup (map ac_name cs) -> In c cs -> find_child (ac_name c) cs = Some c.
Proof.
  induction cs as [|x cs IH]; [intros _ []|]. cbn [map]. intros Hn Hi. inversion Hn; subst.
  unfold find_child; cbn [find]. destruct Hi as [->|Hi].
  - rewrite str_eqb_refl. reflexivity.
  - destruct (str_eqb (ac_name x) (ac_name c)) eqn:E.
    + apply str_eqb_eq in E. exfalso. apply H1. rewrite E. apply in_map, Hi.
    + apply IH; assumption.
Qed.
Lemma find_child_app n cs c :
  find_child n (cs ++ [c]) = match find_child n cs with
                             | Some x => Some x
                             | None => if str_eqb (ac_name c) n then Some c else None
                             end.
Proof.
  unfold find_child. induction cs as [|x cs IH]; cbn [app find]; [reflexivity|].
  destruct (str_eqb (ac_name x) n); [reflexivity|apply IH].
Qed.
Lemma set_child_names n c' cs : ac_name c' = n -> map ac_name (set_child n c' cs) = map ac_name cs.
Proof.
  intros E. induction cs as [|x cs IH]; cbn [set_child map]; [reflexivity|].
  destruct (str_eqb (ac_name x) n) eqn:Ex; cbn [map].
  - apply str_eqb_eq in Ex. congruence.
  - rewrite IH. reflexivity.
Qed.
Lemma find_set_child n c' cs k :
  ac_name c' = n ->
  find_child k (set_child n c' cs)
  = if str_eqb n k then match find_child k cs with Some _ => Some c' | None => None end
    else find_child k cs.
Proof.
  intros E. unfold find_child. induction cs as [|x cs IH]; cbn [set_child find].
  - destruct (str_eqb n k); reflexivity.
  - destruct (str_eqb (ac_name x) n) eqn:Ex; cbn [find].
    + apply str_eqb_eq in Ex. rewrite E, Ex. destruct (str_eqb n k); reflexivity.
    + rewrite IH. destruct (str_eqb n k) eqn:Ek.
      * apply str_eqb_eq in Ek. subst k. rewrite Ex. reflexivity.
      * reflexivity.
Qed.
Lemma set_child_in n c' cs x : In x (set_child n c' cs) -> x = c' \/ In x cs.
Proof.
  induction cs as [|y cs IH]; cbn [set_child In]; [tauto|].
  destruct (str_eqb (ac_name y) n); cbn [In]; intuition.
Qed.

(** ** Paths *)
Lemma get_account_cons m n p :
  get_account m (n :: p) = match find_child n (ac_children m) with
                           | Some c => get_account c p | None => None end.
Proof. destruct m; reflexivity. Qed.
Lemma get_account_app m p q :
  get_account m (p ++ q) = match get_account m p with Some a => get_account a q | None => None end.
Proof.
  revert m; induction p as [|n p IH]; intros m; [reflexivity|]. cbn [app]. rewrite !get_account_cons.
  destruct (find_child n (ac_children m)); [apply IH|reflexivity].
Qed.
Lemma wf_children m c : wf_tree m -> In c (ac_children m) -> wf_tree c.
Proof. intros [n cs ps H1 H2 H3]. cbn [ac_children]. apply H3. Qed.
Lemma wf_get m p a : wf_tree m -> get_account m p = Some a -> wf_tree a.
Proof.
  revert m; induction p as [|n p IH]; intros m W.
  - intros H; injection H as <-. exact W.
  - rewrite get_account_cons. destruct (find_child n (ac_children m)) as [c|] eqn:E; [|discriminate].
    apply IH. eapply wf_children; eauto. eapply find_child_some; eauto.
Qed.
Lemma get_account_name m p n a : get_account m (p ++ [n]) = Some a -> ac_name a = n.
Proof.
  rewrite get_account_app. destruct (get_account m p) as [x|]; [|discriminate].
  rewrite get_account_cons. destruct (find_child n (ac_children x)) as [c|] eqn:E; [|discriminate].
  intros H. cbn in H. injection H as <-. eapply find_child_some; eauto.
Qed.

Lemma posts_at_cons m n p :
  posts_at m (n :: p) = match find_child n (ac_children m) with
                        | Some c => posts_at c p | None => None end.
Proof. unfold posts_at. rewrite get_account_cons. destruct (find_child n (ac_children m)); reflexivity. Qed.
Lemma posts_at_exists m p : exists_at m p <-> posts_at m p <> None.
Proof.
  unfold exists_at, posts_at. destruct (get_account m p); cbn [option_map]; split; try discriminate; eauto.
  - intros [a H]; discriminate.
  - congruence.
Qed.

Lemma prefix_of_refl p : prefix_of p p = true.
Proof. induction p as [|n p IH]; [reflexivity|]. cbn [prefix_of]. rewrite str_eqb_refl. exact IH. Qed.
Lemma prefix_of_app p q : prefix_of p (p ++ q) = true.
Proof. induction p as [|n p IH]; [reflexivity|]. cbn [prefix_of app]. rewrite str_eqb_refl. exact IH. Qed.
Lemma prefix_of_iff q p : prefix_of q p = true <-> exists r, p = q ++ r.
Proof.
  split.
  - revert p; induction q as [|x q IH]; intros p H; [exists p; reflexivity|].
    destruct p as [|y p]; cbn [prefix_of] in H; [discriminate H|]. apply andb_prop in H as [H1 H2].
    apply str_eqb_eq in H1 as ->. destruct (IH _ H2) as [r ->]. exists r. reflexivity.
  - intros [r ->]. apply prefix_of_app.
Qed.

(** ** Registration *)

(** A freshly created chain. *)
Lemma posts_at_leaf n q : posts_at (Acct n [] []) q = match q with [] => Some [] | _ => None end.
Proof. destruct q; reflexivity. Qed.
Lemma wf_leaf n ps : wf_tree (Acct n [] ps).
Proof. constructor; [constructor| |]; intros c []. Qed.

Lemma foc_create fuel : forall m name,
  wf_tree m -> length name < fuel ->
  exists m', find_or_create fuel m name true = Ok (Some (m', components name))
    /\ wf_tree m' /\ ac_name m' = ac_name m
    /\ (forall q, posts_at m' q
                  = match posts_at m q with
                    | Some l => Some l
                    | None => if prefix_of q (components name) then Some [] else None
                    end)
    /\ (exists_at m (components name) -> m' = m).
Proof.
  induction fuel as [|f IH]; intros m name W Hf; [lia|].
  destruct m as [n cs ps]. inversion W as [? ? ? W1 W2 W3]; subst. cbn [find_or_create].
  destruct (find_child name cs) as [c0|] eqn:E0.
  - (* a child with exactly this name *)
    pose proof (find_child_some _ _ _ E0) as [I0 N0].
    assert (Hnc : ~ In colon name) by (rewrite <- N0; apply W2, I0).
    rewrite components_plain by exact Hnc. exists (Acct n cs ps). split; [reflexivity|].
    split; [exact W|]. split; [reflexivity|]. split; [|reflexivity].
    intros q. destruct (posts_at (Acct n cs ps) q) eqn:Eq; [reflexivity|].
    destruct (prefix_of q [name]) eqn:Ep; [|reflexivity]. exfalso.
    destruct q as [|x q]; [cbn in Eq; discriminate Eq|]. cbn [prefix_of] in Ep. apply andb_prop in Ep as [Ex Eq2].
    apply str_eqb_eq in Ex. subst x. destruct q; [|discriminate].
    rewrite posts_at_cons in Eq. cbn [ac_children] in Eq. rewrite E0 in Eq. discriminate.
  - destruct (split_first_spec name) as [[Hnc ->]|(first & rest & En & Hnc & ->)].
    + (* one new component *)
      rewrite E0, components_plain by exact Hnc.
      exists (Acct n (cs ++ [Acct name [] []]) ps). split; [reflexivity|]. split; [|split; [reflexivity|split]].
      * constructor.
        -- rewrite map_app. cbn [map ac_name]. apply find_child_none in E0.
           apply (Permutation_NoDup (Permutation_cons_append _ _)). constructor; assumption.
        -- intros c Hc. apply in_app_or in Hc as [Hc|[<-|[]]]; [apply W2, Hc|exact Hnc].
        -- intros c Hc. apply in_app_or in Hc as [Hc|[<-|[]]]; [apply W3, Hc|apply wf_leaf].
      * intros q. destruct q as [|x q]; [reflexivity|]. rewrite !posts_at_cons. cbn [ac_children].
        rewrite find_child_app. destruct (find_child x cs) as [c|] eqn:Ex.
        -- destruct (posts_at c q) eqn:Ep; [reflexivity|].
           destruct (prefix_of (x :: q) [name]) eqn:Epr; [|reflexivity]. exfalso.
           cbn [prefix_of] in Epr. apply andb_prop in Epr as [Exx Eq2]. apply str_eqb_eq in Exx.
           subst x. congruence.
        -- cbn [ac_name prefix_of]. rewrite (str_eqb_sym x name).
           destruct (str_eqb name x); [|reflexivity]. rewrite posts_at_leaf.
           destruct q; reflexivity.
      * intros [a Ha]. rewrite get_account_cons in Ha. cbn [ac_children] in Ha. rewrite E0 in Ha.
        discriminate.
    + destruct (find_child first cs) as [child|] eqn:E1.
      * (* descend into an existing child *)
        pose proof (find_child_some _ _ _ E1) as [I1 N1].
        destruct rest as [|r0 rest'].
        -- rewrite En, components_single by exact Hnc. exists (Acct n cs ps).
           split; [reflexivity|]. split; [exact W|]. split; [reflexivity|]. split; [|reflexivity].
           intros q. destruct (posts_at (Acct n cs ps) q) eqn:Eq; [reflexivity|].
           destruct (prefix_of q [first]) eqn:Ep; [|reflexivity]. exfalso.
           destruct q as [|x q]; [cbn in Eq; discriminate Eq|]. cbn [prefix_of] in Ep. apply andb_prop in Ep as [Ex Eq2].
           apply str_eqb_eq in Ex. subst x. destruct q; [|discriminate].
           rewrite posts_at_cons in Eq. cbn [ac_children] in Eq. rewrite E1 in Eq. discriminate.
        -- set (rest := r0 :: rest') in *.
           destruct (IH child rest (W3 _ I1)) as (child' & R & RW & RN & RP & RI).
           { rewrite En, app_length in Hf. cbn [length] in Hf. lia. }
           rewrite R. cbn [bind unwrap]. rewrite En, components_cons; [|exact Hnc|discriminate].
           exists (Acct n (set_child first child' cs) ps). split; [reflexivity|].
           assert (Nc : ac_name child' = first) by congruence.
           split; [|split; [reflexivity|split]].
           ++ constructor.
              ** rewrite set_child_names by exact Nc. exact W1.
              ** intros c Hc. apply set_child_in in Hc as [->|Hc]; [|apply W2, Hc].
                 rewrite Nc. exact Hnc.
              ** intros c Hc. apply set_child_in in Hc as [->|Hc]; [exact RW|apply W3, Hc].
           ++ intros q. destruct q as [|x q]; [reflexivity|]. rewrite !posts_at_cons.
              cbn [ac_children]. rewrite find_set_child by exact Nc. cbn [prefix_of].
              rewrite (str_eqb_sym x first). destruct (str_eqb first x) eqn:Ex.
              ** apply str_eqb_eq in Ex. subst x. rewrite E1, RP. reflexivity.
              ** cbn [andb]. destruct (find_child x cs) as [c|]; [|reflexivity].
                 destruct (posts_at c q); reflexivity.
           ++ intros [a Ha]. rewrite get_account_cons in Ha. cbn [ac_children] in Ha. rewrite E1 in Ha.
              rewrite RI by (exists a; exact Ha).
              f_equal. clear -E1. induction cs as [|c cs IH]; [reflexivity|]. cbn [set_child].
              unfold find_child in E1; cbn [find] in E1. destruct (str_eqb (ac_name c) first).
              ** congruence.
              ** f_equal. apply IH, E1.
      * (* create the first component *)
        destruct rest as [|r0 rest'].
        -- rewrite En, components_single by exact Hnc.
           exists (Acct n (cs ++ [Acct first [] []]) ps). split; [reflexivity|].
           split; [|split; [reflexivity|split]].
           ++ constructor.
              ** rewrite map_app. cbn [map ac_name]. apply find_child_none in E1.
                 apply (Permutation_NoDup (Permutation_cons_append _ _)). constructor; assumption.
              ** intros c Hc. apply in_app_or in Hc as [Hc|[<-|[]]]; [apply W2, Hc|exact Hnc].
              ** intros c Hc. apply in_app_or in Hc as [Hc|[<-|[]]]; [apply W3, Hc|apply wf_leaf].
           ++ intros q. destruct q as [|x q]; [reflexivity|]. rewrite !posts_at_cons. cbn [ac_children].
              rewrite find_child_app. destruct (find_child x cs) as [c|] eqn:Ex.
              ** destruct (posts_at c q) eqn:Ep; [reflexivity|].
                 destruct (prefix_of (x :: q) [first]) eqn:Epr; [|reflexivity]. exfalso.
                 cbn [prefix_of] in Epr. apply andb_prop in Epr as [Exx Eq2]. apply str_eqb_eq in Exx.
                 subst x. congruence.
              ** cbn [ac_name prefix_of]. rewrite (str_eqb_sym x first).
                 destruct (str_eqb first x); [|reflexivity]. rewrite posts_at_leaf.
                 destruct q; reflexivity.
           ++ intros [a Ha]. rewrite get_account_cons in Ha. cbn [ac_children] in Ha. rewrite E1 in Ha.
              discriminate.
        -- set (rest := r0 :: rest') in *.
           destruct (IH (Acct first [] []) rest (wf_leaf _ _)) as (child' & R & RW & RN & RP & _).
           { rewrite En, app_length in Hf. cbn [length] in Hf. lia. }
           rewrite R. cbn [bind unwrap]. rewrite En, components_cons; [|exact Hnc|discriminate].
           exists (Acct n (cs ++ [child']) ps). split; [reflexivity|].
           cbn [ac_name] in RN. split; [|split; [reflexivity|split]].
           ++ constructor.
              ** rewrite map_app. cbn [map]. rewrite RN. apply find_child_none in E1.
                 apply (Permutation_NoDup (Permutation_cons_append _ _)). constructor; assumption.
              ** intros c Hc. apply in_app_or in Hc as [Hc|[<-|[]]]; [apply W2, Hc|]. rewrite RN. exact Hnc.
              ** intros c Hc. apply in_app_or in Hc as [Hc|[<-|[]]]; [apply W3, Hc|exact RW].
           ++ intros q. destruct q as [|x q]; [reflexivity|]. rewrite !posts_at_cons. cbn [ac_children].
              rewrite find_child_app, RN. cbn [prefix_of]. rewrite (str_eqb_sym x first).
              destruct (find_child x cs) as [c|] eqn:Ex.
              ** destruct (posts_at c q) eqn:Ep; [reflexivity|].
                 destruct (str_eqb first x) eqn:Exx; [|reflexivity].
                 apply str_eqb_eq in Exx. subst x. congruence.
              ** destruct (str_eqb first x); [|reflexivity]. cbn [andb]. rewrite RP, posts_at_leaf.
                 destruct q; reflexivity.
           ++ intros [a Ha]. rewrite get_account_cons in Ha. cbn [ac_children] in Ha. rewrite E1 in Ha.
              discriminate.
Qed.

Lemma register_spec m name :
  wf_tree m -> name <> [] ->
  exists m', register_account m name = Ok (m', components name)
    /\ wf_tree m' /\ ac_name m' = ac_name m
    /\ (forall q, posts_at m' q
                  = match posts_at m q with
                    | Some l => Some l
                    | None => if prefix_of q (components name) then Some [] else None
                    end)
    /\ (exists_at m (components name) -> m' = m).
Proof.
  intros W Hn. destruct (foc_create (S (length name)) m name W ltac:(lia)) as (m' & R & H).
  exists m'. split; [|exact H]. unfold register_account. destruct name; [congruence|].
  rewrite R. reflexivity.
Qed.

(** ** Lookup *)
Lemma foc_find fuel : forall m name,
  wf_tree m -> length name < fuel ->
  find_or_create fuel m name false
  = match get_account m (components name) with
    | Some _ => Ok (Some (m, components name))
    | None => match get_account m [hd [] (components name)] with
              | None => Ok None
              | Some _ => Panic PUnwrap
              end
    end.
Proof.
  induction fuel as [|f IH]; intros m name W Hf; [lia|].
  destruct m as [n cs ps]. inversion W as [? ? ? W1 W2 W3]; subst. cbn [find_or_create].
  destruct (find_child name cs) as [c0|] eqn:E0.
  - pose proof (find_child_some _ _ _ E0) as [I0 N0].
    assert (Hnc : ~ In colon name) by (rewrite <- N0; apply W2, I0).
    rewrite components_plain by exact Hnc. rewrite get_account_cons. cbn [ac_children]. rewrite E0.
    reflexivity.
  - destruct (split_first_spec name) as [[Hnc ->]|(first & rest & En & Hnc & ->)].
    + rewrite E0, components_plain by exact Hnc. cbn [hd]. rewrite get_account_cons.
      cbn [ac_children]. rewrite E0. reflexivity.
    + destruct rest as [|r0 rest'].
      * rewrite En, components_single by exact Hnc. cbn [hd]. rewrite get_account_cons.
        cbn [ac_children]. destruct (find_child first cs); reflexivity.
      * set (rest := r0 :: rest') in *. rewrite En, components_cons; [|exact Hnc|discriminate].
        cbn [hd]. rewrite !get_account_cons. cbn [ac_children].
        destruct (find_child first cs) as [child|] eqn:E1; [|reflexivity].
        pose proof (find_child_some _ _ _ E1) as [I1 N1].
        rewrite IH; [|apply W3, I1|rewrite En, app_length in Hf; cbn [length] in Hf; lia].
        assert (Sc : set_child first child cs = cs).
        { clear -E1. induction cs as [|c cs IH]; [reflexivity|]. cbn [set_child].
          unfold find_child in E1; cbn [find] in E1. destruct (str_eqb (ac_name c) first).
          - congruence.
          - f_equal. apply IH, E1. }
        destruct (get_account child (components rest)) as [a|]; cbn [bind unwrap].
        -- rewrite Sc. reflexivity.
        -- destruct (get_account child [hd [] (components rest)]); reflexivity.
Qed.
Lemma find_account_spec m name :
  wf_tree m ->
  find_account m name
  = match get_account m (components name) with
    | Some _ => Ok (Some (components name))
    | None => match get_account m [hd [] (components name)] with
              | None => Ok None
              | Some _ => Panic PUnwrap
              end
    end.
Proof.
  intros W. unfold find_account. rewrite foc_find; [|exact W|lia].
  destruct (get_account m (components name)); [reflexivity|].
  destruct (get_account m [hd [] (components name)]); reflexivity.
Qed.

(** ** Full names *)
Definition nonempty (s : str) : Prop := s <> [].
Lemma fullname_fold up full :
  Forall nonempty up ->
  fold_left (fun full n => match n with [] => full | _ => n ++ 58%N :: full end) up full
  = match rev up with [] => full | _ => join (rev up) ++ colon :: full end.
Proof.
  revert full; induction up as [|n up IH]; intros full H; [reflexivity|]. inversion H as [|? ? Hn Hu]; subst.
  cbn [fold_left rev]. rewrite IH by exact Hu. destruct n as [|c n]; [destruct (Hn eq_refl)|].
  set (w := c :: n) in *. destruct (rev up) as [|x l] eqn:E.
  - reflexivity.
  - assert (J : forall l, l <> [] -> join (l ++ [w]) = join l ++ colon :: w).
    { clear. induction l as [|y l IH]; [congruence|]. intros _. destruct l as [|z l].
      - reflexivity.
      - cbn [app join]. cbn [app join] in IH. rewrite IH by discriminate. rewrite <- app_assoc. reflexivity. }
    rewrite J by discriminate. destruct ((x :: l) ++ [w]) eqn:D; [destruct l; discriminate|].
    rewrite <- app_assoc. reflexivity.
Qed.
Lemma join_app l w : l <> [] -> join (l ++ [w]) = join l ++ colon :: w.
Proof.
  induction l as [|y l IH]; [congruence|]. intros _. destruct l as [|z l].
  - reflexivity.
  - cbn [app join]. cbn [app join] in IH. rewrite IH by discriminate. rewrite <- app_assoc. reflexivity.
Qed.
Lemma fullname_join p : Forall nonempty p -> fullname p = join p.
Proof.
  intros H. unfold fullname. destruct (rev p) as [|n up] eqn:E.
  - apply (f_equal (@rev _)) in E. rewrite rev_involutive in E. subst p. reflexivity.
  - apply (f_equal (@rev _)) in E. rewrite rev_involutive in E. cbn [rev] in E. subst p.
    apply Forall_app in H as [H1 H2]. rewrite fullname_fold by (apply Forall_rev in H1; rewrite rev_involutive in H1; exact H1).
    destruct (rev up) as [|x l] eqn:E; [reflexivity|]. rewrite join_app by discriminate. reflexivity.
Qed.
Lemma join_split sep_s : join (split_on colon sep_s) = sep_s.
Proof.
  induction sep_s as [|c s IH]; [reflexivity|]. cbn [split_on]. destruct (N.eqb_spec c colon) as [->|E].
  - destruct (split_on colon s) as [|w ws] eqn:D; [destruct (split_on_nonempty _ _ D)|].
    cbn [join app]. cbn [join] in IH. rewrite IH. reflexivity.
  - destruct (split_on colon s) as [|w ws] eqn:D; [destruct (split_on_nonempty _ _ D)|].
    destruct ws as [|w' ws].
    + cbn [join] in *. rewrite IH. reflexivity.
    + cbn [join app] in *. rewrite IH. reflexivity.
Qed.
Lemma components_full name :
  Forall nonempty (split_on colon name) -> components name = split_on colon name.
Proof.
  intros H. unfold components. destruct (rev (split_on colon name)) as [|x l] eqn:E; [reflexivity|].
  destruct x as [|c x]; [|reflexivity]. exfalso.
  assert (Hin : In ([] : str) (split_on colon name)) by (rewrite in_rev, E; left; reflexivity).
  rewrite Forall_forall in H. exact (H _ Hin eq_refl).
Qed.
Lemma fullname_components name :
  Forall nonempty (split_on colon name) -> fullname (components name) = name.
Proof.
  intros H. rewrite components_full by exact H. rewrite fullname_join by exact H. apply join_split.
Qed.

(** ** Pushing a posting *)
Lemma push_post_spec m p r :
  wf_tree m -> exists_at m p ->
  exists m', push_post m p r = Ok m' /\ wf_tree m' /\ ac_name m' = ac_name m
    /\ forall q, posts_at m' q
                 = if list_eq_dec str_eq_dec q p then option_map (fun l => l ++ [r]) (posts_at m q)
                   else posts_at m q.
Proof.
  revert m; induction p as [|k p IH]; intros m W He; destruct m as [n cs ps]; cbn [push_post].
  - eexists. split; [reflexivity|]. inversion W; subst. split; [constructor; assumption|].
    split; [reflexivity|]. intros q. destruct (list_eq_dec str_eq_dec q []) as [->|Hq]; [reflexivity|].
    destruct q as [|x q]; [congruence|]. reflexivity.
  - destruct He as [a Ha]. rewrite get_account_cons in Ha. cbn [ac_children] in Ha.
    destruct (find_child k cs) as [c|] eqn:E; [|discriminate].
    pose proof (find_child_some _ _ _ E) as [I N]. inversion W as [? ? ? W1 W2 W3]; subst.
    destruct (IH c (W3 _ I)) as (c' & R & RW & RN & RP); [exists a; exact Ha|].
    rewrite R. cbn [bind]. eexists. split; [reflexivity|].
    assert (Nc : ac_name c' = ac_name c) by exact RN.
    split; [|split; [reflexivity|]].
    + constructor.
      * rewrite set_child_names by exact Nc. exact W1.
      * intros x Hx. apply set_child_in in Hx as [->|Hx]; [|apply W2, Hx]. rewrite Nc. apply W2, I.
      * intros x Hx. apply set_child_in in Hx as [->|Hx]; [exact RW|apply W3, Hx].
    + intros q. destruct q as [|x q].
      * destruct (list_eq_dec str_eq_dec [] (ac_name c :: p)); [discriminate|reflexivity].
      * rewrite !posts_at_cons. cbn [ac_children]. rewrite find_set_child by exact Nc.
        destruct (str_eqb (ac_name c) x) eqn:Ex.
        -- apply str_eqb_eq in Ex. subst x. rewrite E, RP.
           destruct (list_eq_dec str_eq_dec q p) as [->|Hq];
             destruct (list_eq_dec str_eq_dec (ac_name c :: _) (ac_name c :: p)) as [Hp|Hp];
             try reflexivity; exfalso; congruence.
        -- destruct (list_eq_dec str_eq_dec (x :: q) (ac_name c :: p)) as [Hp|Hp]; [|reflexivity].
           injection Hp as -> _. rewrite str_eqb_refl in Ex. discriminate.
Qed.
