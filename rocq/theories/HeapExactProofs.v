(** Exactly when the balance report of the program with pointers is defined. *)
From Coq Require Import String List NArith ZArith Bool Lia Permutation.
From Verif Require Import Base BaseFacts Decimal Dates Amount Balance Scanner History Pool Account Journal Xact Parser Report Options Lib Memory Heap.
From Verif Require Import SpecHeap AccountFacts MemoryFacts ReportFacts HeapFacts HeapTree HeapRead SpecAccount SpecJournal JournalFacts.
From Verif Require Import SpecMemory SpecExact HeapReport HeapSafe HeapSafeTree HeapSafeRead HeapSafeReport SpecCommand ReportTextProofs.
Import ListNotations.
Open Scope nat_scope.

(** ** Names in the order in which they come *)
Fixpoint strip (q p : path) : option path :=
  match q, p with
  | [], _ => Some p
  | a :: q', b :: p' => if str_eqb a b then strip q' p' else None
  | _ :: _, [] => None
  end.
Lemma strip_iff q : forall p r, strip q p = Some r <-> p = q ++ r.
Proof.
  induction q as [|a q IH]; intros p r; cbn [strip app]; [split; congruence|]. destruct p as [|b p]; [split; discriminate|].
  destruct (str_eqb a b) eqn:E.
  - apply str_eqb_eq in E. subst b. rewrite IH. split; [intros ->; reflexivity|intros H; injection H; auto].
  - split; [discriminate|]. intros H. injection H as <- _. assert (str_eqb b b = true) by (apply str_eqb_eq; reflexivity). congruence.
Qed.
Definition add_kid (q : path) (ns : list str) (p : path) : list str :=
  match strip q p with
  | Some (n :: _) => if in_dec str_eq_dec n ns then ns else ns ++ [n]
  | _ => ns
  end.
Definition kids (q : path) (ps : list path) : list str := fold_left (add_kid q) ps [].
Lemma kids_snoc q ps p : kids q (ps ++ [p]) = add_kid q (kids q ps) p.
Proof. unfold kids. rewrite fold_left_app. reflexivity. Qed.
Lemma nodup_snoc {A} (l : list A) a : NoDup l -> ~ In a l -> NoDup (l ++ [a]).
Proof.
  intros N H. induction N as [|x l X N IH]; cbn; [constructor; [auto|constructor]|]. cbn in H. constructor; [|apply IH; tauto].
  rewrite in_app_iff. cbn. intros [Y|[Y|[]]]; [auto|]. subst. tauto.
Qed.
Lemma kids_nodup q ps : NoDup (kids q ps).
Proof.
  induction ps as [|p ps IH] using rev_ind; [constructor|]. rewrite kids_snoc. unfold add_kid. destruct (strip q p) as [[|n r]|]; auto.
  destruct (in_dec _ _ _); [exact IH|]. apply nodup_snoc; assumption.
Qed.
Lemma kids_in q ps n : In n (kids q ps) <-> exists r, In (q ++ n :: r) ps.
Proof.
  induction ps as [|p ps IH] using rev_ind; [cbn; split; [tauto|intros (r & [])]|]. rewrite kids_snoc. unfold add_kid.
  assert (X : (exists r, In (q ++ n :: r) (ps ++ [p])) <-> (exists r, In (q ++ n :: r) ps) \/ exists r, p = q ++ n :: r).
  { split; [intros (r & H); apply in_app_iff in H as [H|[H|[]]]; eauto|]. intros [(r & H)|(r & H)]; exists r; apply in_app_iff; cbn; auto. }
  rewrite X, <- IH. destruct (strip q p) as [[|m r]|] eqn:E.
  - apply strip_iff in E. subst p. split; [auto|]. intros [H|(r & H)]; [exact H|]. apply app_inv_head in H. discriminate.
  - apply strip_iff in E. subst p. assert (Y : (exists r0, q ++ m :: r = q ++ n :: r0) <-> m = n) by (split; [intros (r0 & H); apply app_inv_head in H; congruence|intros ->; eauto]).
    rewrite Y. destruct (in_dec str_eq_dec m (kids q ps)) as [I0|I0]; [split; [auto|]; intros [H| ->]; assumption|]. rewrite in_app_iff. cbn. tauto.
  - split; [auto|]. intros [H|(r & H)]; [exact H|]. apply strip_iff in H. congruence.
Qed.
Lemma below_kids q ps k : accounts_below q ps k <-> k = length (kids q ps).
Proof.
  split.
  - intros (ns & N & <- & H). apply Nat.le_antisymm; apply NoDup_incl_length; auto using kids_nodup; intros n X; [apply kids_in, H, X|apply H, kids_in, X].
  - intros ->. exists (kids q ps). split; [apply kids_nodup|]. split; [reflexivity|]. apply kids_in.
Qed.
Lemma kids_mono q ps ps' : length (kids q ps) <= length (kids q (ps ++ ps')).
Proof. apply NoDup_incl_length; [apply kids_nodup|]. intros n H. apply kids_in in H as (r & H). apply kids_in. exists r. apply in_app_iff. auto. Qed.
(** A name that is not new. *)
Lemma kids_other q ps p : (forall n r, p <> q ++ n :: r) -> kids q (ps ++ [p]) = kids q ps.
Proof.
  intros H. rewrite kids_snoc. unfold add_kid. destruct (strip q p) as [[|n r]|] eqn:E; auto. apply strip_iff in E. destruct (H _ _ E).
Qed.
Lemma kids_known q ps n r : In n (kids q ps) -> kids q (ps ++ [q ++ n :: r]) = kids q ps.
Proof.
  intros H. rewrite kids_snoc. unfold add_kid. assert (strip q (q ++ n :: r) = Some (n :: r)) as -> by (apply strip_iff; reflexivity).
  destruct (in_dec _ _ _); [reflexivity|contradiction].
Qed.
Lemma kids_new q ps n r : ~ In n (kids q ps) -> kids q (ps ++ [q ++ n :: r]) = kids q ps ++ [n].
Proof.
  intros H. rewrite kids_snoc. unfold add_kid. assert (strip q (q ++ n :: r) = Some (n :: r)) as -> by (apply strip_iff; reflexivity).
  destruct (in_dec _ _ _); [contradiction|reflexivity].
Qed.

(** Up to the first that is [r] or below it. *)
Fixpoint upto (r : path) (ps : list path) : list path :=
  match ps with
  | [] => []
  | p :: ps' => match strip r p with Some _ => [p] | None => p :: upto r ps' end
  end.
Lemma upto_old r ps p : (exists x, In (r ++ x) ps) -> upto r (ps ++ [p]) = upto r ps.
Proof.
  intros (x & H). induction ps as [|a ps IH]; [destruct H|]. cbn [upto app]. destruct (strip r a) as [y|] eqn:E; [reflexivity|].
  destruct H as [->|H]; [|rewrite IH by exact H; reflexivity]. assert (strip r (r ++ x) = Some x) by (apply strip_iff; reflexivity). congruence.
Qed.
Lemma upto_new r ps x : (forall y, ~ In (r ++ y) ps) -> upto r (ps ++ [r ++ x]) = ps ++ [r ++ x].
Proof.
  intros H. induction ps as [|a ps IH]; cbn [upto app]. { assert (strip r (r ++ x) = Some x) as -> by (apply strip_iff; reflexivity). reflexivity. }
  destruct (strip r a) as [y|] eqn:E; [apply strip_iff in E; subst; destruct (H y); left; reflexivity|]. rewrite IH; [reflexivity|]. intros y X. apply (H y). right. exact X.
Qed.
Lemma upto_split r ps : (exists x, In (r ++ x) ps) -> exists b a x, ps = b ++ (r ++ x) :: a /\ (forall y, ~ In (r ++ y) b) /\ upto r ps = b ++ [r ++ x].
Proof.
  intros (x & H). induction ps as [|p ps IH]; [destruct H|]. cbn [upto]. destruct (strip r p) as [y|] eqn:E.
  - apply strip_iff in E. subst p. exists [], ps, y. auto.
  - destruct H as [->|H]; [assert (strip r (r ++ x) = Some x) by (apply strip_iff; reflexivity); congruence|].
    destruct (IH H) as (b & a & y & -> & N & ->). exists (p :: b), a, y. split; [reflexivity|]. split; [|reflexivity]. intros z [X|X]; [subst p|exact (N z X)].
    assert (strip r (r ++ z) = Some z) by (apply strip_iff; reflexivity). congruence.
Qed.
Lemma upto_first r b x a : (forall y, ~ In (r ++ y) b) -> upto r (b ++ (r ++ x) :: a) = b ++ [r ++ x].
Proof.
  intros H. induction b as [|p b IH]; cbn [upto app]. { assert (strip r (r ++ x) = Some x) as -> by (apply strip_iff; reflexivity). reflexivity. }
  destruct (strip r p) as [y|] eqn:E; [apply strip_iff in E; subst; destruct (H y); left; reflexivity|]. rewrite IH; [reflexivity|]. intros y X. apply (H y). right. exact X.
Qed.

Lemma kids_pos q n r l : 1 <= length (kids q (l ++ [q ++ n :: r])).
Proof.
  assert (X : In n (kids q (l ++ [q ++ n :: r]))) by (apply kids_in; exists r; apply in_app_iff; right; left; reflexivity). destruct (kids q _); [destruct X|cbn; lia].
Qed.
Section Program.
Variable pol : policy.
Notation aft := (after (map_next pol)).

(** The address of the account [base] when the postings name [ps]. *)
Definition here (ps : list path) (base : path) : addr :=
  match rev base with
  | [] => AMaster
  | n :: rq => AAcct (rev rq) (al_gen (aft (length (kids (rev rq) ps)))) n
  end.
Lemma here_snoc ps q n : here ps (q ++ [n]) = AAcct q (al_gen (aft (length (kids q ps)))) n.
Proof. unfold here. rewrite rev_app_distr. cbn [rev app]. rewrite rev_involutive. reflexivity. Qed.

Inductive ktree (ps : list path) : path -> hacct -> Prop :=
| kt base n par al cs posts : al = aft (length cs) -> map hc_name cs = kids base ps ->
    (forall c, In c cs -> hc_parent c = Some (here (upto (base ++ [hc_name c]) ps) base)) ->
    (forall c, In c cs -> ktree ps (base ++ [hc_name c]) c) ->
    ktree ps base (HAcct n par al cs posts).

Lemma child_kid ps base cs c : map hc_name cs = kids base ps -> In c cs -> exists x, In ((base ++ [hc_name c]) ++ x) ps.
Proof.
  intros E H. apply (in_map hc_name) in H. rewrite E in H. apply kids_in in H as (r & H). exists r. rewrite <- app_assoc. exact H.
Qed.
Lemma ktree_mono ps p base t : ktree ps base t -> (forall n r, p <> base ++ n :: r) -> ktree (ps ++ [p]) base t.
Proof.
  induction 1 as [base n par al cs posts A N P C IH]. intros H. constructor; [exact A| | |].
  - rewrite kids_other by exact H. exact N.
  - intros c X. rewrite upto_old by (eapply child_kid; eassumption). apply P, X.
  - intros c X. apply IH; [exact X|]. intros m r. rewrite <- app_assoc. apply H.
Qed.
Lemma find_in n cs : find_hchild n cs = None -> ~ In n (map hc_name cs).
Proof.
  intros F X. apply in_map_iff in X as (c & E & X). unfold find_hchild in F. apply (find_none _ _ F) in X. subst n.
  assert (str_eqb (hc_name c) (hc_name c) = true) by (apply str_eqb_eq; reflexivity). congruence.
Qed.
Lemma found_in n cs c : find_hchild n cs = Some c -> In n (map hc_name cs).
Proof. intros F. pose proof (hfind_name _ _ _ F) as E. apply hfind_in' in F. apply (in_map hc_name) in F. congruence. Qed.
Lemma set_in n c' cs d : NoDup (map hc_name cs) -> In n (map hc_name cs) -> In d (set_hchild n c' cs) -> d = c' \/ In d cs /\ hc_name d <> n.
Proof.
  intros N. induction cs as [|x cs IH]; cbn [set_hchild map]; [intros []|]. cbn [map] in N. inversion N as [|? ? N1 N2]; subst.
  destruct (str_eqb (hc_name x) n) eqn:E.
  - apply str_eqb_eq in E. subst n. intros _ [->|X]; [auto|]. right. split; [right; exact X|]. intros Y. apply N1. rewrite <- Y. apply in_map, X.
  - intros [X|X]; [subst n; assert (str_eqb (hc_name x) (hc_name x) = true) by (apply str_eqb_eq; reflexivity); congruence|].
    intros [->|D]; [right; split; [left; reflexivity|]; intros Y; subst n; assert (str_eqb (hc_name d) (hc_name d) = true) by (apply str_eqb_eq; reflexivity); congruence|].
    destruct (IH N2 X D) as [->|[Y Z]]; [auto|]. right. split; [right; exact Y|exact Z].
Qed.
Lemma set_names n c' cs : hc_name c' = n -> map hc_name (set_hchild n c' cs) = map hc_name cs.
Proof.
  intros E. induction cs as [|x cs IH]; cbn [set_hchild map]; [reflexivity|]. destruct (str_eqb (hc_name x) n) eqn:F; cbn [map]; [|congruence].
  apply str_eqb_eq in F. congruence.
Qed.
Lemma set_self n c cs : find_hchild n cs = Some c -> set_hchild n c cs = cs.
Proof.
  unfold find_hchild. induction cs as [|x cs IH]; cbn [find set_hchild]; [discriminate|]. destruct (str_eqb (hc_name x) n); [congruence|]. intros H. rewrite IH by exact H. reflexivity.
Qed.
Lemma kt_update ps base n par al cs posts k r child child' : ktree ps base (HAcct n par al cs posts) -> find_hchild k cs = Some child ->
  hc_name child' = k -> hc_parent child' = hc_parent child -> ktree (ps ++ [base ++ k :: r]) (base ++ [k]) child' ->
  ktree (ps ++ [base ++ k :: r]) base (HAcct n par al (set_hchild k child' cs) posts).
Proof.
  intros T F N' P' T'. inversion T as [? ? ? ? ? ? A N P C]; subst. set (k := hc_name child') in *. pose proof (found_in _ _ _ F) as I0.
  assert (ND : NoDup (map hc_name cs)) by (rewrite N; apply kids_nodup).
  constructor.
  - rewrite hset_length. reflexivity.
  - rewrite set_names by reflexivity. rewrite N. symmetry. apply kids_known. rewrite <- N. exact I0.
  - intros d D. assert (X : exists c, In c cs /\ hc_name c = hc_name d /\ hc_parent c = hc_parent d).
    { apply set_in in D as [->|[D _]]; [|eauto|exact ND|exact I0]. exists child. split; [apply (hfind_in' _ _ _ F)|]. split; [apply (hfind_name _ _ _ F)|congruence]. }
    destruct X as (c & X & E1 & E2). rewrite <- E2, <- E1. rewrite upto_old by (eapply child_kid; eassumption). apply P, X.
  - intros d D. apply set_in in D as [->|[D Z]]; [exact T'| |exact ND|exact I0]. apply ktree_mono; [apply C, D|]. intros m s Y. rewrite <- app_assoc in Y. apply app_inv_head in Y. injection Y as Y _. apply Z. symmetry. exact Y.
Qed.
Lemma kt_same ps base n par al cs posts k child : ktree ps base (HAcct n par al cs posts) -> find_hchild k cs = Some child ->
  ktree (ps ++ [base ++ [k]]) base (HAcct n par al cs posts).
Proof.
  intros T F. rewrite <- (set_self k child cs F). apply (kt_update _ _ _ _ _ _ _ _ [] child child T F); [apply (hfind_name _ _ _ F)|reflexivity|].
  inversion T as [? ? ? ? ? ? A N P C]; subst. apply ktree_mono.
  - rewrite <- (hfind_name _ _ _ F) at 1. apply C, (hfind_in' _ _ _ F).
  - intros m r X. rewrite <- (app_nil_r (base ++ [k])) in X at 1. apply app_inv_head in X. discriminate.
Qed.
Lemma kt_new ps base n par al cs posts k r child' : ktree ps base (HAcct n par al cs posts) -> find_hchild k cs = None ->
  hc_name child' = k -> hc_parent child' = Some (here (ps ++ [base ++ k :: r]) base) -> ktree (ps ++ [base ++ k :: r]) (base ++ [k]) child' ->
  ktree (ps ++ [base ++ k :: r]) base (HAcct n par (room (map_next pol) al (length cs)) (cs ++ [child']) posts).
Proof.
  intros T F N' P' T'. inversion T as [? ? ? ? ? ? A N P C]; subst. set (k := hc_name child') in *. pose proof (find_in _ _ F) as I0. rewrite N in I0.
  constructor.
  - rewrite app_length. cbn [length]. rewrite Nat.add_1_r. reflexivity.
  - rewrite map_app, N. cbn [map]. rewrite kids_new by exact I0. reflexivity.
  - intros d D. apply in_app_iff in D as [D|[<-|[]]].
    + rewrite upto_old by (eapply child_kid; eassumption). apply P, D.
    + fold k. rewrite P'. replace (base ++ k :: r) with ((base ++ [k]) ++ r) by (rewrite <- app_assoc; reflexivity). rewrite upto_new; [reflexivity|].
      intros y Y. apply I0, kids_in. exists y. rewrite <- app_assoc in Y. exact Y.
  - intros d D. apply in_app_iff in D as [D|[<-|[]]]; [|exact T']. apply ktree_mono; [apply C, D|]. intros m s Y. rewrite <- app_assoc in Y. apply app_inv_head in Y. injection Y as Y _.
    apply I0. rewrite <- N, Y. apply in_map, D.
Qed.
Lemma kt_leaf ps base k par : ~ In k (kids base ps) -> ktree ps (base ++ [k]) (HAcct k par no_alloc [] []).
Proof.
  intros H. constructor; [reflexivity| |intros c []|intros c []]. destruct (kids (base ++ [k]) ps) as [|m l] eqn:E; [reflexivity|exfalso].
  assert (X : In m (kids (base ++ [k]) ps)) by (rewrite E; left; reflexivity). apply kids_in in X as (r & X). apply H, kids_in. exists (m :: r). rewrite <- app_assoc in X. exact X.
Qed.
Lemma foc_ktree fuel ps : forall self base name t' a, h_find_or_create pol fuel self (here (ps ++ [path_of a]) base) base name = Ok (t', a) ->
  ktree ps base self -> ktree (ps ++ [path_of a]) base t'.
Proof.
  induction fuel as [|f IH]; intros self base name t' a E T; cbn [h_find_or_create] in E; [discriminate|].
  destruct self as [n par al cs posts]. destruct (find_hchild name cs) as [d|] eqn:F1.
  { injection E as <- <-. cbn [path_of]. eapply kt_same; eassumption. }
  destruct (split_first name) as [first rest]. destruct (find_hchild first cs) as [child|] eqn:F.
  - destruct rest as [|c rest]; [injection E as <- <-; cbn [path_of]; eapply kt_same; eassumption|].
    inversion T as [? ? ? ? ? ? A N P C]; subst. pose proof (hfind_name _ _ _ F) as FN. pose proof (hfind_in' _ _ _ F) as FI.
    pose proof (hfoc pol f child (AAcct base (al_gen (aft (length cs))) first) (base ++ [first]) (c :: rest)) as HF.
    destruct (h_find_or_create pol f child (AAcct base (al_gen (aft (length cs))) first) (base ++ [first]) (c :: rest)) as [[child' r]|q|] eqn:ER; cbn [bind] in E; try discriminate.
    injection E as <- <-. destruct HF as ((p & _ & AP) & N' & P' & _). apply acct_path_of in AP. assert (EP : path_of r = base ++ first :: p) by (rewrite AP, <- app_assoc; reflexivity).
    rewrite EP. eapply kt_update; [exact T|exact F|congruence|exact P'|]. rewrite <- EP. apply (IH child _ (c :: rest)).
    + rewrite here_snoc, EP, kids_known by (rewrite <- N; eapply found_in, F). rewrite <- N, map_length. exact ER.
    + rewrite <- FN. apply C, FI.
  - inversion T as [? ? ? ? ? ? A N P C]; subst. pose proof (find_in _ _ F) as I0. rewrite N in I0. destruct rest as [|c rest].
    + injection E as <- <-. cbn [path_of]. apply (kt_new ps base n par _ cs posts first [] _ T F); [reflexivity|reflexivity|].
      apply ktree_mono; [apply kt_leaf, I0|]. intros m s X. rewrite <- (app_nil_r (base ++ [first])) in X at 1. apply app_inv_head in X. discriminate.
    + set (al' := room (map_next pol) (aft (length cs)) (length cs)) in *. set (leaf := HAcct first (Some (here (ps ++ [path_of a]) base)) no_alloc [] []) in *.
      pose proof (hfoc pol f leaf (AAcct base (al_gen al') first) (base ++ [first]) (c :: rest)) as HF.
      destruct (h_find_or_create pol f leaf (AAcct base (al_gen al') first) (base ++ [first]) (c :: rest)) as [[child' r]|q|] eqn:ER; cbn [bind] in E; try discriminate.
      injection E as <- E2. subst r. destruct HF as ((p & _ & AP) & N' & P' & _). apply acct_path_of in AP. assert (EP : path_of a = base ++ first :: p) by (rewrite AP, <- app_assoc; reflexivity).
      cbn [leaf hc_name hc_parent] in N', P'. rewrite EP in *. apply (kt_new ps base n par _ cs posts first p _ T F); [exact N'|exact P'|]. rewrite <- EP. apply (IH leaf _ (c :: rest)).
      * rewrite here_snoc, EP, kids_new by exact I0. rewrite app_length, <- N, map_length. cbn [length]. rewrite Nat.add_1_r. exact ER.
      * apply kt_leaf, I0.
Qed.
Lemma register_ktree ps t name t' a : h_register pol t name = Ok (t', a) -> ktree ps [] t -> ktree (ps ++ [path_of a]) [] t'.
Proof.
  unfold h_register. destruct name as [|c name]; [discriminate|]. intros E T. inv_bind E. destruct v as [t1 a1]. inv_bind E. injection E as <- <-. eapply foc_ktree; [exact EQ|exact T].
Qed.
Lemma push_ktree p : forall ps base t r t', h_push t p r = Ok t' -> ktree ps base t -> ktree ps base t' /\ hc_name t' = hc_name t /\ hc_parent t' = hc_parent t.
Proof.
  induction p as [|k p IH]; intros ps base [n par al cs posts] r t' E T; cbn [h_push] in E.
  - injection E as <-. inversion T as [? ? ? ? ? ? A N P C]; subst. split; [constructor; auto|auto].
  - destruct (find_hchild k cs) as [c|] eqn:F; [|discriminate]. inv_bind E. injection E as <-. inversion T as [? ? ? ? ? ? A N P C]; subst.
    pose proof (hfind_name _ _ _ F) as FN. pose proof (hfind_in' _ _ _ F) as FI. destruct (IH ps (base ++ [k]) _ _ _ EQ) as (T' & N' & P'); [rewrite <- FN; apply C, FI|].
    split; [|auto]. constructor; [rewrite hset_length; reflexivity|rewrite set_names by congruence; exact N| |].
    + intros d D. apply hset_in in D as [->|D]; [|apply P, D]. rewrite P', N'. apply P, FI.
    + intros d D. apply hset_in in D as [->|D]; [|apply C, D]. rewrite N', FN. exact T'.
Qed.

(** ** The reading loops *)
Definition posts_paths (ps : list hpost) : list path := map (fun p => path_of (ho_account p)) ps.
Definition heap_paths (xs : list hxact) : list path := flat_map (fun x => posts_paths (hx_posts x)) xs.
Lemma heap_paths_read h : accounts_read (view h) = heap_paths (h_xacts h).
Proof.
  unfold accounts_read, all_posts, heap_paths. cbn [view j_xacts]. induction (h_xacts h) as [|x xs IH]; cbn [map flat_map]; [reflexivity|].
  rewrite map_app, IH. f_equal. cbn [v_xact x_posts]. unfold posts_paths. rewrite map_map. reflexivity.
Qed.
Definition last_mode (m : hmode) (h : heap) : Prop := match m with HTop => True | HIn a => exists g i, a = AXact g i /\ S i = length (h_xacts h) end.
Definition kinv (m : hmode) (h : heap) : Prop := ktree (heap_paths (h_xacts h)) [] (h_master h) /\ last_mode m h.

Lemma update_last {A} (f : A -> A) xs i : S i = length xs -> exists ys y, xs = ys ++ [y] /\ update_nth i f xs = ys ++ [f y].
Proof.
  intros L. destruct (exists_last (l := xs)) as (ys & y & ->); [intros ->; discriminate|]. exists ys, y. split; [reflexivity|].
  rewrite app_length in L. cbn in L. assert (E : i = length ys) by lia. subst i. clear L. induction ys as [|x ys IH]; cbn; [reflexivity|]. rewrite IH. reflexivity.
Qed.
Lemma heap_paths_app xs ys : heap_paths (xs ++ ys) = heap_paths xs ++ heap_paths ys.
Proof. apply flat_map_app. Qed.
Lemma update_paths xs i f : (forall x, nth_error xs i = Some x -> posts_paths (hx_posts (f x)) = posts_paths (hx_posts x)) -> heap_paths (update_nth i f xs) = heap_paths xs.
Proof.
  revert i. induction xs as [|x xs IH]; intros [|i] H; cbn; try reflexivity.
  - unfold heap_paths. cbn. rewrite H by reflexivity. reflexivity.
  - f_equal. apply IH. exact H.
Qed.
Lemma cost_loop_paths strict pool c puc posts : forall b r, h_cost_loop strict pool c puc posts b = Ok r -> posts_paths (fst r) = posts_paths posts.
Proof.
  induction posts as [|p posts IH]; intros b r E; cbn [h_cost_loop] in E; [injection E as <-; reflexivity|].
  inv_bind E. inv_bind E. inv_bind E. destruct v1 as [p' b']. inv_bind E. destruct v1 as [ps' b'']. injection E as <-. cbn [fst]. unfold posts_paths in *. cbn [map].
  apply IH in EQ2. cbn [fst] in EQ2. rewrite EQ2. f_equal. destruct (ocomm_eqb _ _); [|injection EQ1 as <- _; reflexivity]. inv_bind EQ1. inv_bind EQ1. inv_bind EQ1. injection EQ1 as <- _. reflexivity.
Qed.
Lemma price_loop_paths strict d posts : forall pool r, h_price_loop strict d pool posts = Ok r -> posts_paths (snd r) = posts_paths posts.
Proof.
  induction posts as [|p posts IH]; intros pool r E; cbn [h_price_loop] in E; [injection E as <-; reflexivity|].
  inv_bind E. destruct v as [pool' p']. inv_bind E. destruct v as [pool'' ps']. injection E as <-. cbn [snd]. unfold posts_paths in *. cbn [map]. apply IH in EQ0. cbn [snd] in EQ0. rewrite EQ0. f_equal.
  destruct (ho_cost p) as [cost|]; [|injection EQ as _ <-; reflexivity]. destruct (ho_amount p) as [amt|]; [|discriminate]. inv_bind EQ. inv_bind EQ. destruct (ocomm_eqb _ _); [discriminate|].
  inv_bind EQ. inv_bind EQ. destruct v2 as [bd np]. inv_bind EQ. injection EQ as _ <-. reflexivity.
Qed.
Lemma finalize_paths strict d pool posts r : h_finalize_posts strict d pool posts = Ok r -> posts_paths (snd r) = posts_paths posts.
Proof.
  unfold h_finalize_posts. intros E. inv_bind E. destruct v as [bal np]. destruct (_ =? _); [discriminate|]. inv_bind E. destruct v as [posts1 bal1]. inv_bind E. destruct v as [pool' posts2].
  assert (X : posts_paths posts1 = posts_paths posts).
  { destruct np; [injection EQ0 as <- _; reflexivity|]. unfold h_infer_costs in EQ0. destruct bal as [|x0 [|y0 [|? ?]]]; try (injection EQ0 as <- _; reflexivity).
    destruct (h_top_amount posts); [|injection EQ0 as <- _; reflexivity]. destruct (_ && _); [|injection EQ0 as <- _; reflexivity]. inv_bind EQ0. inv_bind EQ0.
    destruct (if negb _ then _ else _) as [x y]. inv_bind EQ0. inv_bind EQ0. apply cost_loop_paths in EQ0. exact EQ0. }
  apply price_loop_paths in EQ1. cbn [snd] in EQ1. rewrite X in EQ1. rewrite <- EQ1. destruct np as [i|]; [|injection E as <-; reflexivity].
  destruct bal1 as [|b [|? ?]]; try discriminate. inv_bind E. injection E as <-. cbn [snd]. clear. revert i. induction posts2 as [|p ps IH]; intros [|i]; cbn; try reflexivity. unfold posts_paths in *. cbn. f_equal. apply IH.
Qed.
Lemma xact_at h g i r : h_xact h (AXact g i) = Ok r -> fst r = i /\ nth_error (h_xacts h) i = Some (snd r).
Proof. cbn [h_xact]. destruct (_ =? _); [|discriminate]. destruct (nth_error (h_xacts h) i) as [x|]; [|discriminate]. intros E. injection E as <-. auto. Qed.
Lemma finalize_kinv strict h a h' : kinv (HIn a) h -> h_finalize strict h a = Ok h' -> kinv HTop h'.
Proof.
  intros [T (g & i & -> & L)] E. unfold h_finalize in E. inv_bind E. destruct v as [xi x]. destruct (xact_at _ _ _ _ EQ) as [E1 E2]. cbn [fst snd] in E1, E2. subst xi.
  inv_bind E. destruct v as [pool posts]. injection E as <-. split; [|exact I]. cbn [h_xacts h_master]. rewrite update_paths; [exact T|]. intros y Y. assert (y = x) by congruence. subst y. cbn. apply finalize_paths in EQ0. exact EQ0.
Qed.
Lemma note_kinv h a line h' : kinv (HIn a) h -> h_note h a line = Ok h' -> kinv (HIn a) h'.
Proof.
  intros [T (g & i & -> & L)] E. unfold h_note in E. destruct (is_empty _); [injection E as <-; split; [exact T|exists g, i; auto]|]. inv_bind E. destruct v as [xi x].
  destruct (xact_at _ _ _ _ EQ) as [E1 E2]. cbn [fst snd] in E1, E2. subst xi. injection E as <-. split.
  - cbn [h_xacts h_master]. rewrite update_paths; [exact T|]. intros y _. destruct (hx_posts y) as [|p ps] eqn:EP; [reflexivity|]. cbn [set_hposts hx_posts]. generalize (length (p :: ps) - 1). generalize (p :: ps). clear.
    intros l. induction l as [|p l IH]; intros [|k]; cbn; try reflexivity. unfold posts_paths in *. cbn. f_equal. apply IH.
  - exists g, i. split; [reflexivity|]. cbn [h_xacts]. rewrite update_nth_length. exact L.
Qed.
Lemma create_kinv h line r : kinv HTop h -> h_create_xact pol h line = Ok r -> kinv (HIn (snd r)) (fst r).
Proof.
  intros [T _] E. unfold h_create_xact in E. inv_bind E. destruct v as [[[d aux] payee] note]. inv_bind E. injection E as <-. split; cbn [fst snd h_xacts h_master].
  - rewrite heap_paths_app. cbn. rewrite app_nil_r. exact T.
  - cbn [last_mode]. eexists _, _. split; [reflexivity|]. cbn [h_xacts]. rewrite app_length. cbn. lia.
Qed.
Lemma post_kinv h a s h' : kinv (HIn a) h -> h_parse_post pol h a s = Ok h' -> kinv (HIn a) h'.
Proof.
  intros [T (g & i & -> & L)] E. unfold h_parse_post in E. inv_bind E. rename v into t. inv_bind E. destruct v as [m1 acct].
  destruct (h_amount_parts pol (h_pool h) (t_quantity t) (t_symbol t)) as [p1 amt]. inv_bind E. destruct v as [p2 ann]. destruct (hp_find_or_create pol p2 (t_symbol t) (Some ann)) as [p3 c3].
  inv_bind E. destruct v as [p4 cost]. inv_bind E. destruct v as [xi x]. destruct (xact_at _ _ _ _ EQ3) as [E1 E2]. cbn [fst snd] in E1, E2. subst xi. inv_bind E. inv_bind E. injection E as <-.
  split; cbn [h_xacts h_master].
  - match goal with |- context [update_nth i ?f _] => destruct (update_last f _ _ L) as (ys & y & EX & ->) end. rewrite EX in T. rewrite heap_paths_app in *. cbn in T |- *. rewrite app_nil_r in T |- *.
    unfold posts_paths in *. rewrite map_app. cbn [map ho_account]. rewrite app_assoc. eapply push_ktree; [exact EQ5|]. eapply register_ktree; [exact EQ0|exact T].
  - exists g, i. split; [reflexivity|]. cbn [h_xacts]. rewrite update_nth_length. exact L.
Qed.
Definition nkinv (n : hnext) : Prop := match n with HContinue m h => kinv m h | HStop h => kinv HTop h end.
Lemma xact_line_kinv strict h a line n : kinv (HIn a) h -> h_xact_line pol strict h a line = Ok n -> nkinv n.
Proof.
  intros K E. unfold h_xact_line in E.
  assert (F : forall n, (let* h' := h_finalize strict h a in Ok (HContinue HTop h')) = Ok n -> nkinv n) by (intros n0 X; inv_bind X; injection X as <-; eapply finalize_kinv; eassumption).
  assert (P : forall s n, (let* h' := h_parse_post pol h a s in Ok (HContinue (HIn a) h')) = Ok n -> nkinv n) by (intros s n0 X; inv_bind X; injection X as <-; eapply post_kinv; eassumption).
  assert (O : forall s n, (let* h' := h_note h a s in Ok (HContinue (HIn a) h')) = Ok n -> nkinv n) by (intros s n0 X; inv_bind X; injection X as <-; eapply note_kinv; eassumption).
  destruct line as [|c r]; [discriminate|].
  repeat match type of E with
  | context [match ?x with _ => _ end] => is_var x; destruct x; try discriminate; eauto
  | context [match trim_start ?l with _ => _ end] => destruct (trim_start l); eauto
  end.
Qed.
Definition inc_kinv (inc : str -> heap -> outcome heap) : Prop := forall s h h', kinv HTop h -> inc s h = Ok h' -> kinv HTop h'.
Lemma general_kinv inc h line h' : inc_kinv inc -> kinv HTop h -> h_general_directive pol inc h line = Ok h' -> kinv HTop h'.
Proof.
  intros IK K E. unfold h_general_directive in E. destruct (take_word line) as [d rest].
  assert (P : (let* p := h_price_directive pol (h_pool h) line in Ok (mkHeap (h_master h) p (h_xalloc h) (h_xacts h))) = Ok h' -> kinv HTop h') by (intros X; inv_bind X; injection X as <-; exact K).
  destruct d as [|c r]; [discriminate|]. destruct (str_eqb (c :: r) (lit "include")), (str_eqb (c :: r) (lit "import")); destruct (fst (take_word rest));
  repeat match type of E with context [match ?x with _ => _ end] => is_var x; destruct x; try discriminate; eauto end.
Qed.
Lemma top_line_kinv inc h line n : inc_kinv inc -> kinv HTop h -> h_top_line pol inc h line = Ok n -> nkinv n.
Proof.
  intros IK K E. unfold h_top_line in E. destruct (_ || _); [injection E as <-; exact K|]. destruct line as [|c r]; [discriminate|]. destruct (_ || _); [injection E as <-; exact K|].
  destruct (_ =? _)%N; [injection E as <-; exact K|]. destruct (is_digit c).
  - inv_bind E. destruct v as [h1 ptr]. injection E as <-. apply (create_kinv _ _ _ K EQ).
  - destruct (_ || _); [discriminate|]. inv_bind E. injection E as <-. eapply general_kinv; eassumption.
Qed.
Lemma lines_kinv strict inc lines : inc_kinv inc -> forall m h h', kinv m h -> h_parse_lines pol strict inc m h lines = Ok h' -> kinv HTop h'.
Proof.
  intros IK. induction lines as [|l lines IH]; intros m h h' K E; cbn [h_parse_lines] in E.
  - destruct m as [|a]; [injection E as <-; exact K|eapply finalize_kinv; eassumption].
  - inv_bind E. assert (N : nkinv v).
    { unfold h_step in EQ. destruct m as [|a], l as [l|].
      - eapply top_line_kinv; eassumption.
      - injection EQ as <-. exact K.
      - eapply xact_line_kinv; eassumption.
      - inv_bind EQ. injection EQ as <-. eapply finalize_kinv; eassumption. }
    destruct v as [m' h1|h1]; [eapply IH; eassumption|injection E as <-; exact N].
Qed.
Lemma include_kinv strict depth cwd fs : inc_kinv (h_include_file pol strict depth cwd fs).
Proof.
  induction depth as [|d IH]; intros s h h' K E; cbn [h_include_file] in E; [discriminate|]. inv_bind E. destruct v as [src|]; [|injection E as <-; exact K].
  eapply lines_kinv; eassumption.
Qed.
Lemma files_kinv strict depth cwd fs files : forall h h', kinv HTop h -> fold_outcome (fun h f => h_parse_file pol strict depth cwd fs f h) files h = Ok h' -> kinv HTop h'.
Proof.
  induction files as [|f files IH]; intros h h' K E; cbn [fold_outcome] in E; [injection E as <-; exact K|]. inv_bind E. eapply IH; [|exact E].
  unfold h_parse_file in EQ. destruct (fs f) as [src|]; [|discriminate]. eapply lines_kinv; [apply include_kinv|exact K|exact EQ].
Qed.
Lemma read_kinv strict depth cwd fs files h : h_read_files pol strict depth cwd fs files = Ok h -> kinv HTop h.
Proof.
  apply files_kinv. split; [|exact I]. constructor; [reflexivity|reflexivity|intros c []|intros c []].
Qed.

(** ** A report that is defined has followed every pointer *)
Lemma fold_steps {A S} (step : S -> A -> outcome S) l : forall s s', fold_outcome step l s = Ok s' -> forall a, In a l -> exists t t', step t a = Ok t'.
Proof.
  induction l as [|x l IH]; intros s s' E a [].
  - subst x. cbn [fold_outcome] in E. inv_bind E. eauto.
  - cbn [fold_outcome] in E. inv_bind E. eapply IH; eassumption.
Qed.
Lemma kid_sorted {A} (f : hacct -> A) cs c : In c cs -> In (hc_name c, f c) (sort_key (map (fun c => (hc_name c, f c)) cs)).
Proof. intros H. eapply Permutation_in; [apply sort_key_perm|]. apply (in_map (fun c => (hc_name c, f c)) _ _ H). Qed.
Lemma total_followed pool xs p : forall a b s r, h_total pool xs a = Ok b -> get_hacct a p = Some s -> In r (hc_posts s) -> exists q, h_post xs r = Ok q.
Proof.
  induction p as [|n p IH]; intros [k par al cs ps] b s r E G R; cbn [h_total hc_children hc_posts] in E; inv_bind E; inv_bind E.
  - injection G as <-. cbn [hc_posts] in R. unfold h_account_amount in EQ0. destruct (fold_steps _ _ _ _ EQ0 _ R) as (t & t' & X). inv_bind X. eauto.
  - cbn [get_hacct hc_children] in G. destruct (find_hchild n cs) as [c|] eqn:F; [|discriminate]. apply hfind_in' in F.
    destruct (fold_steps _ _ _ _ EQ _ (kid_sorted (h_total pool xs) cs c F)) as (t & t' & X). cbn [snd] in X. inv_bind X. eapply IH; eassumption.
Qed.
Lemma lines_followed h p : forall d a ls s, h_children_lines h d a = Ok ls -> get_hacct a p = Some s -> exists ls', h_children_lines h (d + length p) s = Ok ls'.
Proof.
  induction p as [|n p IH]; intros d [k par al cs ps] ls s E G.
  - injection G as <-. rewrite Nat.add_0_r. eauto.
  - cbn [get_hacct hc_children] in G. destruct (find_hchild n cs) as [c|] eqn:F; [|discriminate]. apply hfind_in' in F.
    cbn [h_children_lines hc_children] in E. inv_bind E. inv_bind E. inv_bind E.
    destruct (fold_steps _ _ _ _ E _ (kid_sorted (h_children_lines h (S d)) cs c F)) as (t & t' & X). cbn [snd] in X. inv_bind X.
    cbn [length]. replace (d + S (length p)) with (S d + length p) by lia. eapply IH; eassumption.
Qed.
Lemma parent_followed h p s b ls : h_balance_report h = Ok ls -> get_hacct (h_master h) p = Some s -> hc_parent s = Some b -> exists q, h_account (h_master h) b = Ok q.
Proof.
  intros E G P. unfold h_balance_report in E. destruct (lines_followed h p 0 _ _ _ E G) as (ls' & X). cbn [Nat.add] in X. destruct s as [k par al cs ps]. cbn [h_children_lines] in X.
  inv_bind X. inv_bind X. inv_bind X. unfold h_fullname in EQ1. rewrite P in EQ1. destruct (length p) as [|f]; cbn [h_up] in EQ1; [discriminate|]. inv_bind EQ1. eauto.
Qed.
Lemma posting_followed h p s r ls : h_balance_report h = Ok ls -> get_hacct (h_master h) p = Some s -> In r (hc_posts s) -> exists q, h_post (h_xacts h) r = Ok q.
Proof.
  intros E G R. unfold h_balance_report in E. destruct (h_master h) as [k par al cs ps] eqn:M. cbn [h_children_lines] in E. rewrite <- M in *. inv_bind E. eapply total_followed; eassumption.
Qed.

(** ** Which pointers are valid *)
Hypothesis GR : grows pol.
Lemma ktree_sub ps t : ktree ps [] t -> forall p s, get_hacct t p = Some s -> ktree ps p s.
Proof.
  intros T p. induction p as [|n q IH] using rev_ind; intros s G; [injection G as <-; exact T|]. rewrite get_snoc in G. destruct (get_hacct t q) as [s0|]; [|discriminate].
  specialize (IH s0 eq_refl). inversion IH as [? ? ? ? ? ? A N P C]; subst. cbn [hc_children] in G. rewrite <- (hfind_name _ _ _ G). apply C, (hfind_in' _ _ _ G).
Qed.
Lemma ktree_get ps p : forall base t r, ktree ps base t -> In (base ++ p ++ r) ps -> exists c, get_hacct t p = Some c.
Proof.
  induction p as [|n p IH]; intros base t r T H; [cbn; eauto|]. inversion T as [? ? ? ? ? ? A N P C]; subst. cbn [get_hacct hc_children].
  assert (X : In n (map hc_name cs)) by (rewrite N; apply kids_in; exists (p ++ r); exact H). destruct (find_hchild n cs) as [c|] eqn:F; [|destruct (find_in _ _ F X)].
  apply (IH (base ++ [n]) c r); [rewrite <- (hfind_name _ _ _ F) at 1; apply C, (hfind_in' _ _ _ F)|]. rewrite <- app_assoc. exact H.
Qed.
Section Tree.
Variables (t : hacct) (ps : list path).
Hypothesis T : ktree ps [] t.
Lemma tree_parent q n c : get_hacct t (q ++ [n]) = Some c -> hc_parent c = Some (here (upto (q ++ [n]) ps) q) /\ (exists x, In ((q ++ [n]) ++ x) ps) /\ exists s, get_hacct t q = Some s.
Proof.
  intros G. rewrite get_snoc in G. destruct (get_hacct t q) as [s|] eqn:E; [|discriminate]. pose proof (ktree_sub _ _ T _ _ E) as T'.
  inversion T' as [? ? ? ? ? ? A N P C]; subst. cbn [hc_children] in G. pose proof (hfind_name _ _ _ G) as HN. pose proof (hfind_in' _ _ _ G) as HI.
  split; [rewrite <- HN at 1; apply P, HI|]. split; [rewrite <- HN; eapply child_kid; eassumption|eauto].
Qed.
Lemma tree_parent_ok q n m c : get_hacct t ((q ++ [n]) ++ [m]) = Some c ->
  exists b a x, ps = b ++ (q ++ n :: m :: x) :: a /\ (forall y, ~ In (q ++ n :: m :: y) b)
  /\ hc_parent c = Some (AAcct q (al_gen (aft (length (kids q (b ++ [q ++ n :: m :: x]))))) n)
  /\ forall g, h_account t (AAcct q g n) = if g =? al_gen (aft (length (kids q ps))) then Ok (q ++ [n]) else Panic PNull.
Proof.
  intros G. destruct (tree_parent _ _ _ G) as (P & X & s & S). destruct (upto_split _ _ X) as (b & a & x & E1 & E2 & E3). rewrite E3, here_snoc in P.
  assert (EA : forall y, ((q ++ [n]) ++ [m]) ++ y = q ++ n :: m :: y) by (intros y; rewrite <- !app_assoc; reflexivity).
  exists b, a, x. rewrite EA in *. split; [exact E1|]. split; [intros y; rewrite <- EA; apply E2|]. split; [exact P|].
  intros g. cbn [h_account]. rewrite get_snoc in S. destruct (get_hacct t q) as [t0|] eqn:Q; [|discriminate]. pose proof (ktree_sub _ _ T _ _ Q) as T'.
  inversion T' as [? ? ? ? ? ? A N P0 C]; subst t0. cbn [hc_alloc hc_children] in *. rewrite S, A, <- N, map_length. reflexivity.
Qed.
End Tree.
Section Heap.
Variable h : heap.
Hypothesis K : kinv HTop h.
Let ps := heap_paths (h_xacts h).
Let parent_is := tree_parent (h_master h) ps (proj1 K).
Let parent_ok := tree_parent_ok (h_master h) ps (proj1 K).
Lemma stay_valid : parents_stay pol (view h) ->
  forall q n c, get_hacct (h_master h) (q ++ [n]) = Some c -> exists b, hc_parent c = Some b /\ h_account (h_master h) b = Ok q /\ exists s, get_hacct (h_master h) q = Some s.
Proof.
  intros S q m c G. destruct (parent_is _ _ _ G) as (P & _ & Q). destruct (path_snoc q) as [->|(q0 & n & ->)]; [exists AMaster; auto|].
  destruct (parent_ok _ _ _ _ G) as (b & a & x & E1 & E2 & P' & HA). eexists. split; [exact P'|]. split; [|exact Q]. rewrite HA.
  assert (L : 1 <= length (kids q0 (b ++ [q0 ++ n :: m :: x])) <= length (kids q0 ps)).
  { split; [apply kids_pos|]. rewrite E1. replace (b ++ (q0 ++ n :: m :: x) :: a) with ((b ++ [q0 ++ n :: m :: x]) ++ a) by (rewrite <- app_assoc; reflexivity). apply kids_mono. }
  rewrite (proj2 (same_alloc (map_next pol) (proj2 GR) _ _ L)); [rewrite Nat.eqb_refl; reflexivity|].
  eapply S; [rewrite heap_paths_read; exact E1|reflexivity|exact E2|apply below_kids; reflexivity|]. rewrite heap_paths_read. apply below_kids. reflexivity.
Qed.
Lemma valid_stay : (forall p c b, get_hacct (h_master h) p = Some c -> hc_parent c = Some b -> exists q, h_account (h_master h) b = Ok q) -> parents_stay pol (view h).
Proof.
  intros V before p after q n m r k k' E -> F B1 B2 M. rewrite heap_paths_read in *. apply below_kids in B1, B2. subst k k'. fold ps in E, M.
  destruct (ktree_get ps (q ++ [n; m]) [] (h_master h) r (proj1 K)) as (c & G); [cbn [app]; rewrite <- app_assoc, E; apply in_app_iff; right; left; reflexivity|].
  replace (q ++ [n; m]) with ((q ++ [n]) ++ [m]) in G by (rewrite <- app_assoc; reflexivity).
  destruct (parent_ok _ _ _ _ G) as (b & a & x & E1 & E2 & P' & HA). destruct (V _ _ _ G P') as (q' & X). rewrite HA in X. destruct (Nat.eqb_spec (al_gen (aft (length (kids q (b ++ [q ++ n :: m :: x]))))) (al_gen (aft (length (kids q ps))))) as [Y|Y]; [|discriminate].
  assert (EB : b ++ [q ++ n :: m :: x] = before ++ [q ++ n :: m :: r]).
  { assert (EA : forall y, (q ++ [n; m]) ++ y = q ++ n :: m :: y) by (intros y; rewrite <- app_assoc; reflexivity).
    pose proof (upto_first (q ++ [n; m]) b x a) as U1. pose proof (upto_first (q ++ [n; m]) before r after) as U2. rewrite (EA x) in U1. rewrite (EA r) in U2.
    etransitivity; [symmetry; apply U1; intros y; rewrite EA; apply E2|]. etransitivity; [|apply U2; intros y; rewrite EA; apply F]. f_equal. etransitivity; [symmetry; exact E1|exact E]. }
  rewrite EB in Y. eapply same_alloc; [exact (proj2 GR)| |exact Y|exact M]. split; [apply kids_pos|].
  etransitivity; [apply (kids_mono q (before ++ [q ++ n :: m :: r]) after)|]. rewrite <- app_assoc. rewrite E. apply le_n.
Qed.
Hypothesis G : good pol HTop h.
Lemma posts_few : reachable_journal (view h) -> (forall p s r, get_hacct (h_master h) p = Some s -> In r (hc_posts s) -> exists q, h_post (h_xacts h) r = Ok q) -> few_postings pol (view h).
Proof.
  intros R V x X. destruct (Nat.le_gt_cases (length (x_posts x)) (vec_next pol 0)) as [|L]; [assumption|exfalso]. apply reachable_inv in R as [_ _ [L1 L2] _ _].
  apply In_nth_error in X as (xi & X). destruct (x_posts x) as [|p0 pr] eqn:XP; [cbn in L; lia|].
  assert (AO : account_of (j_xacts (view h)) (xi, 0) = Some (po_account p0)) by (unfold account_of, get_post; cbn [fst snd]; rewrite X, XP; reflexivity).
  destruct (L2 _ _ AO) as (t & GT). destruct (L1 (po_account p0) (ac_posts t)) as [_ IN]; [unfold posts_at; rewrite GT; reflexivity|]. apply IN in AO.
  cbn [view j_master] in GT. rewrite v_get in GT. destruct (get_hacct (h_master h) (po_account p0)) as [s|] eqn:GS; [|discriminate]. cbn [option_map] in GT. injection GT as <-.
  rewrite v_posts in AO. apply in_map_iff in AO as (a & EA & IA). destruct (V _ _ _ GS IA) as (q & HP).
  destruct (tgood_sub _ _ _ (g_tree _ _ _ G) _ _ GS) as (hr & T & _). inversion T as [? ? ? ? ? A P H C]; subst. cbn [hc_posts] in IA. rewrite Forall_forall in P. destruct (P _ IA) as (xi' & hx & k & -> & N & KL).
  cbn [ref_of] in EA. injection EA as -> ->. cbn [h_post] in HP. rewrite N in HP. pose proof (g_xacts _ _ _ G) as GX. rewrite Forall_forall in GX. destruct (GX hx (nth_error_In _ _ N)) as [_ AL]. rewrite AL in HP.
  cbn [view j_xacts] in X. rewrite nth_error_map, N in X. cbn [option_map] in X. injection X as <-. cbn [v_xact x_posts] in XP. assert (LX : length (hx_posts hx) = length (p0 :: pr)) by (rewrite <- XP, map_length; reflexivity).
  destruct (Nat.eqb_spec (al_gen (after (vec_next pol) 1)) (al_gen (after (vec_next pol) (length (hx_posts hx))))) as [Y|Y]; [|discriminate].
  pose proof (proj1 GR 0) as G0. apply same_alloc in Y; [|exact (proj1 GR)|lia]. apply Y. exists (vec_next pol 0). split; [exists 0; reflexivity|]. lia.
Qed.
Lemma report_few ls : reachable_journal (view h) -> h_balance_report h = Ok ls -> few_postings pol (view h) /\ parents_stay pol (view h).
Proof.
  intros R E. split.
  - apply posts_few; [exact R|]. intros p s r GS IR. eapply posting_followed; eassumption.
  - apply valid_stay. intros p c b GS P. eapply parent_followed; eassumption.
Qed.
Lemma few_report : reachable_journal (view h) -> few_postings pol (view h) -> parents_stay pol (view h) -> h_balance_report h <> Panic PNull.
Proof.
  intros R F S. apply reachable_inv in R as [W _ _ _ _]. apply (fine_not any). apply (lines_fine pol GR h G) with (p := []); [|apply stay_valid, S|exact W|reflexivity].
  intros x X. specialize (F (v_xact x)). cbn [view j_xacts v_xact x_posts] in F. rewrite map_length in F. apply F, in_map, X.
Qed.
End Heap.
End Program.

(** ** The command *)
Section Command.
Variable pol : policy.
Hypothesis GR : grows pol.
Lemma balance_heap strict depth cwd fs args verb cmds files j : process_arguments args = Ok (verb :: cmds, files) -> balance_verb verb ->
  read_journal_files depth cwd fs files = Ok j -> few_commodities pol j -> (strict = true -> all_priced j) ->
  exists h, view h = j /\ kinv pol HTop h /\ good pol HTop h /\ reachable_journal (view h)
  /\ h_run pol strict depth cwd fs args = h_balance_report h /\ run depth cwd fs args = balance_report j.
Proof.
  intros A V R F S. destruct (files_good pol strict GR depth cwd fs files j R) as (h & E & VH & G); [split; [exact F|intros T; apply unpriced_all, S, T]|].
  exists h. split; [exact VH|]. split; [apply (read_kinv pol strict _ _ _ _ _ E)|]. split; [exact G|]. split; [rewrite VH; eapply files_reachable, R|].
  unfold h_run, run. rewrite A. cbn [bind]. unfold h_execute_command, execute_command. cbn [nth_error unwrap bind]. rewrite E, R. cbn [bind].
  destruct V as [->|[->| ->]]; auto.
Qed.
Lemma report_defined strict depth cwd fs args verb cmds files j : process_arguments args = Ok (verb :: cmds, files) -> balance_verb verb ->
  read_journal_files depth cwd fs files = Ok j -> few_commodities pol j -> few_postings pol j -> parents_stay pol j -> (strict = true -> all_priced j) ->
  h_run pol strict depth cwd fs args = run depth cwd fs args.
Proof.
  intros A V R F F2 F3 S. destruct (agree_or _ _ (run_agree pol strict depth cwd fs args)) as [E|E]; [|exact E]. exfalso.
  destruct (balance_heap strict depth cwd fs args verb cmds files j A V R F S) as (h & <- & K & G & RJ & E1 & _). rewrite E1 in E. revert E. eapply few_report; eassumption.
Qed.
Lemma report_exact strict depth cwd fs args verb cmds files j out : process_arguments args = Ok (verb :: cmds, files) -> balance_verb verb ->
  read_journal_files depth cwd fs files = Ok j -> few_commodities pol j -> (strict = true -> all_priced j) -> run depth cwd fs args = Ok out ->
  (h_run pol strict depth cwd fs args = Ok out <-> few_postings pol j /\ parents_stay pol j).
Proof.
  intros A V R F S O. split.
  - intros E. destruct (balance_heap strict depth cwd fs args verb cmds files j A V R F S) as (h & <- & K & G & RJ & E1 & _). rewrite E1 in E. eapply report_few; eassumption.
  - intros [F2 F3]. rewrite <- O. eapply report_defined; eassumption.
Qed.
(** Few accounts beside each other are a special case. *)
Lemma few_stay depth cwd fs files j : read_journal_files depth cwd fs files = Ok j -> few_children pol j -> parents_stay pol j.
Proof.
  intros R F before p after q n m r k k' E -> B B1 B2 (c & (i & ->) & L). apply files_reachable in R. pose proof (iter_ge (map_next pol) (proj2 GR) i).
  assert (k' <= map_next pol 0); [|lia].
  assert (X : exists s, get_account (j_master j) q = Some s).
  { assert (IP : In (q ++ n :: m :: r) (accounts_read j)) by (rewrite E; apply in_app_iff; right; left; reflexivity). unfold accounts_read in IP. apply in_map_iff in IP as (p & EP & IP).
    apply (posting_exists j p q R IP). rewrite EP. clear. induction q as [|a q IH]; cbn [prefix_of app]; [reflexivity|]. rewrite IH. assert (str_eqb a a = true) as -> by (apply str_eqb_eq; reflexivity). reflexivity. }
  destruct X as (s & GS). etransitivity; [|apply (F _ _ GS)]. destruct B2 as (ns & N & <- & H1). rewrite <- (map_length ac_name). apply NoDup_incl_length; [exact N|].
  intros x X. apply H1 in X as (r' & X). unfold accounts_read in X. apply in_map_iff in X as (p & EP & IP).
  assert (Y : exists_at (j_master j) (q ++ [x])).
  { apply (posting_exists j p _ R IP). rewrite EP. clear. induction q as [|a q IH]; cbn [prefix_of app]; [assert (str_eqb x x = true) as -> by (apply str_eqb_eq; reflexivity); reflexivity|]. rewrite IH. assert (str_eqb a a = true) as -> by (apply str_eqb_eq; reflexivity). reflexivity. }
  destruct Y as (t & GT). clear -GS GT. revert GS GT. generalize (j_master j). induction q as [|a q IH]; intros t0 GS GT; cbn [get_account app] in *.
  - injection GS as ->. destruct (find_child x (ac_children s)) as [d|] eqn:FD; [|discriminate]. apply find_child_some in FD as [FD <-]. apply in_map, FD.
  - destruct (find_child a (ac_children t0)); [|discriminate]. eapply IH; eassumption.
Qed.
End Command.
