(** Facts about account totals and the reports. *)
From Coq Require Import List NArith ZArith Bool Lia Sorted Permutation.
From Verif Require Import Base Decimal Dates Amount Balance Pool Account Journal Xact Report.
From Verif Require Import SpecDecimal SpecAmount SpecAccount SpecXact SpecJournal SpecReport.
From Verif Require Import BaseFacts DecimalFacts BalanceFacts AccountFacts AccountProofs JournalFacts.
Import ListNotations.
Open Scope nat_scope.

(** ** Children in the order of their names *)
Definition kids (a : account) : list account := map snd (sort_key (map (fun c => (ac_name c, c)) (ac_children a))).
Lemma kids_perm a : Permutation (ac_children a) (kids a).
Proof.
  unfold kids. rewrite <- sort_key_perm, map_map. cbn. rewrite map_id. reflexivity.
Qed.
Lemma kids_in a c : In c (kids a) <-> In c (ac_children a).
Proof. split; apply Permutation_in; [symmetry|]; apply kids_perm. Qed.
Lemma sorted_subs {B} (f : account -> B) a :
  sort_key (map (fun c => (ac_name c, f c)) (ac_children a)) = map (fun c => (ac_name c, f c)) (kids a).
Proof.
  unfold kids. set (l := map (fun c => (ac_name c, c)) (ac_children a)).
  assert (E : map (fun c => (ac_name c, f c)) (ac_children a) = map (fun p => (fst p, f (snd p))) l).
  { unfold l. rewrite map_map. reflexivity. }
  rewrite E, sort_key_map, map_map.
  assert (K : Forall (fun p => fst p = ac_name (snd p)) (sort_key l)).
  { eapply Permutation_Forall; [apply sort_key_perm|]. unfold l. apply Forall_map, Forall_forall. reflexivity. }
  induction K as [|p r Hp _ IH]; cbn; [reflexivity|]. rewrite IH, Hp. reflexivity.
Qed.

Lemma account_ind' (P : account -> Prop) :
  (forall n cs ps, (forall c, In c cs -> P c) -> P (Acct n cs ps)) -> forall a, P a.
Proof.
  intros H. fix IH 1. intros [n cs ps]. apply H. induction cs as [|c cs IHcs]; [intros ? []|].
  intros c' [<-|Hc]; [apply IH|apply IHcs, Hc].
Qed.

(** ** Postings at and below an account, in the order of the totals *)
Fixpoint sub_refs (a : account) : list postref :=
  concat (map snd (sort_key (map (fun c => (ac_name c, sub_refs c)) (ac_children a)))) ++ ac_posts a.
Lemma sub_refs_eq a : sub_refs a = concat (map sub_refs (kids a)) ++ ac_posts a.
Proof. destruct a as [n cs ps]. cbn [sub_refs]. rewrite sorted_subs, map_map. reflexivity. Qed.

Lemma account_total_eq xs a :
  account_total xs a =
  let* t := fold_outcome (fun t c => let* b := account_total xs c in bal_add_bal t b) (kids a) bal_new in
  let* own := account_amount xs (ac_posts a) in
  bal_add_bal t own.
Proof.
  destruct a as [n cs ps]. cbn [account_total]. rewrite sorted_subs.
  match goal with |- bind ?x _ = bind ?y _ => assert (E : x = y) end.
  { generalize bal_new. induction (kids (Acct n cs ps)) as [|c l IH]; intros t; cbn; [reflexivity|].
    destruct (account_total xs c); cbn; [|reflexivity|reflexivity]. destruct (bal_add_bal t a); cbn; auto. }
  rewrite E. reflexivity.
Qed.

Definition amounts_at (xs : list xact) (refs : list postref) : list amount :=
  flat_map (fun r => match get_post xs r with Some p => match po_amount p with Some a => [a] | None => [] end | None => [] end) refs.
Lemma amounts_at_app xs l1 l2 : amounts_at xs (l1 ++ l2) = amounts_at xs l1 ++ amounts_at xs l2.
Proof. apply flat_map_app. Qed.

Definition resolves (xs : list xact) (refs : list postref) : Prop := Forall (fun r => get_post xs r <> None) refs.

Lemma amount_fold xs refs : resolves xs refs -> forall b,
  fold_outcome (fun bal r => match get_post xs r with
       | None => Panic PNull
       | Some p => match po_amount p with Some a => bal_add bal a | None => Ok bal end
       end) refs b = fold_outcome bal_add (amounts_at xs refs) b.
Proof.
  induction 1 as [|r refs Hr _ IH]; intros b; cbn [fold_outcome amounts_at flat_map]; [reflexivity|].
  destruct (get_post xs r) as [p|]; [|congruence]. destruct (po_amount p) as [a|]; cbn [app fold_outcome].
  - destruct (bal_add b a) as [b'| |]; cbn; [apply IH|reflexivity|reflexivity].
  - cbn [bind]. apply IH.
Qed.
Lemma account_amount_spec xs refs :
  resolves xs refs -> fits_amts (amounts_at xs refs) ->
  exists b, account_amount xs refs = Ok b /\ is_balance_of b (amounts_at xs refs).
Proof.
  intros R F. unfold account_amount. rewrite amount_fold by exact R.
  apply bal_of_list; [apply F|]. intros c n. apply fits_amts_prefix, F.
Qed.

Lemma totals_fold xs cs : forall t l,
  is_balance_of t l ->
  (forall c, In c cs -> exists b, account_total xs c = Ok b /\ is_balance_of b (amounts_at xs (sub_refs c))) ->
  fits_amts (l ++ amounts_at xs (concat (map sub_refs cs))) ->
  exists t', fold_outcome (fun t c => let* b := account_total xs c in bal_add_bal t b) cs t = Ok t'
    /\ is_balance_of t' (l ++ amounts_at xs (concat (map sub_refs cs))).
Proof.
  induction cs as [|c cs IH]; intros t l T H F; cbn [fold_outcome map concat].
  - exists t. rewrite app_nil_r. auto.
  - destruct (H c) as (b & E & B); [left; reflexivity|]. rewrite E. cbn [bind map concat] in *.
    rewrite amounts_at_app, app_assoc in F.
    destruct (bal_add_bal_spec t l b _ T B) as (t1 & E1 & T1).
    + intros k. apply fits_amts_total. apply fits_amts_app1 in F. apply fits_amts_app1 in F. exact F.
    + intros k. apply fits_amts_total. apply fits_amts_app1 in F. exact F.
    + rewrite E1. cbn [bind]. rewrite amounts_at_app, app_assoc. apply IH; [exact T1| |exact F].
      intros c' Hc. apply H. right. exact Hc.
Qed.

Lemma concat_in {A B} (f : A -> list B) l x : In x (concat (map f l)) <-> exists a, In a l /\ In x (f a).
Proof. rewrite <- flat_map_concat_map. apply in_flat_map. Qed.

Lemma concat_split {A B} (f : A -> list B) l a : In a l -> exists r, Permutation (concat (map f l)) (f a ++ r).
Proof.
  intros H. apply in_split in H as (l1 & l2 & ->). exists (concat (map f l1) ++ concat (map f l2)).
  rewrite map_app, concat_app. cbn. rewrite app_assoc, (Permutation_app_comm (concat (map f l1))), <- app_assoc. reflexivity.
Qed.
Lemma amounts_at_perm xs l1 l2 : Permutation l1 l2 -> Permutation (amounts_at xs l1) (amounts_at xs l2).
Proof. apply Permutation_flat_map. Qed.

Lemma account_total_spec xs a :
  resolves xs (sub_refs a) -> fits_amts (amounts_at xs (sub_refs a)) ->
  exists b, account_total xs a = Ok b /\ is_balance_of b (amounts_at xs (sub_refs a)).
Proof.
  induction a as [n cs ps IH] using account_ind'. intros R F. rewrite account_total_eq.
  rewrite sub_refs_eq in *. apply Forall_app in R as [R1 R2]. rewrite amounts_at_app in *.
  destruct (totals_fold xs (kids (Acct n cs ps)) bal_new []) as (t & E & T).
  - apply is_balance_of_nil.
  - intros c Hc. apply IH.
    + apply kids_in in Hc. exact Hc.
    + apply Forall_forall. intros r Hr. unfold resolves in R1. rewrite Forall_forall in R1. apply R1. apply concat_in. eauto.
    + destruct (concat_split sub_refs _ _ Hc) as (r & Hr). apply fits_amts_app1 in F.
      eapply fits_amts_perm in F; [|apply amounts_at_perm, Hr]. rewrite amounts_at_app in F. apply fits_amts_app1 in F. exact F.
  - apply fits_amts_app1 in F. exact F.
  - rewrite E. cbn [bind app ac_posts] in *. destruct (account_amount_spec xs ps R2 (fits_amts_app2 _ _ F)) as (own & E2 & B2).
    rewrite E2. cbn [bind]. apply bal_add_bal_spec; [exact T|exact B2| |].
    + intros k. apply fits_amts_total. apply fits_amts_app1 in F. exact F.
    + intros k. apply fits_amts_total, F.
Qed.

(** ** Which postings these are *)
Lemma sub_refs_in a : wf_tree a -> forall r, In r (sub_refs a) <-> exists q l, posts_at a q = Some l /\ In r l.
Proof.
  induction 1 as [n cs ps ND NC Wc IH]. intros r. rewrite sub_refs_eq, in_app_iff, concat_in. cbn [ac_posts]. split.
  - intros [(c & Hc & Hr)|Hr]; [|exists [], ps; split; [reflexivity|exact Hr]].
    apply kids_in in Hc. cbn [ac_children] in Hc. apply IH in Hr; [|exact Hc]. destruct Hr as (q & l & Hq & Hl).
    exists (ac_name c :: q), l. rewrite posts_at_cons. cbn [ac_children]. rewrite find_child_in by assumption. auto.
  - intros (q & l & Hq & Hl). destruct q as [|k q]; [injection Hq as <-; right; exact Hl|].
    rewrite posts_at_cons in Hq. cbn [ac_children] in Hq. destruct (find_child k cs) as [c|] eqn:E; [|discriminate].
    apply find_child_some in E as [Hc _]. left. exists c. split; [apply kids_in; exact Hc|]. apply IH; [exact Hc|]. eauto.
Qed.

Lemma NoDup_app' {A} (l1 l2 : list A) : NoDup l1 -> NoDup l2 -> (forall x, In x l1 -> ~ In x l2) -> NoDup (l1 ++ l2).
Proof.
  induction 1 as [|x l1 Hx _ IH]; intros N2 D; [exact N2|]. cbn. constructor.
  - rewrite in_app_iff. intros [H|H]; [auto|]. exact (D x (or_introl eq_refl) H).
  - apply IH; [exact N2|]. intros y Hy. apply D. right. exact Hy.
Qed.
Lemma NoDup_concat {A B} (f : A -> list B) l :
  NoDup l -> (forall a, In a l -> NoDup (f a)) ->
  (forall a b x, In a l -> In b l -> In x (f a) -> In x (f b) -> a = b) -> NoDup (concat (map f l)).
Proof.
  induction 1 as [|a l Ha _ IH]; intros N D; cbn; [constructor|]. apply NoDup_app'.
  - apply N. left. reflexivity.
  - apply IH; [intros; apply N; right; assumption|]. intros b c x Hb Hc. apply D; right; assumption.
  - intros x H1 H2. apply concat_in in H2 as (b & Hb & Hx). assert (a = b) by (eapply D; [left; reflexivity|right; exact Hb|exact H1|exact Hx]).
    subst b. contradiction.
Qed.
Lemma NoDup_map_inv' {A B} (f : A -> B) l : NoDup (map f l) -> NoDup l.
Proof. apply NoDup_map_inv. Qed.

Lemma sub_refs_nodup a : wf_tree a ->
  (forall q l, posts_at a q = Some l -> NoDup l) ->
  (forall q1 q2 l1 l2 r, posts_at a q1 = Some l1 -> posts_at a q2 = Some l2 -> In r l1 -> In r l2 -> q1 = q2) ->
  NoDup (sub_refs a).
Proof.
  induction 1 as [n cs ps ND NC Wc IH]. intros N D. rewrite sub_refs_eq. cbn [ac_posts].
  assert (P : forall c, In c cs -> forall q, posts_at (Acct n cs ps) (ac_name c :: q) = posts_at c q).
  { intros c Hc q. rewrite posts_at_cons. cbn [ac_children]. rewrite find_child_in by assumption. reflexivity. }
  apply NoDup_app'.
  - apply NoDup_concat.
    + eapply Permutation_NoDup; [apply kids_perm|]. exact (NoDup_map_inv _ _ ND).
    + intros c Hc. apply kids_in in Hc. cbn [ac_children] in Hc. apply IH; [exact Hc| |].
      * intros q l Hl. apply (N (ac_name c :: q)). rewrite P; assumption.
      * intros q1 q2 l1 l2 r H1 H2 R1 R2. rewrite <- (P c Hc) in H1, H2. pose proof (D _ _ _ _ _ H1 H2 R1 R2) as E. congruence.
    + intros c d r Hc Hd R1 R2. apply kids_in in Hc. apply kids_in in Hd. cbn [ac_children] in Hc, Hd.
      apply sub_refs_in in R1; [|auto]. apply sub_refs_in in R2; [|auto].
      destruct R1 as (q1 & l1 & H1 & R1), R2 as (q2 & l2 & H2 & R2). rewrite <- (P c Hc) in H1. rewrite <- (P d Hd) in H2.
      pose proof (D _ _ _ _ _ H1 H2 R1 R2) as E. injection E as E _.
      pose proof (find_child_in c cs ND Hc) as F1. pose proof (find_child_in d cs ND Hd) as F2. congruence.
  - apply (N []). reflexivity.
  - intros r Hr Hp. apply concat_in in Hr as (c & Hc & Hr). apply kids_in in Hc. cbn [ac_children] in Hc.
    apply sub_refs_in in Hr; [|auto]. destruct Hr as (q & l & Hq & Hl). rewrite <- (P c Hc) in Hq.
    pose proof (D _ [] _ ps _ Hq eq_refl Hl Hp). discriminate.
Qed.

(** ** All postings of the journal *)
Definition xrefs (i : nat) (x : xact) : list postref := map (fun k => (i, k)) (seq 0 (length (x_posts x))).
Fixpoint refs_from (i : nat) (xs : list xact) : list postref :=
  match xs with [] => [] | x :: xs' => xrefs i x ++ refs_from (S i) xs' end.

Lemma nth_seq {A B} (g : option A -> B) (l : list A) :
  map (fun k => g (nth_error l k)) (seq 0 (length l)) = map (fun x => g (Some x)) l.
Proof.
  induction l as [|x l IH]; [reflexivity|]. cbn [length seq map nth_error]. f_equal.
  rewrite <- seq_shift, map_map. exact IH.
Qed.
Lemma refs_from_posts i pre xs : length pre = i ->
  map (get_post (pre ++ xs)) (refs_from i xs) = map Some (flat_map x_posts xs).
Proof.
  revert i pre; induction xs as [|x xs IH]; intros i pre L; [reflexivity|]. cbn [refs_from flat_map].
  rewrite !map_app. f_equal.
  - unfold xrefs. rewrite map_map. unfold get_post. cbn [fst snd].
    assert (nth_error (pre ++ x :: xs) i = Some x) as -> by (rewrite nth_error_app2, L, Nat.sub_diag by lia; reflexivity).
    rewrite (nth_seq (fun o => o)). reflexivity.
  - change (x :: xs) with ([x] ++ xs). rewrite app_assoc. apply IH. rewrite app_length. cbn. lia.
Qed.
Lemma refs_from_in i xs r :
  In r (refs_from i xs) <-> i <= fst r /\ exists x, nth_error xs (fst r - i) = Some x /\ snd r < length (x_posts x).
Proof.
  revert i; induction xs as [|x xs IH]; intros i; cbn [refs_from].
  - split; [intros []|]. intros (_ & x & H & _). destruct (fst r - i); discriminate.
  - rewrite in_app_iff, IH. unfold xrefs. rewrite in_map_iff. split.
    + intros [(k & <- & Hk)|(L & y & Hy & Hs)].
      * cbn. apply in_seq in Hk. split; [lia|]. exists x. rewrite Nat.sub_diag. split; [reflexivity|lia].
      * split; [lia|]. exists y. replace (fst r - i) with (S (fst r - S i)) by lia. auto.
    + intros (L & y & Hy & Hs). destruct (fst r - i) as [|k] eqn:E.
      * left. injection Hy as <-. exists (snd r). split; [destruct r; cbn in *; f_equal; lia|]. apply in_seq. lia.
      * right. split; [lia|]. exists y. replace (fst r - S i) with k by lia. auto.
Qed.
Lemma refs_from_nodup i xs : NoDup (refs_from i xs).
Proof.
  revert i; induction xs as [|x xs IH]; intros i; cbn [refs_from]; [constructor|]. apply NoDup_app'.
  - unfold xrefs. apply FinFun.Injective_map_NoDup; [intros a b E; congruence|apply seq_NoDup].
  - apply IH.
  - intros r Hr. unfold xrefs in Hr. apply in_map_iff in Hr as (k & <- & _). rewrite refs_from_in. cbn. lia.
Qed.
Lemma all_refs_in xs r : In r (refs_from 0 xs) <-> exists q, account_of xs r = Some q.
Proof.
  rewrite refs_from_in. unfold account_of, get_post. rewrite Nat.sub_0_r. destruct (nth_error xs (fst r)) as [x|].
  - split.
    + intros (_ & y & [= <-] & H). apply nth_error_Some in H. destruct (nth_error (x_posts x) (snd r)); [cbn; eauto|congruence].
    + intros (q & H). split; [lia|]. exists x. split; [reflexivity|]. apply nth_error_Some. destruct (nth_error (x_posts x) (snd r)); [discriminate|discriminate].
  - split; [intros (_ & y & H & _)|intros (q & H)]; discriminate.
Qed.

Lemma amounts_at_filter (f : path -> bool) xs refs ps :
  map (get_post xs) refs = map Some ps ->
  amounts_at xs (filter (fun r => match account_of xs r with Some q => f q | None => false end) refs)
  = amounts_of (filter (fun p => f (po_account p)) ps).
Proof.
  revert ps; induction refs as [|r refs IH]; intros [|p ps] E; cbn [map] in E; try discriminate; [reflexivity|].
  injection E as E1 E. cbn [filter]. unfold account_of at 1. rewrite E1. cbn [option_map].
  destruct (f (po_account p)); [|apply IH, E]. unfold amounts_at, amounts_of. cbn [flat_map]. rewrite E1. f_equal. apply IH, E.
Qed.

(** The postings listed at and below an account are the ones that name it or an account below it. *)
Lemma sub_refs_perm j q a :
  wf_tree (j_master j) -> lists_own_postings j -> get_account (j_master j) q = Some a ->
  Permutation (sub_refs a)
    (filter (fun r => match account_of (j_xacts j) r with Some p => prefix_of q p | None => false end) (refs_from 0 (j_xacts j))).
Proof.
  intros W [L1 L2] G. pose proof (wf_get _ _ _ W G) as Wa.
  assert (P : forall p, posts_at a p = posts_at (j_master j) (q ++ p)).
  { intros p. unfold posts_at. rewrite get_account_app, G. reflexivity. }
  apply NoDup_Permutation.
  - apply sub_refs_nodup; [exact Wa| |].
    + intros p l Hl. rewrite P in Hl. apply L1 in Hl as [S _]. clear -S. induction S as [|r l S IH F]; constructor; [|exact IH].
      intros H. rewrite Forall_forall in F. specialize (F r H). unfold ref_lt in F. lia.
    + intros q1 q2 l1 l2 r H1 H2 R1 R2. rewrite P in H1, H2. apply L1 in H1 as [_ I1]. apply L1 in H2 as [_ I2].
      apply I1 in R1. apply I2 in R2. rewrite R1 in R2. injection R2 as E. apply app_inv_head in E. exact E.
  - apply NoDup_filter, refs_from_nodup.
  - intros r. rewrite filter_In, sub_refs_in by exact Wa. split.
    + intros (p & l & Hp & Hl). rewrite P in Hp. apply L1 in Hp as [_ I]. apply I in Hl.
      split; [apply all_refs_in; eauto|]. rewrite Hl. apply prefix_of_app.
    + intros [_ H]. destruct (account_of (j_xacts j) r) as [p|] eqn:E; [|discriminate]. apply prefix_of_iff in H as (p' & ->).
      pose proof (L2 _ _ E) as X. apply posts_at_exists in X. destruct (posts_at (j_master j) (q ++ p')) as [l|] eqn:El; [|congruence].
      exists p', l. rewrite P. split; [exact El|]. apply L1 in El as [_ I]. apply I, E.
Qed.
Lemma sub_refs_amounts j q a :
  wf_tree (j_master j) -> lists_own_postings j -> get_account (j_master j) q = Some a ->
  Permutation (amounts_at (j_xacts j) (sub_refs a)) (amounts_of (posts_below j q)) /\ resolves (j_xacts j) (sub_refs a).
Proof.
  intros W L G. pose proof (sub_refs_perm j q a W L G) as P. split.
  - rewrite (amounts_at_perm _ _ _ P). rewrite (amounts_at_filter (prefix_of q) _ _ (all_posts j)).
    + reflexivity.
    + exact (refs_from_posts 0 [] (j_xacts j) eq_refl).
  - unfold resolves. eapply Permutation_Forall; [symmetry; exact P|]. apply Forall_forall. intros r Hr.
    apply filter_In in Hr as [_ Hr]. unfold account_of in Hr. destruct (get_post (j_xacts j) r); [discriminate|discriminate].
Qed.

(** ** Alphabetical order *)
Lemma str_lt_leb a b : str_lt a b <-> str_leb a b = true /\ a <> b.
Proof.
  revert b; induction a as [|x a IH]; intros [|y b]; cbn [str_lt str_leb].
  - split; [intros []|intros [_ H]; congruence].
  - split; [intros _; split; [reflexivity|discriminate]|tauto].
  - split; [intros []|intros [H _]; discriminate].
  - destruct (N.ltb_spec x y) as [H|H]; [split; [intros _; split; [reflexivity|congruence || (intros [= E _]; lia)]|auto]|].
    destruct (N.eqb_spec x y) as [->|N].
    + rewrite IH. split.
      * intros [H'|[_ [H1 H2]]]; [lia|]. split; [exact H1|congruence].
      * intros [H1 H2]. right. split; [reflexivity|]. split; [exact H1|congruence].
    + split; [intros [H'|[H' _]]; [lia|congruence]|intros [H' _]; discriminate].
Qed.
Lemma str_lt_trans a b c : str_lt a b -> str_lt b c -> str_lt a c.
Proof.
  rewrite !str_lt_leb. intros [H1 H2] [H3 H4]. split; [eapply str_leb_trans; eassumption|].
  intros ->. apply H2. apply str_leb_antisym; assumption.
Qed.
Lemma str_lt_irrefl a : ~ str_lt a a.
Proof. rewrite str_lt_leb. intros [_ H]. congruence. Qed.
Lemma path_lt_irrefl p : ~ path_lt p p.
Proof. induction p as [|x p IH]; cbn; [auto|]. intros [H|[_ H]]; [exact (str_lt_irrefl _ H)|auto]. Qed.
Lemma path_lt_app p q r : path_lt q r -> path_lt (p ++ q) (p ++ r).
Proof. induction p as [|x p IH]; cbn; auto. Qed.

Lemma kids_sorted a : NoDup (map ac_name (ac_children a)) ->
  StronglySorted (fun c d => str_lt (ac_name c) (ac_name d)) (kids a).
Proof.
  intros N. assert (N' : NoDup (map ac_name (kids a))).
  { eapply Permutation_NoDup; [apply Permutation_map, kids_perm|exact N]. }
  assert (S : StronglySorted (fun c d => str_leb (ac_name c) (ac_name d) = true) (kids a)).
  { pose proof (sort_key_sorted (map (fun c => (ac_name c, c)) (ac_children a))) as S.
    rewrite (sorted_subs (fun c => c)) in S. clear -S. remember (kids a) as l eqn:E. clear E.
    induction l as [|c l IH]; [constructor|]. cbn in S. inversion S as [|? ? S' F]; subst. constructor; [apply IH, S'|].
    rewrite Forall_map in F. exact F. }
  revert N'. induction S as [|c l S IH F]; intros N'; [constructor|]. cbn in N'. inversion N' as [|? ? Nc Nl]; subst.
  constructor; [auto|]. rewrite Forall_forall in *. intros d Hd. apply str_lt_leb. split; [apply F, Hd|].
  intros E. apply Nc. rewrite E. apply in_map, Hd.
Qed.

(** Paths of the accounts at and below an account, relative to it. *)
Fixpoint sub_paths (a : account) : list path :=
  [] :: concat (map snd (sort_key (map (fun c => (ac_name c, map (cons (ac_name c)) (sub_paths c))) (ac_children a)))).
Lemma sub_paths_eq a : sub_paths a = [] :: concat (map (fun c => map (cons (ac_name c)) (sub_paths c)) (kids a)).
Proof. destruct a as [n cs ps]. cbn [sub_paths]. rewrite sorted_subs, map_map. reflexivity. Qed.

Lemma sorted_app {A} (R : A -> A -> Prop) l1 l2 :
  StronglySorted R l1 -> StronglySorted R l2 -> (forall x y, In x l1 -> In y l2 -> R x y) -> StronglySorted R (l1 ++ l2).
Proof.
  induction 1 as [|x l1 S IH F]; intros S2 H; [exact S2|]. cbn. constructor.
  - apply IH; [exact S2|]. intros; apply H; [right|]; assumption.
  - apply Forall_app. split; [exact F|]. apply Forall_forall. intros y Hy. apply H; [left; reflexivity|exact Hy].
Qed.
Lemma sub_paths_order a : wf_tree a -> in_order a (sub_paths a).
Proof.
  induction 1 as [n cs ps ND NC Wc IH]. rewrite sub_paths_eq. split.
  - constructor.
    + pose proof (kids_sorted (Acct n cs ps) ND) as S.
      assert (K : forall c, In c (kids (Acct n cs ps)) -> In c cs) by (intros c Hc; apply kids_in in Hc; exact Hc).
      induction S as [|c l S IHl F]; cbn; [constructor|]. apply sorted_app.
      * destruct (IH c) as [Sc _]; [apply K; left; reflexivity|]. clear -Sc. induction Sc as [|p l S IH F]; cbn; constructor; [exact IH|].
        rewrite Forall_map. eapply Forall_impl; [|exact F]. cbn. intros q Hq. right. auto.
      * apply IHl. intros d Hd. apply K. right. exact Hd.
      * intros p q Hp Hq. apply in_map_iff in Hp as (p' & <- & _). apply concat_in in Hq as (d & Hd & Hq).
        apply in_map_iff in Hq as (q' & <- & _). left. rewrite Forall_forall in F. apply F, Hd.
    + apply Forall_forall. intros p Hp. apply concat_in in Hp as (d & _ & Hp). apply in_map_iff in Hp as (q' & <- & _). exact Logic.I.
  - intros p. cbn [In]. rewrite concat_in. split.
    + intros [<-|(c & Hc & Hp)]; [eexists; reflexivity|]. apply kids_in in Hc. cbn [ac_children] in Hc.
      apply in_map_iff in Hp as (q & <- & Hq). apply IH in Hq; [|exact Hc]. destruct Hq as [a Ha]. exists a.
      rewrite get_account_cons. cbn [ac_children]. rewrite find_child_in by assumption. exact Ha.
    + intros [a Ha]. destruct p as [|k p]; [left; reflexivity|]. right. rewrite get_account_cons in Ha. cbn [ac_children] in Ha.
      destruct (find_child k cs) as [c|] eqn:E; [|discriminate]. apply find_child_some in E as [Hc <-].
      exists c. split; [apply kids_in; exact Hc|]. apply in_map. apply IH; [exact Hc|]. exists a. exact Ha.
Qed.

(** ** Lines of the balance report *)
Lemma children_lines_eq xs p a :
  children_lines xs p a =
  let* total := account_total xs a in
  fold_outcome (fun ls c => let* l := children_lines xs (p ++ [ac_name c]) c in Ok (ls ++ l)) (kids a) [account_line (fullname p) total].
Proof.
  destruct a as [n cs ps]. cbn [children_lines].
  destruct (account_total xs (Acct n cs ps)) as [t| |]; cbn [bind]; [|reflexivity|reflexivity].
  rewrite (sorted_subs (fun c => children_lines xs (p ++ [ac_name c]) c)).
  generalize [account_line (fullname p) t]. induction (kids (Acct n cs ps)) as [|c l IH]; intros t'; cbn; [reflexivity|].
  destruct (children_lines xs (p ++ [ac_name c]) c); cbn; auto.
Qed.
Definition line_of (xs : list xact) (m : account) (p q : path) (line : str) : Prop :=
  exists a b, get_account m q = Some a /\ account_total xs a = Ok b /\ line = account_line (fullname (p ++ q)) b.
Lemma fold_lines {A} (f : A -> outcome (list str)) l : forall acc ls,
  fold_outcome (fun ls c => let* r := f c in Ok (ls ++ r)) l acc = Ok ls ->
  exists lss, Forall2 (fun c r => f c = Ok r) l lss /\ ls = acc ++ concat lss.
Proof.
  induction l as [|c l IH]; intros acc ls H; cbn in H.
  - injection H as <-. exists []. split; [constructor|]. cbn. rewrite app_nil_r. reflexivity.
  - destruct (f c) as [r| |] eqn:E; cbn in H; try discriminate. apply IH in H as (lss & F & ->).
    exists (r :: lss). split; [constructor; assumption|]. cbn. rewrite app_assoc. reflexivity.
Qed.
Lemma children_lines_spec xs a : wf_tree a -> forall p ls,
  children_lines xs p a = Ok ls -> Forall2 (line_of xs a p) (sub_paths a) ls.
Proof.
  induction 1 as [n cs ps ND NC Wc IH]. intros p ls H. rewrite children_lines_eq in H.
  destruct (account_total xs (Acct n cs ps)) as [t| |] eqn:E; cbn [bind] in H; try discriminate.
  apply (fold_lines (fun c => children_lines xs (p ++ [ac_name c]) c)) in H as (lss & F & ->).
  rewrite sub_paths_eq. cbn [app]. constructor.
  - exists (Acct n cs ps), t. rewrite app_nil_r. auto.
  - assert (K : forall c, In c (kids (Acct n cs ps)) -> In c cs) by (intros c Hc; apply kids_in in Hc; exact Hc).
    induction F as [|c r l lss Hr F IHF]; cbn; [constructor|]. apply Forall2_app; [|apply IHF; intros d Hd; apply K; right; exact Hd].
    assert (Hc : In c cs) by (apply K; left; reflexivity). apply IH in Hr; [|exact Hc].
    clear -Hr Hc ND. induction Hr as [|q line l ls (a & b & G & T & ->) _ IH]; cbn; constructor; [|exact IH].
    exists a, b. rewrite get_account_cons. cbn [ac_children]. rewrite find_child_in by assumption.
    rewrite <- app_assoc. auto.
Qed.

Lemma children_lines_total xs a : wf_tree a -> (forall q b, get_account a q = Some b -> exists t, account_total xs b = Ok t) ->
  forall p, exists ls, children_lines xs p a = Ok ls.
Proof.
  induction 1 as [n cs ps ND NC Wc IH]. intros T p. rewrite children_lines_eq.
  destruct (T [] (Acct n cs ps) eq_refl) as (t & ->). cbn [bind]. generalize [account_line (fullname p) t].
  assert (K : forall c, In c (kids (Acct n cs ps)) -> In c cs) by (intros c Hc; apply kids_in in Hc; exact Hc).
  induction (kids (Acct n cs ps)) as [|c l IHl]; intros acc; cbn; [eauto|].
  assert (Hc : In c cs) by (apply K; left; reflexivity). destruct (IH c Hc) with (p := p ++ [ac_name c]) as (ls & ->).
  - intros q b G. apply (T (ac_name c :: q)). rewrite get_account_cons. cbn [ac_children]. rewrite find_child_in by assumption. exact G.
  - cbn [bind]. apply IHl. intros d Hd. apply K. right. exact Hd.
Qed.

(** ** The order of siblings in the map does not matter *)
Lemma sub_refs_same xs m : wf_tree m -> forall m', wf_tree m' -> ac_name m = ac_name m' -> same_tree m m' ->
  account_total xs m = account_total xs m'
  /\ (forall p, children_lines xs p m = children_lines xs p m')
  /\ map ac_name (flatten m) = map ac_name (flatten m').
Proof.
  induction 1 as [n cs ps ND NC Wc IH]. intros [n' cs' ps'] W' En S. cbn in En. subst n'.
  assert (Ep : ps = ps') by (specialize (S []); cbn in S; congruence). subst ps'.
  assert (ND' : NoDup (map ac_name cs')) by (inversion W'; assumption).
  assert (Wc' : forall c, In c cs' -> wf_tree c) by (inversion W'; assumption).
  assert (C1 : forall c, In c cs -> exists c', In c' cs' /\ ac_name c = ac_name c' /\ same_tree c c').
  { intros c Hc. pose proof (S [ac_name c]) as S0. rewrite !posts_at_cons in S0. cbn [ac_children] in S0.
    rewrite find_child_in in S0 by assumption. destruct (find_child (ac_name c) cs') as [c'|] eqn:E; [|discriminate].
    pose proof E as E0. apply find_child_some in E as [Hc' En]. exists c'. split; [exact Hc'|]. split; [auto|]. intros q.
    specialize (S (ac_name c :: q)). rewrite !posts_at_cons in S. cbn [ac_children] in S. rewrite find_child_in, E0 in S by assumption. exact S. }
  assert (C2 : forall c', In c' cs' -> exists c, In c cs /\ ac_name c = ac_name c' /\ same_tree c c').
  { intros c Hc. pose proof (S [ac_name c]) as S0. rewrite !posts_at_cons in S0. cbn [ac_children] in S0.
    rewrite (find_child_in c cs') in S0 by assumption. destruct (find_child (ac_name c) cs) as [c'|] eqn:E; [|discriminate].
    pose proof E as E0. apply find_child_some in E as [Hc' En]. exists c'. split; [exact Hc'|]. split; [auto|]. intros q.
    specialize (S (ac_name c :: q)). rewrite !posts_at_cons in S. cbn [ac_children] in S. rewrite (find_child_in c cs'), E0 in S by assumption. exact S. }
  assert (G : forall B (f : account -> B), (forall c c', In c cs -> In c' cs' -> ac_name c = ac_name c' -> same_tree c c' -> f c = f c') ->
      sort_key (map (fun c => (ac_name c, f c)) cs) = sort_key (map (fun c => (ac_name c, f c)) cs')).
  { intros B f Hf.
    assert (Ks : forall l, map fst (map (fun c => (ac_name c, f c)) l) = map ac_name l) by (intros l; rewrite map_map; reflexivity).
    apply sort_key_perm_eq; [|rewrite Ks; exact ND]. apply NoDup_Permutation.
    - apply (NoDup_map_inv fst). rewrite Ks. exact ND.
    - apply (NoDup_map_inv fst). rewrite Ks. exact ND'.
    - intros x. rewrite !in_map_iff. split.
      + intros (c & <- & Hc). destruct (C1 c Hc) as (c' & Hc' & E & T). exists c'. rewrite E. split; [|exact Hc']. f_equal. symmetry. apply Hf; assumption.
      + intros (c' & <- & Hc'). destruct (C2 c' Hc') as (c & Hc & E & T). exists c. rewrite E. split; [|exact Hc]. f_equal. apply Hf; assumption. }
  assert (TT : account_total xs (Acct n cs ps) = account_total xs (Acct n cs' ps)).
  { cbn [account_total ac_children ac_posts]. rewrite (G _ (account_total xs)); [reflexivity|].
    intros c c' Hc Hc' E T. apply (IH c Hc c'); auto. }
  split; [exact TT|]. split.
  - intros p. cbn [children_lines ac_children]. rewrite TT. f_equal.
    rewrite (G _ (fun c => children_lines xs (p ++ [ac_name c]) c)); [reflexivity|].
    intros c c' Hc Hc' E T. rewrite E. apply (IH c Hc c'); auto.
  - cbn [flatten map ac_name ac_children]. f_equal. rewrite !concat_map, !map_map.
    pose proof (G _ (fun c => map ac_name (flatten c))) as Gf.
    assert (R : forall l, map (fun x : str * list account => map ac_name (snd x)) (sort_key (map (fun c => (ac_name c, flatten c)) l))
                     = map snd (sort_key (map (fun c => (ac_name c, map ac_name (flatten c))) l))).
    { intros l. assert (Em : map (fun c => (ac_name c, map ac_name (flatten c))) l
          = map (fun x => (fst x, map ac_name (snd x))) (map (fun c => (ac_name c, flatten c)) l)) by (rewrite map_map; reflexivity).
      rewrite Em, (sort_key_map (map ac_name)), map_map. reflexivity. }
    rewrite !R, Gf; [reflexivity|]. intros c c' Hc Hc' E T. apply (IH c Hc c'); auto.
Qed.

(** ** Names of the accounts *)
Lemma flatten_eq a : flatten a = a :: concat (map flatten (kids a)).
Proof. destruct a as [n cs ps]. cbn [flatten]. rewrite sorted_subs, map_map. reflexivity. Qed.
Lemma flatten_paths a : wf_tree a -> Forall2 (fun p b => get_account a p = Some b) (sub_paths a) (flatten a).
Proof.
  induction 1 as [n cs ps ND NC Wc IH]. rewrite sub_paths_eq, flatten_eq. constructor; [reflexivity|].
  assert (K : forall c, In c (kids (Acct n cs ps)) -> In c cs) by (intros c Hc; apply kids_in in Hc; exact Hc).
  induction (kids (Acct n cs ps)) as [|c l IHl]; cbn; [constructor|].
  apply Forall2_app; [|apply IHl; intros d Hd; apply K; right; exact Hd].
  assert (Hc : In c cs) by (apply K; left; reflexivity). pose proof (IH c Hc) as F.
  clear -F Hc ND. induction F as [|q b l ls G _ IH]; cbn; constructor; [|exact IH].
  rewrite get_account_cons. cbn [ac_children]. rewrite find_child_in by assumption. exact G.
Qed.

(** Rearranging the children of an account gives the same tree. *)
Lemma find_child_perm n cs cs' : NoDup (map ac_name cs) -> Permutation cs cs' -> find_child n cs = find_child n cs'.
Proof.
  intros N P. assert (N' : NoDup (map ac_name cs')) by (eapply Permutation_NoDup; [apply Permutation_map, P|exact N]).
  destruct (find_child n cs) as [c|] eqn:E.
  - apply find_child_some in E as [Hc <-]. symmetry. apply find_child_in; [exact N'|]. eapply Permutation_in; eassumption.
  - symmetry. apply find_child_none. apply find_child_none in E. intros H. apply E. eapply Permutation_in; [symmetry; apply Permutation_map, P|exact H].
Qed.
Lemma shuffled n cs cs' ps : wf_tree (Acct n cs ps) -> Permutation cs cs' ->
  wf_tree (Acct n cs' ps) /\ same_tree (Acct n cs ps) (Acct n cs' ps).
Proof.
  intros W P. inversion W as [? ? ? N C Wc]; subst. split.
  - constructor.
    + eapply Permutation_NoDup; [apply Permutation_map, P|exact N].
    + intros c Hc. apply C. eapply Permutation_in; [symmetry; exact P|exact Hc].
    + intros c Hc. apply Wc. eapply Permutation_in; [symmetry; exact P|exact Hc].
  - intros [|k q]; [reflexivity|]. rewrite !posts_at_cons. cbn [ac_children]. rewrite (find_child_perm k cs cs' N P). reflexivity.
Qed.
