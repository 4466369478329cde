(** Proofs of the smaller properties. *)
From Coq Require Import String List NArith ZArith Bool Lia Sorted Permutation.
From Verif Require Import Base Decimal Dates Amount Balance Scanner History Pool Account Journal Xact Parser Report OldReport.
From Verif Require Import SpecDecimal SpecAmount SpecPool SpecAccount SpecJournal SpecText SpecReading SpecScan SpecWhole SpecReport SpecMore.
From Verif Require Import BaseFacts DecimalFacts ArithProofs BalanceFacts AccountFacts JournalFacts ReportFacts ReportProofs PoolFacts JournalProofs ScanFacts ScanProofs PostProofs WholeProofs.
Import ListNotations.
Open Scope list_scope.
Open Scope nat_scope.

Lemma Forall2_len {A B} (R : A -> B -> Prop) l l' : Forall2 R l l' -> length l = length l'.
Proof. induction 1; cbn [length]; congruence. Qed.
(** ** Taking an amount from a balance *)
Lemma holds_cons x b c : holds (x :: b) c = ((if comm_dec (a_c x) c then aunits x else 0) + holds b c)%Z.
Proof. unfold holds, total, in_comm. cbn [filter]. destruct (comm_dec (a_c x) c); cbn [map sumZ fold_right]; reflexivity. Qed.
Lemma holds_none b c : ~ In c (map a_c b) -> holds b c = 0%Z.
Proof.
  induction b as [|x b IH]; intros N; [reflexivity|]. rewrite holds_cons, IH by (intros H; apply N; right; exact H).
  destruct (comm_dec (a_c x) c) as [E|]; [|reflexivity]. exfalso. apply N. left. exact E.
Qed.
Lemma bal_sub_less b : forall a, NoDup (map a_c b) -> Forall wf_amt b -> wf_amt a -> representable (holds b (a_c a) - aunits a) ->
  (In (a_c a) (map a_c b) \/ 0 <= aunits a)%Z ->
  exists b', bal_sub b a = Ok b' /\ (forall c, In c (map a_c b') -> In c (map a_c b) \/ c = a_c a) /\ NoDup (map a_c b') /\ Forall wf_amt b' /\ forall c, holds b' c = less b a c.
Proof.
  induction b as [|x b IH]; intros a N W WA R H; cbn [bal_sub].
  - exists [amt_inverse a]. split; [reflexivity|]. destruct (amt_inverse_neg_abs a WA) as [C U]. split; [|split; [|split]].
    + cbn. intros c [<-|[]]. right. exact C.
    + cbn. constructor; [intros []|constructor].
    + auto using wf_amt_inverse.
    + intros c. unfold less. rewrite holds_cons, C, U. destruct (comm_dec (a_c a) c); unfold holds, total; cbn; [|reflexivity]. destruct H as [[]|H]. lia.
  - cbn [map] in N. inversion N as [|? ? N1 N2]; inversion W as [|? ? WX WB]; subst. destruct (comm_eqb_spec (a_c x) (a_c a)) as [E|E].
    + rewrite holds_cons in R. destruct (comm_dec (a_c x) (a_c a)) as [_|]; [|contradiction]. rewrite (holds_none b) in R by (rewrite <- E; exact N1).
      destruct (amt_minus_exact x a) as (r & -> & WR & C & U); [assumption..|replace (aunits x - aunits a)%Z with (aunits x + 0 - aunits a)%Z by lia; exact R|].
      exists (r :: b). cbn [bind]. split; [reflexivity|]. cbn [map]. rewrite C. split; [cbn; tauto|]. split; [exact N|]. split; [auto|].
      intros c. unfold less. rewrite !holds_cons, C, U, E. destruct (comm_dec (a_c a) c); lia.
    + rewrite holds_cons in R. destruct (comm_dec (a_c x) (a_c a)) as [|_]; [contradiction|]. cbn [Z.add] in R.
      destruct (IH a N2 WB WA R) as (b' & -> & I & NB & WB' & HB); [destruct H as [[H|H]|H]; [contradiction|auto|auto]|].
      exists (x :: b'). cbn [bind]. split; [reflexivity|]. cbn [map In]. split; [intros c [<-|H']; [auto|destruct (I c H'); auto]|]. split; [|split; [auto|]].
      * constructor; [|exact NB]. intros H'. destruct (I _ H'); congruence.
      * intros c. unfold less. rewrite !holds_cons, HB. unfold less. lia.
Qed.
Lemma bal_sub_partial b a : NoDup (map a_c b) -> Forall wf_amt b -> wf_amt a -> representable (holds b (a_c a) - aunits a) ->
  In (a_c a) (map a_c b) \/ (0 <= aunits a)%Z ->
  exists b', bal_sub b a = Ok b' /\ NoDup (map a_c b') /\ Forall wf_amt b' /\ forall c, holds b' c = less b a c.
Proof. intros N W WA R H. destruct (bal_sub_less b a N W WA R H) as (b' & E & _ & X). eauto. Qed.

(** ** The number that [Journal::read] returns *)
Lemma read_count depth cwd fs src j j' n : reachable_journal j -> journal_read depth cwd fs src j = Ok (j', n) ->
  exists new, j_xacts j' = j_xacts j ++ new /\ n = length (j_xacts j) + length new.
Proof.
  intros R H. unfold journal_read in H. inv_bind H. injection H as <- <-. apply read_appends in EQ as ((new & E) & _); [|exact R].
  exists new. split; [exact E|]. rewrite E, app_length. reflexivity.
Qed.
Lemma read_count_written depth cwd fs t lines ws : lines_of t lines -> writes_journal lines ws -> Forall well_formed ws ->
  exists j', journal_read depth cwd fs (text_source t) journal_new = Ok (j', length ws).
Proof.
  intros L W F. destruct (journal_accepted depth cwd fs t lines ws journal_new L W F rj_new) as (j' & new & E & X & F2). exists j'.
  unfold journal_read. unfold parse_text in E. rewrite E. cbn [bind]. rewrite X. cbn [journal_new j_xacts app]. rewrite <- (Forall2_len _ _ _ F2). reflexivity.
Qed.

(** ** Reading one amount *)
Lemma parse_amount_written p t q s u k ws rest : spaces ws -> written_amount t q s -> spaces rest -> denotes q u k ->
  exists p' a, parse_amount p (ws ++ t ++ rest) = Ok (p', Some a) /\ amount_is a u k s
    /\ pool_extends p p' /\ (s <> [] -> exists c, pool_find p' s = Some c).
Proof.
  intros W T R D. unfold parse_amount. rewrite (scan_amount_written t q s T ws rest W (follows_spaces s rest R)). cbn [bind].
  unfold parse_amount_parts. pose proof (foc_comm p s None) as C. pose proof (foc_extends p s None) as X. pose proof (foc_finds p s None) as K.
  destruct (pool_find_or_create p s None) as [p' c]. cbn [fst snd] in *. subst c.
  destruct (denotes_read q u k s D) as (d & -> & I). exists p', (mkAmt d (comm_of s)). auto.
Qed.

(** ** Balances of the accounts without the ones below them *)
Lemma same_path_eq p : forall q, same_path p q = if list_eq_dec (list_eq_dec N.eq_dec) p q then true else false.
Proof.
  induction p as [|a p IH]; intros [|b q]; cbn [same_path]; try reflexivity. rewrite IH. destruct (str_eqb a b) eqn:Q; [apply str_eqb_eq in Q as ->|apply str_eqb_neq in Q]; cbn [andb].
  - destruct (list_eq_dec (list_eq_dec N.eq_dec) p q) as [M|M]; destruct (list_eq_dec (list_eq_dec N.eq_dec) (b :: p) (b :: q)) as [E|E]; try reflexivity; congruence.
  - destruct (list_eq_dec (list_eq_dec N.eq_dec) (a :: p) (b :: q)) as [E|E]; [congruence|reflexivity].
Qed.
Lemma own_exactly j q : filter (fun p => same_path (po_account p) q) (all_posts j) = posts_exactly j q.
Proof. unfold posts_exactly. apply filter_ext. intros p. apply same_path_eq. Qed.
Lemma flatten_at_eq p a : flatten_at p a = p :: concat (map (fun c => flatten_at (p ++ [ac_name c]) c) (kids a)).
Proof. destruct a as [n cs ps]. cbn [flatten_at]. rewrite (sorted_subs (fun c => flatten_at (p ++ [ac_name c]) c)), map_map. reflexivity. Qed.
Lemma flatten_at_paths a : forall p, flatten_at p a = map (app p) (sub_paths a).
Proof.
  induction a as [n cs ps IH] using ReportFacts.account_ind'. intros p. rewrite flatten_at_eq, sub_paths_eq. cbn [map]. rewrite app_nil_r. f_equal.
  rewrite concat_map, map_map. f_equal. apply map_ext_in. intros c Hc. apply kids_in in Hc. rewrite (IH c Hc), map_map.
  apply map_ext. intros q. rewrite <- app_assoc. reflexivity.
Qed.
Lemma own_fold ps : Forall (fun p => po_amount p <> None) ps -> forall b,
  fold_outcome (fun b p => let* a := unwrap (po_amount p) in bal_add b a) ps b = fold_outcome bal_add (amounts_of ps) b.
Proof.
  induction 1 as [|p ps H _ IH]; intros b; [reflexivity|]. cbn [fold_outcome amounts_of flat_map].
  destruct (po_amount p) as [a|]; [|congruence]. cbn [unwrap bind app fold_outcome]. destruct (bal_add b a); cbn [bind]; [apply IH|reflexivity..].
Qed.
Lemma exactly_sub j q : Permutation (amounts_of (all_posts j))
  (amounts_of (posts_exactly j q) ++ amounts_of (filter (fun p => negb (if list_eq_dec (list_eq_dec N.eq_dec) (po_account p) q then true else false)) (all_posts j))).
Proof.
  unfold posts_exactly. induction (all_posts j) as [|x l IH]; [reflexivity|]. cbn [filter]. unfold amounts_of in *. cbn [flat_map].
  destruct (list_eq_dec (list_eq_dec N.eq_dec) (po_account x) q); cbn [negb flat_map].
  - rewrite <- app_assoc. apply Permutation_app_head, IH.
  - rewrite IH. rewrite !app_assoc. apply Permutation_app_tail, Permutation_app_comm.
Qed.
Lemma own_balance_sums j q : reachable_journal j -> fits_amts (amounts_of (all_posts j)) ->
  exists b, own_balance j q = Ok b /\ sums_up b (amounts_of (posts_exactly j q)).
Proof.
  intros R F. unfold own_balance. rewrite own_exactly, own_fold.
  - destruct (bal_of_list (amounts_of (posts_exactly j q))) as (b & E & B); [| |exists b; split; [exact E|eapply balance_sums_up; [exact B|reflexivity]]].
    + eapply fits_amts_sub in F; [apply F|apply exactly_sub].
    + intros c n. apply fits_amts_prefix. eapply fits_amts_sub; [apply exactly_sub|exact F].
  - pose proof (no_posting_incomplete j R) as N. apply Forall_forall. intros p Hp. apply filter_In in Hp as [Hp _].
    apply in_flat_map in Hp as (x & Hx & Hp). rewrite Forall_forall in N. destruct (N x Hx) as [_ M]. rewrite Forall_forall in M.
    destruct (M p Hp) as (a & -> & _). discriminate.
Qed.
Lemma balances_fold j : reachable_journal j -> fits_amts (amounts_of (all_posts j)) -> forall ps acc,
  exists l, fold_outcome (fun l q => let* b := own_balance j q in Ok (l ++ [(fullname q, b)])) ps acc = Ok (acc ++ l)
    /\ Forall2 (fun p e => fst e = fullname p /\ sums_up (snd e) (amounts_of (posts_exactly j p))) ps l.
Proof.
  intros R F. induction ps as [|q ps IH]; intros acc; cbn [fold_outcome].
  - exists []. rewrite app_nil_r. auto.
  - destruct (own_balance_sums j q R F) as (b & -> & S). cbn [bind]. destruct (IH (acc ++ [(fullname q, b)])) as (l & -> & G).
    exists ((fullname q, b) :: l). rewrite <- app_assoc. split; [reflexivity|]. constructor; [auto|exact G].
Qed.
Lemma account_balances_sums j : reachable_journal j -> fits_amts (amounts_of (all_posts j)) ->
  exists ps l, in_order (j_master j) ps /\ get_account_balances j = Ok l
    /\ Forall2 (fun p e => fst e = fullname p /\ sums_up (snd e) (amounts_of (posts_exactly j p))) ps l.
Proof.
  intros R F. pose proof (reachable_inv _ R) as I. exists (sub_paths (j_master j)). unfold get_account_balances. rewrite flatten_at_paths.
  replace (map (app []) (sub_paths (j_master j))) with (sub_paths (j_master j)) by (symmetry; apply map_id).
  destruct (balances_fold j R F (sub_paths (j_master j)) []) as (l & E & G). exists l.
  split; [apply sub_paths_order, (i_tree _ _ I)|]. auto.
Qed.

(** ** The lines *)
Lemma entry_step t a : balance_entry t a = match t with [] => [] | _ => t ++ lit ", " end ++ written_out a.
Proof.
  unfold balance_entry, written_out. destruct (a_c a) as [[|c s]|]; destruct t; cbn [app]; rewrite <- ?app_assoc; reflexivity.
Qed.
Lemma written_out_head a : wf_amt a -> exists c r, written_out a = c :: r.
Proof.
  intros W. destruct (quantity_text_chars (a_q a) W) as [_ N]. unfold written_out. destruct (d_to_string (a_q a)) as [|c r]; [congruence|].
  destruct (a_c a) as [[|? ?]|]; cbn [app]; eauto.
Qed.
Lemma entries_step b : forall t, t <> [] -> fold_left balance_entry b t = t ++ flat_map (fun a => lit ", " ++ written_out a) b.
Proof.
  induction b as [|a b IH]; intros t N; cbn [fold_left flat_map]; [rewrite app_nil_r; reflexivity|]. rewrite entry_step.
  destruct t as [|c t]; [congruence|]. rewrite IH by discriminate. rewrite <- !app_assoc. reflexivity.
Qed.
Lemma listed_cons x l : listed (x :: l) = x ++ flat_map (fun y => lit ", " ++ y) l.
Proof.
  revert x. induction l as [|y l IH]; intros x; [cbn; rewrite app_nil_r; reflexivity|].
  change (listed (x :: y :: l)) with (x ++ lit ", " ++ listed (y :: l)). rewrite IH. cbn [flat_map]. rewrite <- app_assoc. reflexivity.
Qed.
Lemma entries_listed b : Forall wf_amt b -> fold_left balance_entry b [] = listed (map written_out b).
Proof.
  intros [|a l W _]; [reflexivity|]. cbn [fold_left map]. rewrite entry_step. cbn [app]. destruct (written_out_head a W) as (c & r & E).
  rewrite entries_step by (rewrite E; discriminate). rewrite listed_cons. f_equal. rewrite !flat_map_concat_map, map_map. reflexivity.
Qed.
Lemma old_report_lines l : Forall (fun e => Forall wf_amt (snd e)) l ->
  exists es, Permutation l es /\ StronglySorted (fun e e' => str_lt (fst e) (fst e') \/ fst e = fst e') es
    /\ format_balance_report l = map (fun e => lit "Account " ++ fst e ++ lit " has balance " ++ listed (map written_out (snd e))) es.
Proof.
  intros F. exists (sort_key l). split; [apply sort_key_perm|]. split.
  - pose proof (sort_key_sorted l) as S. induction S as [|x r S IH G]; constructor; [exact IH|]. eapply Forall_impl; [|exact G]. unfold key_le. cbn. intros y Hy.
    destruct (str_eq_dec' (fst x) (fst y)) as [->|Nq]; [right; reflexivity|left]. apply str_lt_leb. auto.
  - unfold format_balance_report. apply map_ext_in. intros e He. rewrite entries_listed; [reflexivity|].
    rewrite Forall_forall in F. apply F. eapply Permutation_in; [symmetry; apply sort_key_perm|exact He].
Qed.

(** ** The text determines the balance *)
Definition tail_text (b : balance) : str := flat_map (fun a => lit ", " ++ written_out a) b.
Lemma tail_head b : b = [] /\ tail_text b = [] \/ exists a b', b = a :: b' /\ tail_text b = 44%N :: 32%N :: written_out a ++ tail_text b'.
Proof. destruct b as [|a b]; [left; auto|right]. exists a, b. auto. Qed.
Lemma written_split a rest : wf_amt a -> one_word a -> (rest = [] \/ exists r, rest = 44%N :: 32%N :: r) ->
  span qchar (written_out a ++ rest) = (d_to_string (a_q a), match a_c a with Some s => 32%N :: s ++ rest | None => rest end)
  /\ forall s, a_c a = Some s -> span (fun c => negb (c =? 32)%N) (s ++ rest) = match rest with [] => (s, []) | _ => (s ++ [44%N], tl rest) end.
Proof.
  intros W C R. destruct (quantity_text_chars (a_q a) W) as [Q _]. split.
  - unfold written_out. destruct (a_c a) as [[|c s]|] eqn:E.
    + destruct (C _ E) as [N _]. congruence.
    + rewrite <- app_assoc. cbn [app]. apply span_app; [exact Q|reflexivity].
    + destruct R as [->|(r & ->)]; [rewrite app_nil_r; apply span_all, Q|apply span_app; [exact Q|reflexivity]].
  - intros s E. destruct (C _ E) as [_ N]. assert (F : forallb (fun c => negb (c =? 32)%N) s = true).
    { apply forallb_forall. intros x Hx. apply negb_true_iff. destruct (N.eqb_spec x 32) as [->|]; [contradiction|reflexivity]. }
    destruct R as [->|(r & ->)]; [rewrite app_nil_r; apply span_all, F|]. cbn [tl]. change (44%N :: 32%N :: r) with ([44%N] ++ 32%N :: r). rewrite app_assoc.
    apply span_app; [rewrite forallb_app, F; reflexivity|reflexivity].
Qed.
Lemma tail_injective b : forall b', Forall wf_amt b -> Forall wf_amt b' -> Forall one_word b -> Forall one_word b' -> tail_text b = tail_text b' ->
  Forall2 (fun a a' => a_c a = a_c a' /\ aunits a = aunits a' /\ d_s (a_q a) = d_s (a_q a')) b b'.
Proof.
  induction b as [|a b IH]; intros [|a' b'] W W' C C' E; try discriminate; [constructor|].
  inversion W as [|? ? Wa Wb]; inversion W' as [|? ? Wa' Wb']; inversion C as [|? ? Ca Cb]; inversion C' as [|? ? Ca' Cb']; subst.
  unfold tail_text in E. cbn [flat_map] in E. fold (tail_text b) in E. fold (tail_text b') in E. rewrite <- !app_assoc in E. apply app_inv_head in E.
  assert (T : forall x : balance, tail_text x = [] \/ exists r, tail_text x = 44%N :: 32%N :: r) by (intros x; destruct (tail_head x) as [[_ ->]|(? & ? & _ & ->)]; eauto).
  destruct (written_split a (tail_text b) Wa Ca (T b)) as [D1 D2]. destruct (written_split a' (tail_text b') Wa' Ca' (T b')) as [D1' D2'].
  rewrite E, D1' in D1. injection D1 as Eq Et.
  assert (K : a_c a = a_c a' /\ tail_text b = tail_text b').
  { destruct (a_c a) as [s|], (a_c a') as [s'|].
    - injection Et as Et. specialize (D2 s eq_refl). specialize (D2' s' eq_refl). rewrite Et, D2 in D2'.
      destruct (T b) as [Tb|(r & Tb)], (T b') as [Tb'|(r' & Tb')]; rewrite Tb, Tb' in *; cbn [tl] in D2'.
      + injection D2' as ->. auto.
      + discriminate.
      + discriminate.
      + injection D2' as D2' X. apply app_inj_tail in D2' as [-> _]. rewrite X. auto.
    - exfalso. destruct (T b') as [Tb'|(r' & Tb')]; rewrite Tb' in Et; discriminate.
    - exfalso. destruct (T b) as [Tb|(r & Tb)]; rewrite Tb in Et; discriminate.
    - auto. }
  destruct K as [K1 K2]. constructor; [split; [exact K1|]; apply quantity_text_injective; [exact Wa|exact Wa'|congruence]|]. apply IH; auto.
Qed.
Lemma listed_injective b b' : Forall wf_amt b -> Forall wf_amt b' -> Forall one_word b -> Forall one_word b' ->
  listed (map written_out b) = listed (map written_out b') ->
  Forall2 (fun a a' => a_c a = a_c a' /\ aunits a = aunits a' /\ d_s (a_q a) = d_s (a_q a')) b b'.
Proof.
  intros W W' C C' E. apply tail_injective; auto.
  assert (T : forall x : balance, tail_text x = match x with [] => [] | _ => lit ", " ++ listed (map written_out x) end).
  { intros [|a x]; [reflexivity|]. cbn [map]. rewrite listed_cons. unfold tail_text. cbn [flat_map]. rewrite <- app_assoc, !(flat_map_concat_map _ x), (flat_map_concat_map _ (map _ x)), map_map. reflexivity. }
  rewrite !T. destruct b as [|a b], b' as [|a' b'].
  - reflexivity.
  - exfalso. cbn [map] in E. rewrite listed_cons in E. inversion W'; subst. destruct (written_out_head a') as (c & r & Hc); [assumption|]. rewrite Hc in E. discriminate.
  - exfalso. cbn [map] in E. rewrite listed_cons in E. inversion W; subst. destruct (written_out_head a) as (c & r & Hc); [assumption|]. rewrite Hc in E. discriminate.
  - rewrite E. reflexivity.
Qed.
