(** Totals and reports of journals built by reading. *)
From Coq Require Import String List NArith ZArith Bool Lia Sorted Permutation.
From Verif Require Import Base Decimal Dates Amount Balance Pool Account Journal Xact Parser Report Options Lib.
From Verif Require Import SpecDecimal SpecAmount SpecAccount SpecXact SpecJournal SpecReport.
From Verif Require Import BaseFacts DecimalFacts BalanceFacts ArithProofs AccountFacts XactFacts JournalFacts ReportFacts.
Import ListNotations.
Open Scope nat_scope.

Lemma balance_sums_up b l l' : is_balance_of b l -> Permutation l l' -> sums_up b l'.
Proof.
  intros B P. pose proof (bal_nodup _ _ B) as N. split; [exact N|]. split.
  - intros c. destruct B as [-> _]. rewrite firsts_in. split; apply Permutation_in; [|symmetry]; apply Permutation_map, P.
  - split; [apply Forall_forall; intros a Ha; apply B, Ha|]. intros c. unfold holds.
    rewrite (is_balance_of_total _ _ c B). apply total_perm, P.
Qed.

Lemma total_below j q a :
  reachable_journal j -> get_account (j_master j) q = Some a -> fits_amts (amounts_of (posts_below j q)) ->
  exists b, account_total (j_xacts j) a = Ok b /\ sums_up b (amounts_of (posts_below j q)).
Proof.
  intros R G F. apply reachable_inv in R as [W _ L _ _]. destruct (sub_refs_amounts j q a W L G) as [P Rs].
  destruct (account_total_spec (j_xacts j) a Rs) as (b & E & B).
  - eapply fits_amts_perm; [symmetry; exact P|exact F].
  - exists b. split; [exact E|]. eapply balance_sums_up; eassumption.
Qed.

(** ** Own postings plus the children *)
Lemma amount_exactly j q a :
  reachable_journal j -> get_account (j_master j) q = Some a -> fits_amts (amounts_of (posts_exactly j q)) ->
  exists b, account_amount (j_xacts j) (ac_posts a) = Ok b /\ sums_up b (amounts_of (posts_exactly j q)).
Proof.
  intros R G F. apply reachable_inv in R as [W _ [L1 L2] _ _].
  assert (Hl : posts_at (j_master j) q = Some (ac_posts a)) by (unfold posts_at; rewrite G; reflexivity).
  destruct (L1 _ _ Hl) as [S I].
  set (f := fun p : path => if list_eq_dec (list_eq_dec N.eq_dec) p q then true else false).
  assert (P : Permutation (ac_posts a) (filter (fun r => match account_of (j_xacts j) r with Some p => f p | None => false end) (refs_from 0 (j_xacts j)))).
  { apply NoDup_Permutation.
    - clear -S. induction S as [|r l S IH F]; constructor; [|exact IH].
      intros H. rewrite Forall_forall in F. specialize (F r H). unfold ref_lt in F. lia.
    - apply NoDup_filter, refs_from_nodup.
    - intros r. rewrite filter_In, I, all_refs_in. unfold f. split.
      + intros E. rewrite E. split; [eauto|]. destruct (list_eq_dec (list_eq_dec N.eq_dec) q q); congruence.
      + intros [_ H]. destruct (account_of (j_xacts j) r) as [p|]; [|discriminate]. destruct (list_eq_dec (list_eq_dec N.eq_dec) p q); congruence. }
  assert (E : Permutation (amounts_at (j_xacts j) (ac_posts a)) (amounts_of (posts_exactly j q))).
  { rewrite (amounts_at_perm _ _ _ P), (amounts_at_filter f _ _ (all_posts j)); [reflexivity|].
    exact (refs_from_posts 0 [] (j_xacts j) eq_refl). }
  assert (Rs : resolves (j_xacts j) (ac_posts a)).
  { apply Forall_forall. intros r Hr. apply I in Hr. unfold account_of in Hr. destruct (get_post (j_xacts j) r); discriminate. }
  destruct (account_amount_spec _ _ Rs) as (b & Eb & B); [eapply fits_amts_perm; [symmetry; exact E|exact F]|].
  exists b. split; [exact Eb|]. eapply balance_sums_up; eassumption.
Qed.

Lemma str_eq_dec' (x y : str) : {x = y} + {x <> y}.
Proof. apply list_eq_dec, N.eq_dec. Qed.

Lemma sumZ_flat {A} (f : A -> Z) l : sumZ (map f l) = fold_right (fun a z => (f a + z)%Z) 0%Z l.
Proof. induction l as [|x l IH]; cbn; [reflexivity|]. unfold sumZ in *. rewrite IH. reflexivity. Qed.

Lemma total_children j q a b c :
  reachable_journal j -> get_account (j_master j) q = Some a -> fits_amts (amounts_of (posts_below j q)) ->
  account_total (j_xacts j) a = Ok b ->
  exists own subs, account_amount (j_xacts j) (ac_posts a) = Ok own
    /\ Forall2 (fun ch s => account_total (j_xacts j) ch = Ok s) (ac_children a) subs
    /\ holds b c = (holds own c + sumZ (map (fun s => holds s c) subs))%Z.
Proof.
  intros R G F T. apply reachable_inv in R as [W _ L _ _]. destruct (sub_refs_amounts j q a W L G) as [P Rs].
  assert (F' : fits_amts (amounts_at (j_xacts j) (sub_refs a))) by (eapply fits_amts_perm; [symmetry; exact P|exact F]).
  destruct (account_total_spec (j_xacts j) a Rs F') as (b' & E & B). rewrite T in E. injection E as <-.
  set (xs := j_xacts j) in *.
  assert (PK : Permutation (sub_refs a) (concat (map sub_refs (ac_children a)) ++ ac_posts a)).
  { rewrite sub_refs_eq. apply Permutation_app_tail. rewrite <- !flat_map_concat_map. apply Permutation_flat_map. symmetry. apply kids_perm. }
  assert (Rs' : resolves xs (concat (map sub_refs (ac_children a)) ++ ac_posts a)) by (eapply Permutation_Forall; eassumption).
  assert (F2 : fits_amts (amounts_at xs (concat (map sub_refs (ac_children a))) ++ amounts_at xs (ac_posts a))).
  { rewrite <- amounts_at_app. eapply fits_amts_perm; [apply amounts_at_perm, PK|exact F']. }
  apply Forall_app in Rs' as [R1 R2].
  destruct (account_amount_spec xs (ac_posts a) R2 (fits_amts_app2 _ _ F2)) as (own & Eo & Bo).
  assert (Ht : holds b c = (total c (amounts_at xs (concat (map sub_refs (ac_children a)))) + holds own c)%Z).
  { unfold holds. rewrite (is_balance_of_total _ _ c B), (is_balance_of_total _ _ c Bo).
    rewrite (total_perm c _ _ (amounts_at_perm xs _ _ PK)), amounts_at_app, total_app. reflexivity. }
  assert (K : exists subs, Forall2 (fun ch s => account_total xs ch = Ok s) (ac_children a) subs
      /\ sumZ (map (fun s => holds s c) subs) = total c (amounts_at xs (concat (map sub_refs (ac_children a))))).
  { apply fits_amts_app1 in F2. clear -R1 F2. induction (ac_children a) as [|ch l IH]; cbn [map concat] in *.
    - exists []. split; [constructor|reflexivity].
    - apply Forall_app in R1 as [Rc R1]. rewrite amounts_at_app in F2.
      destruct (IH R1 (fits_amts_app2 _ _ F2)) as (subs & Fs & Es).
      destruct (account_total_spec xs ch Rc (fits_amts_app1 _ _ F2)) as (s & Ec & Bc).
      exists (s :: subs). split; [constructor; assumption|]. cbn [map]. rewrite amounts_at_app, total_app, <- Es.
      unfold holds at 1. rewrite (is_balance_of_total _ _ c Bc). reflexivity. }
  destruct K as (subs & Fs & Es). exists own, subs. split; [exact Eo|]. split; [exact Fs|]. rewrite Es. lia.
Qed.

(** ** The master account *)
Lemma below_master j : posts_below j [] = all_posts j.
Proof. unfold posts_below. induction (all_posts j) as [|p l IH]; [reflexivity|]. cbn [filter prefix_of]. f_equal. exact IH. Qed.
Lemma master_total j :
  reachable_journal j -> fits_amts (amounts_of (all_posts j)) ->
  exists b, account_total (j_xacts j) (j_master j) = Ok b /\ sums_up b (amounts_of (all_posts j)).
Proof. intros R F. rewrite <- below_master in *. exact (total_below j [] _ R eq_refl F). Qed.
Lemma master_zero j c :
  reachable_journal j -> fits_amts (amounts_of (all_posts j)) ->
  Forall (fun x => total c (amounts_of (x_posts x)) = 0%Z) (j_xacts j) ->
  exists b, account_total (j_xacts j) (j_master j) = Ok b /\ holds b c = 0%Z.
Proof.
  intros R F Z. destruct (master_total j R F) as (b & E & _ & _ & _ & H). exists b. split; [exact E|]. rewrite H.
  unfold all_posts. clear -Z. induction Z as [|x l Hx _ IH]; [reflexivity|]. cbn [flat_map]. unfold amounts_of in *. rewrite flat_map_app, total_app. lia.
Qed.

(** ** The balance report *)
Lemma report_shape j lines :
  reachable_journal j -> balance_report j = Ok lines ->
  exists ps, in_order (j_master j) ps
    /\ Forall2 (fun p line => exists a b, get_account (j_master j) p = Some a /\ account_total (j_xacts j) a = Ok b
         /\ line = lit "Account " ++ fullname p ++ lit " has balance "
                   ++ concat (map (fun x => d_to_string (a_q x) ++ match a_c x with Some s => 32%N :: s | None => [] end) b)) ps lines.
Proof.
  intros R H. apply reachable_inv in R as [W _ _ _ _]. exists (sub_paths (j_master j)). split; [apply sub_paths_order, W|].
  apply children_lines_spec in H; [|exact W]. eapply Forall2_impl; [|exact H].
  intros p line (a & b & G & T & E). exists a, b. split; [exact G|]. split; [exact T|]. rewrite E. unfold account_line, balance_text.
  rewrite flat_map_concat_map. reflexivity.
Qed.
Lemma below_sub j p q : exists r, Permutation (amounts_of (posts_below j q)) (amounts_of (posts_below j (q ++ p)) ++ r).
Proof.
  unfold posts_below. induction (all_posts j) as [|x l (r & IH)]; [exists []; reflexivity|]. cbn [filter].
  destruct (prefix_of (q ++ p) (po_account x)) eqn:E.
  - assert (prefix_of q (po_account x) = true) as ->.
    { apply prefix_of_iff in E as (t & ->). rewrite <- app_assoc. apply prefix_of_app. }
    exists r. unfold amounts_of in *. cbn [flat_map]. rewrite IH, app_assoc. reflexivity.
  - destruct (prefix_of q (po_account x)); [|exists r; exact IH].
    exists (match po_amount x with Some a => [a] | None => [] end ++ r). unfold amounts_of in *. cbn [flat_map]. rewrite IH.
    rewrite !app_assoc. apply Permutation_app_tail, Permutation_app_comm.
Qed.
Lemma report_succeeds j :
  reachable_journal j -> fits_amts (amounts_of (all_posts j)) -> exists lines, balance_report j = Ok lines.
Proof.
  intros R F. pose proof (reachable_inv _ R) as [W _ _ _ _]. apply children_lines_total; [exact W|].
  intros q a G. destruct (total_below j q a R G) as (b & E & _); [|eauto].
  destruct (below_sub j q []) as (r & P). rewrite below_master in P. cbn [app] in P. eapply fits_amts_sub; eassumption.
Qed.
Lemma report_order_independent j j' :
  wf_tree (j_master j) -> wf_tree (j_master j') -> ac_name (j_master j) = ac_name (j_master j') ->
  same_tree (j_master j) (j_master j') -> j_xacts j = j_xacts j' ->
  balance_report j = balance_report j' /\ report_accounts j = report_accounts j'.
Proof.
  intros W W' N S X. unfold balance_report, report_accounts. rewrite <- X.
  destruct (sub_refs_same (j_xacts j) _ W _ W' N S) as (_ & E & F). split; [apply E|exact F].
Qed.

(** ** The accounts report *)
Lemma master_name j : reachable_journal j -> ac_name (j_master j) = [].
Proof.
  intros R.
  assert (K : forall depth cwd fs src j j', ac_name (j_master j) = [] ->
             inv Top j -> read_into_journal depth cwd fs src j = Ok j' -> ac_name (j_master j') = []).
  { clear. intros depth cwd fs src j j' N I H.
    assert (P : forall m j, inv m j /\ ac_name (j_master j) = [] -> ac_name (j_master j) = []) by (intros ? ? [_ E]; exact E).
    eapply P with (m := Top). eapply (read_preserves (fun m j => inv m j /\ ac_name (j_master j) = [])); [..|exact (conj I N)|exact H]; clear.
    - intros j c r j' [I N] D H. split; [eapply inv_create; eassumption|]. apply create_xact_inv in H as (x & d & -> & _); [exact N|exact D].
    - intros j xi s j' [I N] H. split; [eapply inv_post; eassumption|].
      unfold parse_post in H. inv_bind H. inv_bind H. destruct v0 as [m1 acct].
      destruct (parse_amount_parts (j_pool j) _ _) as [p1 amt]. inv_bind H. destruct v0 as [p2 ann].
      destruct (pool_find_or_create p2 _ _) as [p3 c3]. inv_bind H. destruct v0 as [p4 cost].
      destruct (nth_error (j_xacts j) xi) as [x|]; [|discriminate]. inv_bind H. injection H as <-. cbn [j_master].
      pose proof (i_tree _ _ I) as W.
      destruct (AccountProofs.register_ok _ _ _ _ W EQ0) as (_ & Ea & W1 & N1 & _ & _).
      assert (X1 : exists_at m1 acct) by (apply (AccountProofs.register_exists _ _ _ _ _ W EQ0); right; apply prefix_of_refl).
      destruct (push_post_spec m1 acct (xi, length (x_posts x)) W1 X1) as (m2 & Hp & _ & N2 & _). rewrite Hp in EQ3. injection EQ3 as <-. congruence.
    - intros j xi s j' [I N] H. split; [eapply inv_note; eassumption|]. unfold parse_trailing_note in H.
      destruct (is_empty _); injection H as <-; exact N.
    - intros j xi j' [I N] H. split; [eapply inv_final; eassumption|]. unfold finalize in H. destruct (nth_error _ _); [|discriminate].
      inv_bind H. destruct v as [? ?]. injection H as <-. exact N.
    - intros j line p [I N] H. split; [eapply inv_price; eassumption|exact N]. }
  induction R as [|depth cwd fs src j j' R IH H|name j m' p R IH H|s a j R IH Wa]; [reflexivity| | |exact IH].
  - pose proof (reachable_inv _ R) as I. eapply K; [exact IH|exact I|exact H].
  - pose proof (reachable_inv _ R) as I. destruct (AccountProofs.register_ok _ _ _ _ (i_tree _ _ I) H) as (_ & _ & _ & N & _). cbn. congruence.
Qed.
Lemma accounts_shape j :
  reachable_journal j ->
  exists ps, in_order (j_master j) ps /\ report_accounts j = map (fun p => last p []) ps.
Proof.
  intros R. pose proof (master_name j R) as N. apply reachable_inv in R as [W _ _ _ _].
  exists (sub_paths (j_master j)). split; [apply sub_paths_order, W|]. unfold report_accounts.
  pose proof (flatten_paths _ W) as F. induction F as [|p b l l' G _ IH]; [reflexivity|]. cbn [map]. rewrite IH. f_equal.
  destruct (list_eq_dec str_eq_dec' p []) as [->|Np]; [injection G as <-; exact N|].
  destruct (exists_last Np) as (p' & n & ->). rewrite last_last. eapply get_account_name, G.
Qed.

Lemma sort_strings_spec l : Permutation l (sort_strings l) /\ StronglySorted (fun a b => str_lt a b \/ a = b) (sort_strings l).
Proof.
  unfold sort_strings. split.
  - rewrite <- sort_key_perm, map_map. cbn. rewrite map_id. reflexivity.
  - pose proof (sort_key_sorted (map (fun s => (s, tt)) l)) as S. induction S as [|x r S IH F]; cbn; [constructor|].
    constructor; [exact IH|]. rewrite Forall_map. eapply Forall_impl; [|exact F]. unfold key_le. cbn. intros y Hy.
    destruct (str_eq_dec' (fst x) (fst y)) as [->|Nq]; [right; reflexivity|left]. apply str_lt_leb. auto.
Qed.
Lemma accounts_command depth cwd fs verb rest files j :
  read_journal_files depth cwd fs files = Ok j ->
  exists ps lines, in_order (j_master j) ps
    /\ execute_command depth cwd fs ((97%N :: verb) :: rest) files = Ok lines
    /\ Permutation lines (map (fun p => last p []) ps)
    /\ StronglySorted (fun a b => str_lt a b \/ a = b) lines.
Proof.
  intros H. assert (R : reachable_journal j).
  { unfold read_journal_files in H. assert (G : forall l j0, reachable_journal j0 ->
       fold_outcome (fun j f => parse_file depth cwd fs f j) l j0 = Ok j -> reachable_journal j).
    { clear. induction l as [|f l IH]; intros j0 R H; cbn in H; [injection H as <-; exact R|].
      inv_bind H. eapply IH; [|exact H]. unfold parse_file in EQ. destruct (fs _); [|discriminate]. eapply rj_read; eassumption. }
    eapply G; [constructor|exact H]. }
  destruct (accounts_shape j R) as (ps & O & E). exists ps, (sort_strings (report_accounts j)). split; [exact O|].
  unfold execute_command. cbn [nth_error unwrap bind]. rewrite H. cbn [bind]. split; [reflexivity|].
  destruct (sort_strings_spec (report_accounts j)) as [P S]. rewrite <- E. split; [symmetry; exact P|exact S].
Qed.

(** ** Reading a balance line back *)
Definition qchar (c : N) : bool := ((48 <=? c) && (c <=? 57) || (c =? 45) || (c =? 46))%N.
Lemma qchar_iff c : qchar c = true <-> quantity_char c.
Proof. unfold qchar, quantity_char. rewrite !orb_true_iff, andb_true_iff, !N.leb_le, !N.eqb_eq. tauto. Qed.
Fixpoint span (f : N -> bool) (s : str) : str * str :=
  match s with
  | [] => ([], [])
  | c :: r => if f c then let '(a, b) := span f r in (c :: a, b) else ([], s)
  end.
Lemma span_app f s c r : forallb f s = true -> f c = false -> span f (s ++ c :: r) = (s, c :: r).
Proof.
  induction s as [|x s IH]; cbn; intros H Hc; [rewrite Hc; reflexivity|]. apply andb_prop in H as [-> H]. rewrite IH by assumption. reflexivity.
Qed.
Lemma span_all f s : forallb f s = true -> span f s = (s, []).
Proof. induction s as [|x s IH]; cbn; intros H; [reflexivity|]. apply andb_prop in H as [-> H]. rewrite IH by exact H. reflexivity. Qed.

Lemma quantity_text_chars d : wf_dec d -> forallb qchar (d_to_string d) = true /\ d_to_string d <> [].
Proof.
  intros W. destruct (d_to_string_shape d W) as (w & f & E & D1 & D2 & Nw & _). rewrite E.
  assert (G : forall l, forallb is_digit l = true -> forallb qchar l = true).
  { intros l. rewrite !forallb_forall. intros H x Hx. apply H in Hx. unfold is_digit in Hx. unfold qchar. rewrite Hx. reflexivity. }
  split.
  - rewrite !forallb_app. rewrite (G w D1), (G f D2). destruct (d_neg d), (d_s d); reflexivity.
  - destruct (d_neg d); [discriminate|]. destruct w; [congruence|discriminate].
Qed.

Lemma amount_text_decodes a rest :
  wf_amt a -> plain_symbol a -> (rest = [] \/ exists c r, rest = c :: r /\ qchar c = true) ->
  exists s, a_c a = Some s
  /\ span qchar (amount_text a ++ rest) = (d_to_string (a_q a), 32%N :: s ++ rest)
  /\ span (fun c => negb (qchar c)) (s ++ rest) = (s, rest).
Proof.
  intros W (s & E & P) Hr. exists s. split; [exact E|].
  assert (F : forallb (fun c => negb (qchar c)) s = true).
  { apply forallb_forall. intros c Hc. rewrite Forall_forall in P. apply P in Hc. rewrite <- qchar_iff in Hc. apply negb_true_iff. destruct (qchar c); congruence. }
  split.
  - unfold amount_text. rewrite E, <- app_assoc. cbn [app]. apply span_app; [apply quantity_text_chars, W|reflexivity].
  - destruct Hr as [->|(c & r & -> & Hc)]; [rewrite app_nil_r; apply span_all, F|]. apply span_app; [exact F|]. rewrite Hc. reflexivity.
Qed.
Lemma balance_text_head b :
  Forall wf_amt b -> Forall plain_symbol b -> balance_text b = [] /\ b = [] \/ exists c r, balance_text b = c :: r /\ qchar c = true.
Proof.
  intros [|a l W _] _; [left; auto|]. right. unfold balance_text. cbn [flat_map]. unfold amount_text.
  destruct (quantity_text_chars (a_q a) W) as [F N]. destruct (d_to_string (a_q a)) as [|c r]; [congruence|].
  cbn in F. apply andb_prop in F as [F _]. cbn [app]. eauto.
Qed.

Lemma balance_text_injective b1 : forall b2,
  Forall wf_amt b1 -> Forall wf_amt b2 -> Forall plain_symbol b1 -> Forall plain_symbol b2 ->
  balance_text b1 = balance_text b2 -> Forall2 (fun a a' => a_c a = a_c a' /\ aunits a = aunits a' /\ d_s (a_q a) = d_s (a_q a')) b1 b2.
Proof.
  induction b1 as [|a b1 IH]; intros b2 W1 W2 P1 P2 E.
  - destruct (balance_text_head b2 W2 P2) as [[_ ->]|(c & r & H & _)]; [constructor|]. rewrite <- E in H. discriminate.
  - destruct b2 as [|a' b2].
    { destruct (balance_text_head _ W1 P1) as [[_ H]|(c & r & H & _)]; [discriminate|]. rewrite E in H. discriminate. }
    inversion W1 as [|? ? Wa Wb]; inversion W2 as [|? ? Wa' Wb']; inversion P1 as [|? ? Pa Pb]; inversion P2 as [|? ? Pa' Pb']; subst.
    unfold balance_text in E. cbn [flat_map] in E. fold (balance_text b1) in E. fold (balance_text b2) in E.
    destruct (amount_text_decodes a (balance_text b1) Wa Pa) as (s & Es & D1 & D2); [destruct (balance_text_head b1 Wb Pb) as [[? _]|]; auto|].
    destruct (amount_text_decodes a' (balance_text b2) Wa' Pa') as (s' & Es' & D1' & D2'); [destruct (balance_text_head b2 Wb' Pb') as [[? _]|]; auto|].
    rewrite E, D1' in D1. injection D1 as Eq Et. rewrite Et, D2 in D2'. injection D2' as Ess Eb.
    constructor; [|apply IH; assumption]. split; [congruence|]. apply quantity_text_injective; try assumption. congruence.
Qed.
