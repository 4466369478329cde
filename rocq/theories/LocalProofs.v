(** What the line of an account depends on. *)
From Coq Require Import String List NArith ZArith Bool Lia Sorted Permutation.
From Verif Require Import Base Decimal Dates Amount Balance Scanner History Pool Account Journal Xact Parser Report Options Lib.
From Verif Require Import SpecDecimal SpecAmount SpecAccount SpecJournal SpecText SpecReading SpecScan SpecWhole SpecReport SpecCommand SpecEnd SpecOutline SpecShown SpecLocal.
From Verif Require Import BaseFacts XactFacts AccountFacts JournalFacts ReportFacts ReportProofs JournalProofs CommandProofs EndProofs OutlineProofs OrderProofs ShownProofs.
Import ListNotations.
Open Scope list_scope.
Open Scope nat_scope.

(** ** Trees *)
Lemma exists_at_cons m n p : exists_at m (n :: p) <-> exists c, find_child n (ac_children m) = Some c /\ exists_at c p.
Proof.
  unfold exists_at. rewrite get_account_cons. destruct (find_child n (ac_children m)) as [c|]; split.
  - intros H. eauto.
  - intros (c' & E & H). injection E as <-. exact H.
  - intros (a & H). discriminate.
  - intros (c' & E & _). discriminate.
Qed.
Lemma total_local xs xs' a : wf_tree a -> forall a', wf_tree a' -> (forall p, exists_at a p <-> exists_at a' p) ->
  (forall p l l', posts_at a p = Some l -> posts_at a' p = Some l' -> account_amount xs l = account_amount xs' l') ->
  account_total xs a = account_total xs' a'.
Proof.
  induction 1 as [n cs ps ND NC Wc IH]. intros [n' cs' ps'] W' Ex Am.
  assert (ND' : NoDup (map ac_name cs')) by (inversion W'; assumption).
  assert (Wc' : forall c, In c cs' -> wf_tree c) by (inversion W'; assumption).
  assert (C : forall c c', In c cs -> In c' cs' -> ac_name c = ac_name c' -> account_total xs c = account_total xs' c').
  { intros c c' Hc Hc' E. apply IH; [exact Hc|apply Wc', Hc'| |].
    - intros p. specialize (Ex (ac_name c :: p)). rewrite !exists_at_cons in Ex. cbn [ac_children] in Ex. rewrite find_child_in in Ex by assumption. rewrite E in Ex. rewrite find_child_in in Ex by assumption.
      split; intros H.
      + destruct (proj1 Ex) as (d & Ed & Hd); [eauto|]. injection Ed as <-. exact Hd.
      + destruct (proj2 Ex) as (d & Ed & Hd); [eauto|]. injection Ed as <-. exact Hd.
    - intros p l l' Hl Hl'. apply (Am (ac_name c :: p)); rewrite posts_at_cons; cbn [ac_children]; [rewrite find_child_in by assumption; exact Hl|]. rewrite E, find_child_in by assumption. exact Hl'. }
  assert (N1 : forall k cs0 n0 ps0, exists_at (Acct n0 cs0 ps0) [k] <-> exists c, In c cs0 /\ ac_name c = k).
  { intros k cs0 n0 ps0. rewrite exists_at_cons. cbn [ac_children]. split.
    - intros (c & E & _). apply find_child_some in E as [H E]. eauto.
    - intros (c & H & E). destruct (find_child k cs0) as [d|] eqn:F; [exists d; split; [reflexivity|eexists; reflexivity]|]. apply find_child_none in F. elim F. rewrite <- E. apply in_map, H. }
  assert (G : sort_key (map (fun c => (ac_name c, account_total xs c)) cs) = sort_key (map (fun c => (ac_name c, account_total xs' c)) cs')).
  { assert (Ks : forall ys l, map fst (map (fun c => (ac_name c, account_total ys c)) l) = map ac_name l) by (intros ys l; rewrite map_map; reflexivity).
    apply sort_key_perm_eq; [|rewrite Ks; exact ND]. apply NoDup_Permutation.
    - apply (NoDup_map_inv fst). rewrite Ks. exact ND.
    - apply (NoDup_map_inv fst). rewrite Ks. exact ND'.
    - intros x. rewrite !in_map_iff. split.
      + intros (c & <- & Hc). destruct (proj1 (N1 (ac_name c) cs' n' ps')) as (c' & Hc' & E); [apply Ex, N1; eauto|]. exists c'. split; [|exact Hc']. rewrite E. f_equal. symmetry. apply C; auto.
      + intros (c' & <- & Hc'). destruct (proj1 (N1 (ac_name c') cs n ps)) as (c & Hc & E); [apply Ex, N1; eauto|]. exists c. split; [|exact Hc]. rewrite E. f_equal. apply C; auto. }
  cbn [account_total ac_children ac_posts]. rewrite G. rewrite (Am [] ps ps' eq_refl eq_refl). reflexivity.
Qed.

(** ** Journals *)
Lemma account_posts j q l : reachable_journal j -> posts_at (j_master j) q = Some l -> map (get_post (j_xacts j)) l = map Some (posts_in j q).
Proof.
  intros R El. apply reachable_inv in R as [_ _ [L1 L2] _ _].
  assert (Al : map (get_post (j_xacts j)) (refs_from 0 (j_xacts j)) = map Some (all_posts j)) by exact (refs_from_posts 0 [] (j_xacts j) eq_refl).
  unfold posts_in. rewrite <- (refs_filter (j_xacts j) q _ _ Al). f_equal. apply L1 in El as [Sl I]. eapply (sorted_unique ref_lt); [|exact Sl|apply filter_sorted, refs_sorted|].
  - unfold ref_lt. intros r s. lia.
  - apply NoDup_Permutation; [|apply NoDup_filter, refs_from_nodup|].
    + clear -Sl. induction Sl as [|r l S IH F]; constructor; [|exact IH]. intros H. rewrite Forall_forall in F. specialize (F r H). unfold ref_lt in F. lia.
    + intros r. rewrite filter_In, I, all_refs_in. split.
      * intros Er. rewrite Er. split; [eauto|]. destruct (path_dec q q); congruence.
      * intros [_ H]. destruct (account_of (j_xacts j) r) as [y|]; [|discriminate]. destruct (path_dec y q); congruence.
Qed.
Lemma amount_of_posts xs xs' l : forall l' ps ps', map (get_post xs) l = map Some ps -> map (get_post xs') l' = map Some ps' -> map po_amount ps = map po_amount ps' ->
  account_amount xs l = account_amount xs' l'.
Proof.
  unfold account_amount. generalize bal_new. induction l as [|r l IH]; intros b [|r' l'] [|p ps] [|p' ps'] E E' A; try discriminate; [reflexivity|]. cbn [map] in *.
  injection E as E1 E. injection E' as E1' E'. injection A as A1 A. cbn [fold_outcome]. rewrite E1, E1', A1. destruct (po_amount p') as [a|].
  - destruct (bal_add b a) as [b'| |]; cbn [bind]; [eapply IH; eassumption|reflexivity|reflexivity].
  - cbn [bind]. eapply IH; eassumption.
Qed.
Lemma same_total j j' q a a' : reachable_journal j -> reachable_journal j' -> same_below q j j' ->
  get_account (j_master j) q = Some a -> get_account (j_master j') q = Some a' -> account_total (j_xacts j) a = account_total (j_xacts j') a'.
Proof.
  intros R R' S G G'. pose proof (i_tree _ _ (reachable_inv _ R)) as W. pose proof (i_tree _ _ (reachable_inv _ R')) as W'.
  assert (P : forall p, posts_at a p = posts_at (j_master j) (q ++ p)) by (intros p; unfold posts_at; rewrite get_account_app, G; reflexivity).
  assert (P' : forall p, posts_at a' p = posts_at (j_master j') (q ++ p)) by (intros p; unfold posts_at; rewrite get_account_app, G'; reflexivity).
  apply total_local; [exact (wf_get _ _ _ W G)|exact (wf_get _ _ _ W' G')| |].
  - intros p. destruct (S (q ++ p) (prefix_of_app q p)) as [X _]. unfold exists_at in *. rewrite !get_account_app, G, G' in X. exact X.
  - intros p l l' El El'. destruct (S (q ++ p) (prefix_of_app q p)) as [_ X]. rewrite P in El. rewrite P' in El'. eapply amount_of_posts; [apply account_posts; eassumption|apply account_posts; eassumption|exact X].
Qed.

(** ** Lines *)
Lemma in_order_unique m ps ps' : in_order m ps -> in_order m ps' -> ps = ps'.
Proof.
  intros [S I] [S' I']. apply (sorted_unique path_lt); [|exact S|exact S'|].
  - intros a b H H'. elim (path_lt_asym _ _ H H').
  - apply NoDup_Permutation; [apply sorted_nodup, S|apply sorted_nodup, S'|]. intros p. rewrite I, I'. reflexivity.
Qed.
Lemma combine_forall2 {A B} (P : A -> B -> Prop) l m : Forall2 P l m -> forall x y, In (x, y) (combine l m) -> P x y.
Proof. induction 1 as [|x y l m H F IH]; intros u v I; [destruct I|]. destruct I as [I|I]; [injection I as <- <-; exact H|apply IH, I]. Qed.
Lemma line_shape j out q l : reachable_journal j -> balance_report j = Ok out -> line_for j out q l ->
  exists a b, get_account (j_master j) q = Some a /\ account_total (j_xacts j) a = Ok b /\ l = lit "Account " ++ shown_name q ++ lit " has balance " ++ shown_amounts b.
Proof.
  intros R E (ps & O & L & I). destruct (report_shape j out R E) as (ps' & O' & F). rewrite (in_order_unique _ _ _ O O') in I.
  destruct (combine_forall2 _ _ _ F _ _ I) as (a & b & G & T & ->). exists a, b. split; [exact G|]. split; [exact T|]. rewrite <- shown_fullname. reflexivity.
Qed.
Lemma same_line j j' out out' q l l' : reachable_journal j -> reachable_journal j' -> same_below q j j' ->
  balance_report j = Ok out -> balance_report j' = Ok out' -> line_for j out q l -> line_for j' out' q l' -> l = l'.
Proof.
  intros R R' S B B' H H'. destruct (line_shape _ _ _ _ R B H) as (a & b & G & T & ->). destruct (line_shape _ _ _ _ R' B' H') as (a' & b' & G' & T' & ->).
  pose proof (same_total _ _ _ _ _ R R' S G G') as E. rewrite T, T' in E. injection E as ->. reflexivity.
Qed.
Lemma line_exists j out q : reachable_journal j -> balance_report j = Ok out -> exists_at (j_master j) q -> exists l, line_for j out q l.
Proof.
  intros R E X. destruct (report_shape j out R E) as (ps & O & F). pose proof (proj2 (proj2 O q) X) as I. apply In_nth_error in I as (n & N).
  assert (L : length ps = length out) by (clear -F; induction F; cbn; congruence). destruct (nth_error out n) as [l|] eqn:M.
  - exists l, ps. split; [exact O|]. split; [exact L|]. clear -N M. revert out n N M. induction ps as [|p ps IH]; intros [|o out] [|n] N M; try discriminate; cbn in *.
    + injection N as ->. injection M as ->. left. reflexivity.
    + right. eapply IH; eassumption.
  - apply nth_error_None in M. assert (n < length ps) by (apply nth_error_Some; congruence). lia.
Qed.

(** ** Reading more *)
Lemma read_same_below depth cwd fs src j j' q : reachable_journal j -> read_into_journal depth cwd fs src j = Ok j' ->
  (forall its, outline cwd fs None src its -> leaves_alone q its) -> same_below q j j'.
Proof.
  intros R H Al. destruct (read_outline _ _ _ _ _ _ R H) as (its & new & O & X & F). specialize (Al its O).
  assert (Nw : forall p, In p (flat_map x_posts new) -> prefix_of q (po_account p) = false).
  { intros p Hp. apply in_flat_map in Hp as (x & Hx & Hp). assert (Z : exists l a, In l (posting_lines its) /\ account_written l a /\ po_account p = components a).
    { unfold posting_lines. clear -F Hx Hp. induction F as [|o y os ys (_ & Fl) F IH]; [destruct Hx|]. cbn [flat_map]. destruct Hx as [->|Hx].
      - clear IH F. induction Fl as [|l p' ls ps (a & Wa & Ea) Fl IH]; [destruct Hp|]. destruct Hp as [->|Hp]; [exists l, a; split; [left; reflexivity|auto]|]. destruct (IH Hp) as (l' & a' & I & Q). exists l', a'. split; [|exact Q].
        apply in_app_iff in I as [I|I]; apply in_app_iff; [left; right; exact I|right; exact I].
      - destruct (IH Hx) as (l & a & I & Q). exists l, a. split; [apply in_app_iff; right; exact I|exact Q]. }
    destruct Z as (l & a & I & Wa & ->). eapply Al; eassumption. }
  intros p Pp. split.
  - rewrite (read_accounts _ _ _ _ _ _ p R H). split; [auto|]. intros [E|(x & Hx & Px)]; [exact E|].
    unfold all_posts in Hx. rewrite X, flat_map_app in Hx. apply in_app_iff in Hx as [Hx|Hx].
    + apply reachable_inv in R as [_ _ [_ L2] _ _]. assert (Ax : exists r, account_of (j_xacts j) r = Some (po_account x)).
      { apply in_flat_map in Hx as (y & Hy & Hx). apply In_nth_error in Hy as (n & Hn). apply In_nth_error in Hx as (k & Hk). exists (n, k). unfold account_of, get_post. cbn [fst snd]. rewrite Hn, Hk. reflexivity. }
      destruct Ax as (r & Ax). apply L2 in Ax. apply prefix_of_iff in Px as (s & Es). rewrite Es in Ax. destruct Ax as (a & Ga). rewrite get_account_app in Ga. unfold exists_at. destruct (get_account (j_master j) p); [eauto|discriminate].
    + specialize (Nw x Hx). apply prefix_of_iff in Pp as (s & ->). apply prefix_of_iff in Px as (t & Et). rewrite Et, <- app_assoc, prefix_of_app in Nw. discriminate.
  - f_equal. unfold posts_in, all_posts. rewrite X, flat_map_app, filter_app. assert (Z : filter (in_account po_account p) (flat_map x_posts new) = []).
    { induction (flat_map x_posts new) as [|y l IH]; [reflexivity|]. cbn [filter]. destruct (in_account po_account p y) eqn:I; [|apply IH; intros z Hz; apply Nw; right; exact Hz].
      apply in_account_iff in I. specialize (Nw y (or_introl eq_refl)). rewrite I, Pp in Nw. discriminate. }
    rewrite Z, app_nil_r. reflexivity.
Qed.
Lemma read_same_line depth cwd fs src j j' q out out' : reachable_journal j -> read_into_journal depth cwd fs src j = Ok j' ->
  (forall its, outline cwd fs None src its -> leaves_alone q its) -> exists_at (j_master j) q ->
  balance_report j = Ok out -> balance_report j' = Ok out' -> exists l, line_for j out q l /\ line_for j' out' q l.
Proof.
  intros R H Al Ex B B'. assert (R' : reachable_journal j') by (eapply rj_read; eassumption). pose proof (read_same_below _ _ _ _ _ _ _ R H Al) as S.
  destruct (line_exists _ _ _ R B Ex) as (l & L). destruct (line_exists j' out' q R' B') as (l' & L'); [apply (S q), Ex; rewrite <- (app_nil_r q) at 2; apply prefix_of_app|].
  exists l. split; [exact L|]. rewrite (same_line _ _ _ _ _ _ _ R R' S B B' L L'). exact L'.
Qed.
(** The balance command, on whatever files. *)
Lemma run_same_line q d cwd fs args verb cmds files sources j out d' cwd' fs' args' verb' cmds' files' sources' j' out' l l' :
  args_mean args (verb :: cmds) files -> balance_verb verb -> files_are fs files sources -> read_into_journal d cwd fs (joined sources) journal_new = Ok j ->
  args_mean args' (verb' :: cmds') files' -> balance_verb verb' -> files_are fs' files' sources' -> read_into_journal d' cwd' fs' (joined sources') journal_new = Ok j' ->
  same_below q j j' -> run d cwd fs args = Ok out -> run d' cwd' fs' args' = Ok out' -> line_for j out q l -> line_for j' out' q l' -> l = l'.
Proof.
  intros A V F H A' V' F' H' S B B'. rewrite (run_balance d cwd fs _ _ _ _ _ A F V), H in B. rewrite (run_balance d' cwd' fs' _ _ _ _ _ A' F' V'), H' in B'. cbn [bind] in B, B'.
  apply same_line; [eapply rj_read; [apply rj_new|exact H]|eapply rj_read; [apply rj_new|exact H']|exact S|exact B|exact B'].
Qed.
