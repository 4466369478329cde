(** The way from written files to a printed report. *)
From Coq Require Import String List NArith ZArith Bool Lia Sorted Permutation.
From Verif Require Import Base Decimal Dates Amount Balance Scanner History Pool Account Journal Xact Parser Report Options Lib.
From Verif Require Import SpecDecimal SpecAmount SpecDates SpecPool SpecAccount SpecXact SpecJournal SpecText SpecReading SpecScan SpecWhole SpecReport SpecCommand SpecEnd.
From Verif Require Import BaseFacts BalanceFacts AccountFacts AccountProofs XactFacts XactProofs JournalFacts JournalProofs ReportFacts ReportProofs CommandProofs WholeProofs.
Import ListNotations.
Open Scope list_scope.
Open Scope nat_scope.

(** ** Accounts *)
Lemma shape_posts j : concat (shape (j_xacts j)) = map po_account (all_posts j).
Proof. unfold shape, all_posts. induction (j_xacts j) as [|x xs IH]; [reflexivity|]. cbn [map concat flat_map]. rewrite map_app, IH. reflexivity. Qed.
Definition named (j0 j : journal) : Prop :=
  forall q, exists_at (j_master j) q -> exists_at (j_master j0) q \/ exists p, In p (concat (shape (j_xacts j))) /\ prefix_of q p = true.
Lemma exists_prefix m q : forall p, exists_at m p -> prefix_of q p = true -> exists_at m q.
Proof.
  intros p [a H] E. apply prefix_of_iff in E as (r & ->). unfold exists_at. revert m H. induction q as [|n q IH]; intros m H; [cbn; eauto|].
  cbn [get_account app] in *. destruct (find_child n (ac_children m)); [apply IH, H|discriminate].
Qed.
Lemma named_read depth cwd fs src j j' : inv Top j -> read_into_journal depth cwd fs src j = Ok j' -> named j j'.
Proof.
  intros I0 H. assert (P : forall m j', inv m j' /\ named j j' -> named j j') by (intros ? ? [_ E]; exact E). eapply P with (m := Top).
  eapply (read_preserves (fun m j' => inv m j' /\ named j j')); [..|split; [exact I0|intros q X; left; exact X]|exact H]; clear -j.
  - intros k c r k' [I N] D H. split; [eapply inv_create; eassumption|]. apply create_xact_inv in H as (x & d & -> & X & _); [|exact D].
    intros q Hq. destruct (N q Hq) as [A|(p & Hp & E)]; [left; exact A|right]. exists p. split; [|exact E].
    cbn [set_xacts j_xacts]. unfold shape in *. rewrite map_app, concat_app. apply in_or_app. left. exact Hp.
  - intros k xi s k' [I N] H. split; [eapply inv_post; eassumption|]. pose proof (i_tree _ _ I) as W.
    destruct (parse_post_inv _ _ _ _ W H) as (x & acct & amt & cost & m1 & Ex & E & _ & _ & _ & W1 & X1 & P1 & Hp).
    destruct (push_post_spec m1 acct (xi, length (x_posts x)) W1 X1) as (m2 & Hp' & _ & _ & P2). rewrite Hp in Hp'. injection Hp' as <-.
    destruct (i_done _ _ I) as (xs & (Lx & x' & d & Ej & _) & _).
    assert (x' = x) by (rewrite Ej, nth_error_app2, <- Lx, Nat.sub_diag in Ex by lia; injection Ex as ->; reflexivity). subst x'.
    unfold add_post in E. rewrite Ej, <- Lx in E. rewrite (update_nth_mid (fun x => set_posts x (x_posts x ++ [mkPost acct amt cost None])) xs x []) in E.
    intros q Hq. apply posts_at_exists in Hq. rewrite P2 in Hq.
    assert (Hq' : posts_at m1 q <> None) by (intros Z; rewrite Z in Hq; destruct (list_eq_dec _ _ _) in Hq; apply Hq; reflexivity).
    rewrite P1 in Hq'. rewrite E. unfold shape in *. rewrite map_app, concat_app. cbn [map concat set_posts x_posts]. rewrite map_app, app_nil_r. cbn [map po_account].
    destruct (posts_at (j_master k) q) eqn:Eq.
    + destruct (N q) as [A|(p & Hi & Ep)]; [apply posts_at_exists; congruence|left; exact A|right]. exists p. split; [|exact Ep].
      rewrite Ej in Hi. unfold shape in Hi. rewrite map_app, concat_app in Hi. cbn [map concat] in Hi. rewrite app_nil_r in Hi. rewrite app_assoc. apply in_or_app. left. exact Hi.
    + destruct (prefix_of q acct) eqn:Ep; [|congruence]. right. exists acct. split; [|exact Ep]. apply in_or_app. right. apply in_or_app. right. left. reflexivity.
  - intros k xi s k' [I N] H. split; [eapply inv_note; eassumption|]. destruct (i_done _ _ I) as (xs & (Lx & x & d & Ej & _) & _).
    rewrite (journal_eta k), Ej, <- Lx in H. apply note_inv in H as (x' & -> & _ & X2 & _). intros q Hq. destruct (N q Hq) as [A|(p & Hp & E)]; [left; exact A|right].
    exists p. split; [|exact E]. rewrite Ej in Hp. unfold shape in *. rewrite map_app in *. cbn [j_xacts map] in *. rewrite map_app. cbn [map]. rewrite X2. exact Hp.
  - intros k xi k' [I N] H. split; [eapply inv_final; eassumption|]. destruct (i_done _ _ I) as (xs & (Lx & x & d & Ej & _) & _).
    unfold finalize in H. rewrite Ej, nth_error_app2, <- Lx, Nat.sub_diag in H by lia. cbn [nth_error] in H. inv_bind H. destruct v as [pool' posts']. injection H as <-.
    intros q Hq. destruct (N q Hq) as [A|(p & Hp & E)]; [left; exact A|right]. exists p. split; [|exact E]. cbn [j_xacts].
    rewrite (update_nth_mid (fun x => set_posts x posts') xs x []). rewrite Ej in Hp. unfold shape in *. rewrite map_app in *. cbn [map set_posts x_posts] in *.
    rewrite (same_posting_shape _ _ (finalize_frame _ _ _ _ _ EQ)). exact Hp.
  - intros k line p [I N] H. split; [eapply inv_price; eassumption|exact N].
Qed.
Lemma get_post_in xs r p : get_post xs r = Some p -> In p (flat_map x_posts xs).
Proof.
  unfold get_post. destruct (nth_error xs (fst r)) as [x|] eqn:E; [|discriminate]. intros H. apply in_flat_map. exists x. split; [eapply nth_error_In, E|eapply nth_error_In, H].
Qed.
Lemma in_get_post xs p : In p (flat_map x_posts xs) -> exists r, get_post xs r = Some p.
Proof.
  intros H. apply in_flat_map in H as (x & Hx & Hp). apply In_nth_error in Hx as (i & Hi). apply In_nth_error in Hp as (k & Hk).
  exists (i, k). unfold get_post. cbn [fst snd]. rewrite Hi. exact Hk.
Qed.
Lemma read_accounts depth cwd fs src j j' q : reachable_journal j -> read_into_journal depth cwd fs src j = Ok j' ->
  (exists_at (j_master j') q <-> exists_at (j_master j) q \/ exists p, In p (all_posts j') /\ prefix_of q (po_account p) = true).
Proof.
  intros R H. pose proof (reachable_inv _ R) as I. pose proof (inv_read _ _ _ _ _ _ I H) as I'. split.
  - intros X. destruct (named_read _ _ _ _ _ _ I H q X) as [A|(p & Hp & E)]; [left; exact A|right].
    rewrite shape_posts in Hp. apply in_map_iff in Hp as (x & <- & Hx). eauto.
  - intros [A|(p & Hp & E)].
    + destruct (read_appends _ _ _ _ _ _ R H) as (_ & _ & K). apply posts_at_exists in A. apply posts_at_exists.
      destruct (posts_at (j_master j) q) as [l|] eqn:El; [|congruence]. destruct (K q l El) as (new & -> & _). discriminate.
    + destruct (in_get_post _ _ Hp) as (r & Hr). eapply exists_prefix; [|exact E]. apply (proj2 (i_links _ _ I') r). unfold account_of. rewrite Hr. reflexivity.
Qed.
Lemma shown_fullname p : fullname p = shown_name p.
Proof.
  destruct (rev p) as [|n up] eqn:E.
  - apply (f_equal (@rev _)) in E. rewrite rev_involutive in E. subst p. reflexivity.
  - unfold fullname. rewrite E. apply (f_equal (@rev _)) in E. rewrite rev_involutive in E. cbn [rev] in E. subst p.
    unfold shown_name. destruct (rev up ++ [n]) as [|x l] eqn:D; [destruct (rev up); discriminate|]. rewrite <- D. clear D x l. rewrite removelast_last, last_last.
    assert (X : forall up full, fold_left (fun full n => match n with [] => full | _ => n ++ 58%N :: full end) up full
      = fold_left (fun full n => match n with [] => full | _ => n ++ 58%N :: full end) (filter (fun n => negb (is_empty n)) up) full).
    { clear. induction up as [|n up IH]; intros full; [reflexivity|]. cbn [fold_left filter]. destruct n; [apply IH|]. cbn [is_empty negb fold_left]. apply IH. }
    rewrite X, fullname_fold.
    2: { apply Forall_forall. intros w Hw. apply filter_In in Hw as [_ Hw]. destruct w; [discriminate|]. unfold nonempty. discriminate. }
    assert (F : forall l, filter (fun n => negb (is_empty n)) (rev l) = rev (filter (fun n : str => negb (is_empty n)) l)).
    { clear. induction l as [|y l IH]; [reflexivity|]. cbn [rev filter]. rewrite filter_app, IH. cbn [filter]. destruct (negb (is_empty y)); cbn [rev]; [reflexivity|apply app_nil_r]. }
    rewrite F. unfold str in *. destruct (rev (filter _ up)) as [|x l]; [reflexivity|]. rewrite join_app by discriminate. reflexivity.
Qed.

(** ** Entries *)
Definition posting_says (scale : nat) (e : entry) (p : post) : Prop :=
  po_account p = fst (fst e) /\ exists a, po_amount p = Some a /\ a_c a = snd (fst e) /\ aunits a = snd e /\ d_s (a_q a) <= scale.
Lemma Forall2_in_l {A B} (R : A -> B -> Prop) l l' : Forall2 R l l' -> Forall2 (fun x y => In x l /\ R x y) l l'.
Proof.
  induction 1 as [|x y l l' H F IH]; constructor; [split; [left; reflexivity|exact H]|].
  eapply Forall2_impl; [|exact IH]. intros a b [I K]. split; [right; exact I|exact K].
Qed.
Lemma has_written w : well_formed w -> exists s ss, symbols w = s :: ss.
Proof.
  intros (L & U & _). unfold symbols. destruct (wx_posts w) as [|p1 [|p2 ps]]; cbn [length] in L; [lia|lia|].
  cbn [flat_map]. destruct (wp_amount p1) as [[[u k] s]|] eqn:E1; [eexists _, _; reflexivity|]. destruct (wp_amount p2) as [[[u k] s]|] eqn:E2; [eexists _, _; reflexivity|].
  assert (X : 0 = 1); [|discriminate]. apply U; cbn; [rewrite E1|rewrite E2]; reflexivity.
Qed.
Lemma currency_all w : well_formed w -> forall p u k s, In p (wx_posts w) -> wp_amount p = Some (u, k, s) -> commodity_of s = currency w.
Proof.
  intros W p u k s Hp E. destruct W as (_ & _ & (sym & Hs) & _). unfold currency. rewrite Forall_forall in Hs.
  assert (Hh : symbols w = [] \/ hd [] (symbols w) = sym).
  { unfold symbols. destruct (flat_map _ (wx_posts w)) as [|x l] eqn:F; [left; reflexivity|right]. cbn [hd].
    assert (X : In x (x :: l)) by (left; reflexivity). rewrite <- F in X. apply in_flat_map in X as (q & Hq & X). destruct (wp_amount q) as [[[u' k'] s']|] eqn:Eq; [|destruct X].
    destruct X as [<-|[]]. eapply Hs; eassumption. }
  rewrite (Hs _ Hp _ _ _ E). destruct Hh as [Hh| ->]; [|reflexivity]. exfalso.
  assert (X : In s (symbols w)) by (unfold symbols; apply in_flat_map; exists p; split; [exact Hp|rewrite E; left; reflexivity]). rewrite Hh in X. destruct X.
Qed.
Lemma currency_written w : well_formed w -> exists p u k s, In p (wx_posts w) /\ wp_amount p = Some (u, k, s).
Proof.
  intros W. destruct (has_written w W) as (s & ss & E). assert (X : In s (symbols w)) by (rewrite E; left; reflexivity).
  apply in_flat_map in X as (p & Hp & X). destruct (wp_amount p) as [[[u k] s']|] eqn:Ep; [|destruct X]. eauto 8.
Qed.
Lemma xact_says scale w x : well_formed w -> no_positive_rest w ->
  Forall (fun p => forall u k s, wp_amount p = Some (u, k, s) -> k <= scale) (wx_posts w) -> xact_is w x ->
  Forall2 (posting_says scale) (map (fun p => (components (wp_account p), currency w, value w p)) (wx_posts w)) (x_posts x).
Proof.
  intros W N K (_ & _ & _ & _ & F). apply Forall2_in_l in F.
  assert (G : forall l, (forall p, In p l -> In p (wx_posts w)) -> forall l', Forall2 (fun wp p => In wp (wx_posts w) /\ posting_is w wp p) l l' ->
    Forall2 (posting_says scale) (map (fun p => (components (wp_account p), currency w, value w p)) l) l').
  2: { apply G; [auto|]. exact F. }
  clear F. intros l _ l' F. induction F as [|wp p l l' [Hin (A & _ & _ & a & E & M)] F IH]; cbn [map]; constructor; [|exact IH].
  split; [exact A|]. exists a. split; [exact E|]. cbn [fst snd]. unfold value. rewrite Forall_forall in K. destruct (wp_amount wp) as [[[u k] s]|] eqn:Ew.
  - destruct M as (_ & U & Sc & C). split; [rewrite C; eapply currency_all; eassumption|]. split; [exact U|]. rewrite Sc. eapply K; eassumption.
  - destruct M as (U & C & Sc). rewrite Forall_forall in C. destruct (currency_written w W) as (q & u & k & s & Hq & Eq). split; [|split].
    + rewrite (C q Hq _ _ _ Eq). eapply currency_all; eassumption.
    + rewrite U. destruct N as [N|N]; [|rewrite Z.abs_eq by exact N; reflexivity]. rewrite Forall_forall in N. destruct (N wp Hin Ew).
    + apply Sc. apply Forall_forall. exact K.
Qed.
Lemma journal_says scale ws : Forall well_formed ws -> Forall no_positive_rest ws ->
  Forall (fun w => Forall (fun p => forall u k s, wp_amount p = Some (u, k, s) -> k <= scale) (wx_posts w)) ws ->
  forall xs, Forall2 xact_is ws xs -> Forall2 (posting_says scale) (entries ws) (flat_map x_posts xs).
Proof.
  intros W N K xs F. induction F as [|w x ws xs I F IH]; [constructor|]. inversion W; inversion N; inversion K; subst. unfold entries in *. cbn [flat_map].
  apply Forall2_app; [apply xact_says; assumption|apply IH; assumption].
Qed.
Lemma says_filter scale q es ps : Forall2 (posting_says scale) es ps ->
  Forall2 (posting_says scale) (below q es) (filter (fun p => prefix_of q (po_account p)) ps).
Proof.
  unfold below. induction 1 as [|e p es ps H F IH]; [constructor|]. cbn [filter]. pose proof H as (E & _). rewrite E. destruct (prefix_of q (fst (fst e))); [constructor; assumption|exact IH].
Qed.
Definition amount_says (scale : nat) (e : entry) (a : amount) : Prop := a_c a = snd (fst e) /\ aunits a = snd e /\ d_s (a_q a) <= scale.
Lemma says_amounts scale es ps : Forall2 (posting_says scale) es ps -> Forall2 (amount_says scale) es (amounts_of ps).
Proof.
  unfold amounts_of. induction 1 as [|e p es ps (_ & a & E & C & U & K) F IH]; [constructor|]. cbn [flat_map]. rewrite E. constructor; [|exact IH]. split; [exact C|split; assumption].
Qed.
Lemma says_total scale es l c : Forall2 (amount_says scale) es l -> total c l = sum_in c es.
Proof.
  unfold total, sum_in, in_comm. induction 1 as [|e a es l (C & U & _) F IH]; [reflexivity|]. cbn [filter]. rewrite C. destruct (comm_dec (snd (fst e)) c); [|exact IH].
  cbn [map sumZ fold_right]. change (fold_right Z.add 0%Z) with sumZ. rewrite U, IH. reflexivity.
Qed.
Lemma says_comms scale es l c : Forall2 (amount_says scale) es l -> (In c (map a_c l) <-> exists e, In e es /\ snd (fst e) = c).
Proof.
  induction 1 as [|e a es l (C & _) F IH]; cbn [map In]; [split; [intros []|intros (? & [] & _)]|]. rewrite IH, C. split.
  - intros [X|(e' & Hi & X)]; [exists e; auto|exists e'; auto].
  - intros (e' & [<-|Hi] & X); [left; exact X|right; eauto].
Qed.
Lemma says_fits scale es l : scale <= 28 -> Forall wf_amt l -> Forall2 (amount_says scale) es l ->
  (sumZ (map (fun e => Z.abs (snd e)) es) < 2 ^ 96 * 10 ^ Z.of_nat (28 - scale))%Z -> fits_amts l.
Proof.
  intros L W F B. assert (S : Forall (fun a => d_s (a_q a) <= scale) l) by (clear -F; induction F as [|? ? ? ? (_ & _ & K)]; constructor; auto).
  assert (E : map (fun e => Z.abs (snd e)) es = map Z.abs (map aunits l)) by (clear -F; induction F as [|? ? ? ? (_ & U & _) _ IH]; [reflexivity|]; cbn [map]; rewrite U, IH; reflexivity).
  rewrite E, (units_scaled_sum scale l W S L) in B. apply Z.mul_lt_mono_pos_r in B; [|apply Z.pow_pos_nonneg; lia].
  split; [exact W|]. intros c. exists scale. split; [exact L|]. split.
  - apply Forall_map. unfold in_comm. rewrite Forall_forall in *. intros a Ha. apply filter_In in Ha as [Ha _]. auto.
  - eapply Z.le_lt_trans; [|exact B]. rewrite !map_map. apply in_comm_sum_le. rewrite Forall_forall in W. intros a Ha. apply scaled_abs_nonneg, W, Ha.
Qed.

(** ** Files *)
Lemma writes_app l1 ws1 : writes_journal l1 ws1 -> forall l2 ws2, writes_journal l2 ws2 -> writes_journal (l1 ++ nl :: l2) (ws1 ++ ws2).
Proof.
  induction 1 as [|l lines ws Hl H IH|h ps e lines w ws Hh Hp He H IH|h ps w Hh Hp]; intros l2 ws2 H2.
  - apply wj_inert; [|exact H2]. exists nl. split; [reflexivity|left; reflexivity].
  - cbn [app]. apply wj_inert; [exact Hl|]. apply IH, H2.
  - cbn [app]. rewrite <- app_assoc. cbn [app]. apply wj_xact; try assumption. apply IH, H2.
  - cbn [app]. apply wj_xact; try assumption. left. reflexivity.
Qed.
Lemma files_written fs files wss : Forall2 (file_says fs) files wss ->
  exists sources lines, files_are fs files sources /\ joined sources = map Some lines /\ writes_journal lines (concat wss).
Proof.
  induction 1 as [|f ws files wss (t & ls & Ef & Lo & Wj) F (srcs & lines & Fa & J & Wl)].
  - exists [], []. split; [constructor|]. split; [reflexivity|constructor].
  - exists (text_source t :: srcs), (ls ++ nl :: lines). split; [|split].
    + constructor; [|exact Fa]. split; [exact Ef|]. unfold decodable, text_source. apply Forall_map. apply Forall_forall. discriminate.
    + unfold joined in *. cbn [flat_map]. rewrite J. unfold text_source. rewrite (split_lines_of _ _ Lo), map_app, <- app_assoc. reflexivity.
    + cbn [concat]. apply writes_app; assumption.
Qed.
Lemma files_read depth cwd fs files wss : Forall2 (file_says fs) files wss -> Forall well_formed (concat wss) ->
  exists sources j, files_are fs files sources /\ read_into_journal depth cwd fs (joined sources) journal_new = Ok j
    /\ reachable_journal j /\ Forall2 xact_is (concat wss) (j_xacts j)
    /\ forall q, exists_at (j_master j) q <-> q = [] \/ exists p, In p (all_posts j) /\ prefix_of q (po_account p) = true.
Proof.
  intros F W. destruct (files_written _ _ _ F) as (srcs & lines & Fa & J & Wl).
  destruct (journal_written (include_file depth cwd fs) lines _ Wl W journal_new) as (m & pl & new & E & _ & N); [apply wf_leaf|].
  exists srcs, (mkJournal m pl new). split; [exact Fa|].
  assert (R : read_into_journal depth cwd fs (joined srcs) journal_new = Ok (mkJournal m pl new)) by (rewrite J; exact E).
  split; [exact R|]. split; [eapply rj_read; [apply rj_new|exact R]|]. split; [exact N|]. intros q. rewrite (read_accounts _ _ _ _ _ _ q rj_new R).
  split; (intros [A|A]; [left|right; exact A]).
  - destruct A as [a A]. destruct q; [reflexivity|discriminate A].
  - subst q. eexists. reflexivity.
Qed.
Definition names (e : entry) (p : post) : Prop := po_account p = fst (fst e).
Lemma journal_names ws xs : Forall2 xact_is ws xs -> Forall2 names (entries ws) (flat_map x_posts xs).
Proof.
  induction 1 as [|w x ws xs (_ & _ & _ & _ & I) F IH]; [constructor|]. unfold entries in *. cbn [flat_map]. apply Forall2_app; [|exact IH].
  assert (G : forall l l', Forall2 (posting_is w) l l' -> Forall2 names (map (fun p => (components (wp_account p), currency w, value w p)) l) l'); [|apply G, I].
  clear. induction 1 as [|wp p l l' (A & _) F IH]; [constructor|]. cbn [map]. constructor; [exact A|exact IH].
Qed.
Lemma said_accounts es j ps : Forall2 names es (all_posts j) -> in_order (j_master j) ps ->
  (forall q, exists_at (j_master j) q <-> q = [] \/ exists p, In p (all_posts j) /\ prefix_of q (po_account p) = true) -> accounts_of_entries es ps.
Proof.
  intros S (O & I) A. split; [exact O|]. intros p. rewrite I, A. apply or_iff_compat_l. clear -S. unfold names in S. induction S as [|e x es xs Ex F IH].
  - split; intros (? & [] & _).
  - split; intros (y & [<-|Hy] & Py).
    + exists e. split; [left; reflexivity|]. rewrite <- Ex. exact Py.
    + destruct (proj1 IH (ex_intro _ y (conj Hy Py))) as (e' & He & Pe). exists e'. split; [right; exact He|exact Pe].
    + exists x. split; [left; reflexivity|]. rewrite Ex. exact Py.
    + destruct (proj2 IH (ex_intro _ y (conj Hy Py))) as (e' & He & Pe). exists e'. split; [right; exact He|exact Pe].
Qed.
Lemma says_names scale es ps : Forall2 (posting_says scale) es ps -> Forall2 names es ps.
Proof. apply Forall2_impl. intros e p [E _]. exact E. Qed.
Lemma balance_of_entries depth cwd fs args verb cmds files srcs j es scale :
  args_mean args (verb :: cmds) files -> balance_verb verb -> files_are fs files srcs ->
  read_into_journal depth cwd fs (joined srcs) journal_new = Ok j -> reachable_journal j ->
  (forall q, exists_at (j_master j) q <-> q = [] \/ exists p, In p (all_posts j) /\ prefix_of q (po_account p) = true) ->
  scale <= 28 -> Forall2 (posting_says scale) es (all_posts j) -> (sumZ (map (fun e => Z.abs (snd e)) es) < 2 ^ 96 * 10 ^ Z.of_nat (28 - scale))%Z ->
  exists out ps, run depth cwd fs args = Ok out /\ accounts_of_entries es ps
    /\ Forall2 (fun p line => exists b, totals_said (below p es) b
                /\ line = lit "Account " ++ shown_name p ++ lit " has balance " ++ shown_amounts b) ps out.
Proof.
  intros A V Fa Rd R Ex L S B. rewrite (run_balance depth cwd fs _ _ _ _ _ A Fa V), Rd. cbn [bind].
  assert (Wf : Forall wf_amt (amounts_of (all_posts j))).
  { pose proof (i_posts _ _ (reachable_inv _ R)) as Q. clear -Q. unfold amounts_of. induction Q as [|p ps [[Wa _] _] Q IH]; [constructor|]. cbn [flat_map].
    apply Forall_app. split; [|exact IH]. destruct (po_amount p) as [a|] eqn:E; constructor; [apply Wa; reflexivity|constructor]. }
  assert (Ft : fits_amts (amounts_of (all_posts j))) by (eapply says_fits; [exact L|exact Wf|apply says_amounts, S|exact B]).
  destruct (report_succeeds j R Ft) as (out & E). destruct (report_shape j out R E) as (ps & O & G). exists out, ps. split; [exact E|].
  split; [apply (said_accounts _ j); [eapply says_names, S|exact O|exact Ex]|]. eapply Forall2_impl; [|exact G]. intros p line (a & b & Ga & T & ->).
  assert (Fb : fits_amts (amounts_of (posts_below j p))).
  { destruct (below_sub j p []) as (r & P). rewrite below_master in P. cbn [app] in P. eapply fits_amts_sub; eassumption. }
  destruct (total_below j p a R Ga Fb) as (b' & T' & Nd & Cm & Wb & Hs). rewrite T in T'. injection T' as <-. exists b. split; [|rewrite shown_fullname; reflexivity].
  pose proof (says_amounts _ _ _ (says_filter scale p _ _ S)) as Sb. fold (posts_below j p) in Sb.
  split; [exact Nd|]. split; [intros c; rewrite Cm; eapply says_comms, Sb|]. split; [exact Wb|].
  intros x Hx. rewrite <- (says_total _ _ _ (a_c x) Sb), <- Hs. symmetry. apply total_nodup; assumption.
Qed.
Lemma accounts_of_names depth cwd fs args verb cmds files srcs j es :
  args_mean args (verb :: cmds) files -> accounts_verb verb -> files_are fs files srcs ->
  read_into_journal depth cwd fs (joined srcs) journal_new = Ok j -> reachable_journal j ->
  (forall q, exists_at (j_master j) q <-> q = [] \/ exists p, In p (all_posts j) /\ prefix_of q (po_account p) = true) ->
  Forall2 names es (all_posts j) ->
  exists out ps, run depth cwd fs args = Ok out /\ accounts_of_entries es ps
    /\ Permutation out (map (fun p => last p []) ps) /\ StronglySorted (fun a b => str_lt a b \/ a = b) out.
Proof.
  intros A V Fa Rd R Ex N. rewrite (run_accounts depth cwd fs _ _ _ _ _ A Fa V), Rd. cbn [bind]. destruct (accounts_shape j R) as (ps & O & E).
  exists (sort_strings (report_accounts j)), ps. split; [reflexivity|]. split; [apply (said_accounts _ j); [exact N|exact O|exact Ex]|].
  destruct (sort_strings_spec (report_accounts j)) as [P S]. rewrite <- E. split; [symmetry; exact P|exact S].
Qed.
Lemma balance_end depth cwd fs args verb cmds files wss :
  args_mean args (verb :: cmds) files -> balance_verb verb -> Forall2 (file_says fs) files wss ->
  Forall well_formed (concat wss) -> Forall no_positive_rest (concat wss) -> sums_fit (concat wss) ->
  exists out ps, run depth cwd fs args = Ok out /\ accounts_said (concat wss) ps
    /\ Forall2 (fun p line => exists b, totals_said (below p (entries (concat wss))) b
                /\ line = lit "Account " ++ shown_name p ++ lit " has balance " ++ shown_amounts b) ps out.
Proof.
  intros A V F W N (scale & L & K & B). destruct (files_read depth cwd fs _ _ F W) as (srcs & j & Fa & Rd & R & X & Ex).
  exact (balance_of_entries depth cwd fs _ _ _ _ _ _ _ scale A V Fa Rd R Ex L (journal_says scale _ W N K _ X) B).
Qed.
Lemma accounts_end depth cwd fs args verb cmds files wss :
  args_mean args (verb :: cmds) files -> accounts_verb verb -> Forall2 (file_says fs) files wss -> Forall well_formed (concat wss) ->
  exists out ps, run depth cwd fs args = Ok out /\ accounts_said (concat wss) ps
    /\ Permutation out (map (fun p => last p []) ps) /\ StronglySorted (fun a b => str_lt a b \/ a = b) out.
Proof.
  intros A V F W. destruct (files_read depth cwd fs _ _ F W) as (srcs & j & Fa & Rd & R & X & Ex).
  exact (accounts_of_names depth cwd fs _ _ _ _ _ _ _ A V Fa Rd R Ex (journal_names _ _ X)).
Qed.
