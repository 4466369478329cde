(** Proofs for C98: a file and then its reversal. *)
From Coq Require Import String List NArith ZArith Bool Lia Permutation.
From Verif Require Import Base Decimal Dates Amount Balance Scanner History Pool Account Journal Xact Parser Report Options Lib.
From Verif Require Import SpecDecimal SpecAmount SpecDates SpecAccount SpecXact SpecPool SpecReading SpecJournal SpecReport SpecValue SpecCommand SpecEnd SpecTogether SpecOpposite SpecCancel.
From Verif Require Import BaseFacts DecimalFacts BalanceFacts PoolFacts PriceFacts PriceProofs XactFacts JournalFacts JournalProofs ReportFacts ReportProofs PriceLogFacts ReadingFacts CommandProofs EndProofs AnyProofs OppositeProofs TogetherProofs.
Import ListNotations.
Open Scope list_scope.
Open Scope nat_scope.

Lemma opp_units a b : SpecOpposite.opposite a b -> units b = (- units a)%Z.
Proof.
  intros (M & S & N). unfold units. rewrite <- M, <- S. destruct N as [N|N]; [rewrite N; destruct (d_neg a), (d_neg b); reflexivity|]. rewrite N. destruct (d_neg a); cbn [negb]; lia.
Qed.
Lemma opp_all_posts xs ys : Forall2 opposite_xact xs ys -> Forall2 opposite_post (flat_map x_posts xs) (flat_map x_posts ys).
Proof. induction 1 as [|x y xs ys (_ & _ & _ & _ & P) _ IH]; cbn [flat_map]; [constructor|]. apply Forall2_app; assumption. Qed.
Lemma opp_below q ps qs : Forall2 opposite_post ps qs -> Forall2 opposite_post (filter (fun p => prefix_of q (po_account p)) ps) (filter (fun p => prefix_of q (po_account p)) qs).
Proof.
  induction 1 as [|p p' ps qs O _ IH]; cbn [filter]; [constructor|]. assert (E : po_account p = po_account p') by apply O. rewrite <- E. destruct (prefix_of q (po_account p)); [constructor; assumption|exact IH].
Qed.
Lemma opp_amounts ps qs : Forall2 opposite_post ps qs -> Forall2 opposite_amount (amounts_of ps) (amounts_of qs).
Proof.
  unfold amounts_of. induction 1 as [|p p' ps qs O _ IH]; cbn [flat_map]; [constructor|]. destruct O as (_ & (a & a' & -> & -> & O) & _). cbn [app]. constructor; assumption.
Qed.
Lemma opp_total c l l' : Forall2 opposite_amount l l' -> total c l' = (- total c l)%Z.
Proof.
  unfold total, in_comm. induction 1 as [|a a' l l' (C & O) _ IH]; [reflexivity|]. cbn [filter]. rewrite <- C. destruct (comm_dec (a_c a) c); [|exact IH].
  cbn [map sumZ fold_right]. unfold aunits at 1 3. rewrite (opp_units _ _ O). unfold sumZ in IH. rewrite IH. lia.
Qed.
Lemma opp_in_comm c l l' : Forall2 opposite_amount l l' -> Forall2 opposite_amount (in_comm c l) (in_comm c l').
Proof.
  unfold in_comm. induction 1 as [|a a' l l' (C & O) _ IH]; cbn [filter]; [constructor|]. rewrite <- C. destruct (comm_dec (a_c a) c); [constructor; [split; assumption|exact IH]|exact IH].
Qed.
Lemma opp_fit k k' : Forall2 opposite_amount k k' -> fits (map a_q (k ++ k)) -> fits (map a_q (k ++ k')).
Proof.
  intros O (s & Hs & L & B). exists s. split; [exact Hs|]. rewrite !map_app in *.
  assert (E : map (scaled_abs s) (map a_q k') = map (scaled_abs s) (map a_q k)).
  { clear - O. induction O as [|a a' k k' (_ & M & S & _) _ IH]; [reflexivity|]. cbn [map]. rewrite IH. unfold scaled_abs at 1 3. rewrite M, S. reflexivity. }
  split.
  - apply Forall_app in L as [L _]. apply Forall_app. split; [exact L|]. clear - L O. induction O as [|a a' k k' (_ & M & S & _) _ IH]; cbn [map] in *; [constructor|]. inversion L; subst. constructor; [rewrite <- S; assumption|apply IH; assumption].
  - rewrite E. exact B.
Qed.
Lemma opp_fits l l' : Forall2 opposite_amount l l' -> fits_amts (l ++ l) -> fits_amts (l ++ l').
Proof.
  intros O [W F]. split.
  - apply Forall_app in W as [W _]. apply Forall_app. split; [exact W|]. clear F. induction O as [|a a' l l' (C & M & S & _) O IH]; [constructor|]. inversion W as [|? ? Wa W']; subst. constructor; [|apply IH; exact W'].
    unfold wf_amt, wf_dec in *. rewrite <- M, <- S. exact Wa.
  - intros c. specialize (F c). unfold in_comm in *. rewrite filter_app in *. exact (opp_fit _ _ (opp_in_comm c _ _ O) F).
Qed.
Lemma entry_alone b x : NoDup (map a_c b) -> In x b -> holds b (a_c x) = aunits x.
Proof.
  unfold holds, total, in_comm. induction b as [|y b IH]; intros N I; [contradiction|]. cbn [map filter] in *. inversion N as [|? ? Ny Nb]; subst. destruct I as [->|I].
  - destruct (comm_dec (a_c x) (a_c x)); [|contradiction]. cbn [map]. replace (filter _ b) with (@nil amount); [cbn; lia|]. symmetry. clear - Ny. induction b as [|z b IH]; [reflexivity|]. cbn [filter map In] in *.
    destruct (comm_dec (a_c z) (a_c x)) as [E|_]; [elim Ny; left; exact E|]. apply IH. tauto.
  - destruct (comm_dec (a_c y) (a_c x)) as [E|_]; [elim Ny; rewrite E; apply in_map, I|]. apply IH; assumption.
Qed.

Lemma cancelling j1 j2 j : reachable_journal j -> opposite_journal j1 j2 -> together j1 j2 j -> cancelled j1 j.
Proof.
  intros R (M & P & X) T. constructor.
  - exists (j_xacts j2). split; [apply T|exact X].
  - intros q. rewrite (tg_accounts _ _ _ T), <- M. tauto.
  - intros s. rewrite (tg_commodities _ _ _ T), <- P. tauto.
  - intros s t w v. rewrite (tg_prices _ _ _ T), <- P. split; [tauto|]. intros H. left. exact H.
  - intros q a G F. pose proof (opp_amounts _ _ (opp_below q _ _ (opp_all_posts _ _ X))) as O. fold (all_posts j1) in O. fold (all_posts j2) in O. fold (posts_below j1 q) in O. fold (posts_below j2 q) in O.
    destruct (total_below j q a R G) as (b & E & N & _ & _ & S).
    + rewrite (below_app _ _ _ q T). apply opp_fits; [exact O|exact F].
    + exists b. split; [exact E|]. apply Forall_forall. intros x I. rewrite <- (entry_alone b x N I), S, (below_app _ _ _ q T), total_app, (opp_total _ _ _ O). lia.
Qed.

Theorem source_cancelled depth cwd fs fs' src src' j1 : opposite_files fs fs' -> opposite_source src src' ->
  read_into_journal depth cwd fs src journal_new = Ok j1 ->
  exists j, read_into_journal depth cwd fs' src' j1 = Ok j /\ cancelled j1 j.
Proof.
  intros Of Os H. pose proof (reading_opp depth cwd fs fs' src src' _ _ Of Os opp_new) as O. rewrite H in O.
  destruct (read_into_journal depth cwd fs' src' journal_new) as [j2| |] eqn:H2; cbn in O; try contradiction.
  assert (R : reachable_journal j1) by (eapply rj_read; [apply rj_new|exact H]). pose proof R as R1. apply reachable_inv in R. pose proof (reachable_wf _ (i_pool _ _ R)) as W.
  destruct (parse_lines_fw _ _ wf_pool_new W _ _ _ _ eq_refl _ src' (include_stays depth cwd fs') (include_fw _ _ wf_pool_new W _ _ _ _ eq_refl fs' cwd depth) Top _ _ (rel_start _ _ inv_new R) I j2 H2) as (j & H' & Re).
  - intros s x y Lx Ly. right. destruct O as (_ & P & _). first [rewrite <- P in Ly|rewrite <- P in Lx]; congruence.
  - exists j. split; [exact H'|]. eapply cancelling; [eapply rj_read; [exact R1|exact H']|exact O|]. apply rel_together; assumption.
Qed.

(** ** Files on the command line *)
Lemma below_twice j q : Permutation (amounts_of (all_posts j) ++ amounts_of (all_posts j))
  ((amounts_of (posts_below j q) ++ amounts_of (posts_below j q)) ++ amounts_of (filter (fun p => negb (prefix_of q (po_account p))) (all_posts j)) ++ amounts_of (filter (fun p => negb (prefix_of q (po_account p))) (all_posts j))).
Proof.
  assert (P : Permutation (amounts_of (all_posts j)) (amounts_of (posts_below j q) ++ amounts_of (filter (fun p => negb (prefix_of q (po_account p))) (all_posts j)))).
  { unfold posts_below. generalize (all_posts j). clear j. intros ps. unfold amounts_of. rewrite <- flat_map_app. apply Permutation_flat_map.
    induction ps as [|p ps IH]; [reflexivity|]. cbn [filter]. destruct (prefix_of q (po_account p)); cbn [negb app]; [constructor; exact IH|].
    rewrite IH at 1. apply Permutation_middle. }
  rewrite P at 1 2. set (x := amounts_of (posts_below j q)). set (y := amounts_of (filter _ _)). rewrite <- !app_assoc. apply Permutation_app_head. rewrite !app_assoc. apply Permutation_app_tail, Permutation_app_comm.
Qed.
Lemma no_includes_opp src src' : opposite_source src src' -> no_includes src -> no_includes src'.
Proof.
  intros O N l arg I L. assert (J : exists l0, In l0 src /\ opposite_line l0 (Some l)).
  { clear - O I. induction O as [|a b src src' Ab _ IH]; [contradiction|]. destruct I as [->|I]; [exists a; split; [left; reflexivity|exact Ab]|]. destruct (IH I) as (l0 & H & K). exists l0. split; [right; exact H|exact K]. }
  destruct J as (l0 & I0 & Ol). inversion Ol as [|? Np| r r' t t' P P' Q]; subst; [eapply N; eassumption|reflexivity].
Qed.
Lemma parse_any_inc inc inc' src : no_includes src -> forall m j, parse_lines inc m j src = parse_lines inc' m j src.
Proof.
  induction src as [|l src IH]; intros H m j; [reflexivity|]. cbn [parse_lines].
  assert (E : step inc m j l = step inc' m j l).
  { destruct m, l as [l|]; cbn [step]; try reflexivity. unfold top_line. destruct l as [|c l]; [reflexivity|]. destruct (N.eqb_spec c 32) as [->|Nc]; [reflexivity|].
    rewrite (general_ext inc inc' j (c :: l)); [reflexivity|]. intros arg Hl. exfalso. apply Nc. exact (H (c :: l) arg (or_introl eq_refl) Hl). }
  rewrite E. destruct (step inc' m j l) as [[m' j'|j']| |]; cbn [bind]; try reflexivity. apply IH. intros t arg I. apply H. right. exact I.
Qed.
Lemma files_empty : opposite_files (fun _ => None) (fun _ => None).
Proof. intros p. exact I. Qed.
Lemma source_any depth cwd fs src j : no_includes src -> read_into_journal depth cwd fs src j = read_into_journal depth cwd (fun _ => None) src j.
Proof. intros N. apply parse_any_inc, N. Qed.

Theorem files_cancelled depth cwd fs f f' src src' j1 : fs f = Some src -> fs f' = Some src' -> no_includes src -> opposite_source src src' ->
  read_journal_files depth cwd fs [f] = Ok j1 -> exists j, read_journal_files depth cwd fs [f; f'] = Ok j /\ cancelled j1 j.
Proof.
  intros F F' N O H. unfold read_journal_files in *. cbn [fold_outcome] in *. unfold parse_file in *. rewrite F, F' in *. rewrite (source_any _ _ _ _ _ N) in *.
  destruct (read_into_journal depth cwd (fun _ => None) src journal_new) as [k| |] eqn:E; cbn [bind] in *; try discriminate. injection H as ->.
  destruct (source_cancelled depth cwd _ _ src src' j1 files_empty O E) as (j & H & C). exists j. rewrite (source_any _ _ _ _ _ (no_includes_opp _ _ O N)), H. split; [reflexivity|exact C].
Qed.
Theorem run_cancelled depth cwd fs f f' src src' j1 args verb cmds : fs f = Some src -> fs f' = Some src' -> no_includes src -> opposite_source src src' ->
  read_journal_files depth cwd fs [f] = Ok j1 -> fit_twice (all_posts j1) -> args_mean args (verb :: cmds) [f; f'] -> balance_verb verb ->
  exists out ps, run depth cwd fs args = Ok out /\ in_order (j_master j1) ps
  /\ Forall2 (fun p line => exists b, nothing_left b /\ line = lit "Account " ++ shown_name p ++ lit " has balance " ++ shown_amounts b) ps out.
Proof.
  intros F F' N O H Ft A V. destruct (files_cancelled _ _ _ _ _ _ _ _ F F' N O H) as (j & Hj & C).
  assert (R : reachable_journal j) by (eapply files_reachable; [apply rj_new|exact Hj]).
  destruct (ca_xacts _ _ C) as (new & X & Ox). pose proof (opp_amounts _ _ (opp_all_posts _ _ Ox)) as Oa. fold (all_posts j1) in Oa.
  destruct (report_succeeds j R) as (out & Ho).
  { unfold all_posts. rewrite X, flat_map_app. unfold amounts_of at 1. rewrite flat_map_app. exact (opp_fits _ _ Oa Ft). }
  destruct (report_shape j out R Ho) as (ps & (So & Ip) & G). exists out, ps. split; [|split].
  - rewrite (execute_mean _ _ _ _ _ _ A), execute_eq, Hj. cbn [bind]. destruct V as [->|[->| ->]]; exact Ho.
  - split; [exact So|]. intros p. rewrite Ip. apply C.
  - eapply Forall2_impl; [|exact G]. intros p line (a & b & Ga & Tb & L). destruct (ca_totals _ _ C p a Ga) as (b' & Tb' & Z).
    + unfold fit_twice in *. eapply fits_amts_sub; [|exact Ft]. apply below_twice.
    + exists b. rewrite Tb in Tb'. injection Tb' as <-. split; [exact Z|]. rewrite L, shown_fullname. reflexivity.
Qed.
