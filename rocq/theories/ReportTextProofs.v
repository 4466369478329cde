(** The balance report determines the accounts and their totals. *)
From Coq Require Import String List NArith ZArith Bool Lia Permutation Sorting.
From Verif Require Import Base BaseFacts Decimal Dates Amount Balance Pool Account Journal Report Options Lib.
From Verif Require Import SpecDecimal SpecAmount SpecAccount SpecJournal SpecReport SpecReportText.
From Verif Require Import BalanceFacts XactFacts AccountFacts JournalFacts ReportFacts ReportProofs EndProofs.
Import ListNotations.
Open Scope nat_scope.

(** ** The words between the name and the amounts *)
Notation words := (lit " has balance").
Lemma words_apart l T1 T2 : l ++ lit " has balance " ++ T1 = lit " has balance " ++ T2 -> l = [] \/ exists r, l = words ++ r.
Proof.
  intros E. destruct l as [|c1 l]; [auto|]. right. cbn in E.
  do 11 (destruct l as [|?c l]; [exfalso; cbn in E; repeat (injection E as ?E0 E; try discriminate E0); discriminate|]).
  cbn in E. injection E as -> -> -> -> -> -> -> -> -> -> -> -> E. exists l. reflexivity.
Qed.
Lemma words_split N1 N2 T1 T2 :
  ~ (exists a b, N1 = a ++ words ++ b) -> ~ (exists a b, N2 = a ++ words ++ b) ->
  N1 ++ lit " has balance " ++ T1 = N2 ++ lit " has balance " ++ T2 -> N1 = N2 /\ T1 = T2.
Proof.
  assert (G : forall N l X Y, ~ (exists a b, N ++ l = a ++ words ++ b) -> l ++ lit " has balance " ++ X = lit " has balance " ++ Y -> l = []).
  { intros N l X Y F E. apply words_apart in E as [E|[r ->]]; [exact E|]. exfalso. apply F. exists N, r. reflexivity. }
  intros F1 F2 E. destruct (app_eq_app _ _ _ _ E) as (l & [[-> E']|[-> E']]).
  - symmetry in E'. assert (Z := G _ _ _ _ F1 E'). subst l. cbn [app] in E'. apply app_inv_head in E'. rewrite app_nil_r. auto.
  - symmetry in E'. assert (Z := G _ _ _ _ F2 E'). subst l. cbn [app] in E'. apply app_inv_head in E'. rewrite app_nil_r. auto.
Qed.

(** ** Full names *)
Lemma split_join p : p <> [] -> Forall (fun n => ~ In colon n) p -> split_on colon (join p) = p.
Proof.
  induction p as [|n p IH]; [contradiction|]. intros _ F. inversion F; subst. destruct p as [|m p].
  - cbn [join]. apply split_on_none. assumption.
  - change (join (n :: m :: p)) with (n ++ colon :: join (m :: p)). rewrite split_on_app by assumption. f_equal. apply IH; [discriminate|assumption].
Qed.
Lemma path_no_colon m : wf_tree m -> forall q, exists_at m q -> Forall (fun n => ~ In colon n) q.
Proof.
  intros W q. revert m W. induction q as [|n q IH]; intros m W [a G]; [constructor|].
  destruct W as [nm cs ps ND NC WC]. cbn [get_account ac_children] in G. destruct (find_child n cs) as [c|] eqn:E; [|discriminate G].
  destruct (find_child_some _ _ _ E) as [J I].
  constructor; [rewrite <- I; apply NC, J|]. apply (IH c (WC _ J)). exists a. exact G.
Qed.
Lemma words_joined p a b : join p = a ++ words ++ b -> exists n a' b', In n p /\ n = a' ++ words ++ b'.
Proof.
  revert a. induction p as [|n p IH]; intros a E; [destruct a; discriminate|]. destruct p as [|m p].
  - exists n, a, b. split; [left; reflexivity|exact E].
  - change (join (n :: m :: p)) with (n ++ colon :: join (m :: p)) in E.
    destruct (app_eq_app _ _ _ _ E) as (l & [[-> E']|[-> E']]).
    + (* the words begin in [n] or with the colon *)
      assert (C : exists r, l = words ++ r).
      { clear -E'. destruct l as [|? l]; [discriminate E'|]. cbn in E'.
        do 11 (destruct l as [|? l]; [exfalso; cbn in E'; repeat (injection E' as ?E0 E'; try discriminate E0); discriminate|]).
        cbn in E'. injection E' as <- <- <- <- <- <- <- <- <- <- <- <- _. exists l. reflexivity. }
      destruct C as [r ->]. exists (a ++ words ++ r), a, r. split; [left; reflexivity|reflexivity].
    + destruct l as [|c l]; [discriminate E'|]. injection E' as _ E'. destruct (IH _ E') as (n' & a' & b' & I & H).
      exists n', a', b'. split; [right; exact I|exact H].
Qed.
Lemma fullname_injective m1 m2 p1 p2 : wf_tree m1 -> wf_tree m2 -> exists_at m1 p1 -> exists_at m2 p2 ->
  Forall plain_account p1 -> Forall plain_account p2 -> fullname p1 = fullname p2 -> p1 = p2.
Proof.
  intros W1 W2 X1 X2 F1 F2 E. assert (C1 := path_no_colon _ W1 _ X1). assert (C2 := path_no_colon _ W2 _ X2).
  assert (N : forall p, Forall plain_account p -> Forall nonempty p). { intros p. apply Forall_impl. intros n [H _]. exact H. }
  rewrite !fullname_join in E by (apply N; assumption).
  destruct p1 as [|n1 p1], p2 as [|n2 p2]; [reflexivity| | |].
  - exfalso. inversion F2 as [|? ? [H _] _]; subst. destruct n2; [exact (H eq_refl)|]. destruct p2; discriminate E.
  - exfalso. inversion F1 as [|? ? [H _] _]; subst. destruct n1; [exact (H eq_refl)|]. destruct p1; discriminate E.
  - apply (f_equal (split_on colon)) in E. rewrite !split_join in E by (try discriminate; assumption). exact E.
Qed.
Lemma fullname_no_words p : Forall plain_account p -> ~ exists a b, fullname p = a ++ words ++ b.
Proof.
  intros F (a & b & E). rewrite fullname_join in E. 2: { revert F. apply Forall_impl. intros n [H _]. exact H. }
  apply words_joined in E as (n & a' & b' & I & ->). rewrite Forall_forall in F. apply F in I as [_ I]. apply I. eauto.
Qed.

(** ** Totals consist of amounts like those of the postings *)
Section CLOSED.
  Variable P : amount -> Prop.
  Hypothesis closed : forall a b r, P a -> P b -> amt_add a b = Ok r -> P r.
  Lemma bal_add_closed b : forall a b', Forall P b -> P a -> bal_add b a = Ok b' -> Forall P b'.
  Proof.
    induction b as [|x b IH]; intros a b' F A H; cbn [bal_add] in H; [injection H as <-; auto|]. inversion F; subst.
    destruct (comm_eqb (a_c x) (a_c a)).
    - inv_bind H. injection H as <-. constructor; [|assumption]. eapply closed; [| |exact EQ]; assumption.
    - inv_bind H. injection H as <-. constructor; [assumption|]. eapply IH; [| |exact EQ]; assumption.
  Qed.
  Lemma bal_sum_closed o : forall b b', Forall P b -> Forall P o -> bal_add_bal b o = Ok b' -> Forall P b'.
  Proof.
    unfold bal_add_bal. induction o as [|a o IH]; intros b b' Fb Fo H; cbn [fold_outcome] in H; [injection H as <-; exact Fb|].
    inversion Fo; subst. inv_bind H. eapply IH; [|eassumption|exact H]. eapply bal_add_closed; [| |exact EQ]; assumption.
  Qed.
  Lemma total_closed xs : Forall P (amounts_of (flat_map x_posts xs)) -> forall a b, account_total xs a = Ok b -> Forall P b.
  Proof.
    intros F. assert (Own : forall refs b0 b, Forall P b0 ->
      fold_outcome (fun bal r => match get_post xs r with None => Panic PNull | Some p => match po_amount p with Some a => bal_add bal a | None => Ok bal end end) refs b0 = Ok b -> Forall P b).
    { induction refs as [|r refs IH]; intros b0 b F0 H; cbn [fold_outcome] in H; [injection H as <-; exact F0|].
      inv_bind H. eapply IH; [|exact H]. destruct (get_post xs r) as [p|] eqn:G; [|discriminate EQ].
      destruct (po_amount p) as [a|] eqn:A; [|injection EQ as <-; exact F0]. eapply bal_add_closed; [exact F0| |exact EQ].
      rewrite Forall_forall in F. apply F. unfold amounts_of. apply in_flat_map. exists p. rewrite A. split; [|left; reflexivity].
      unfold get_post in G. destruct (nth_error xs (fst r)) as [x|] eqn:Ex; [|discriminate]. apply in_flat_map. exists x.
      split; eapply nth_error_In; eassumption. }
    apply (account_ind' (fun a => forall b, account_total xs a = Ok b -> Forall P b)). intros n cs ps IH b H. cbn [account_total ac_children ac_posts] in H.
    inv_bind H. inv_bind H. eapply bal_sum_closed; [| |exact H]; [|eapply Own; [constructor|exact EQ0]].
    assert (K : Forall (fun s : str * outcome balance => forall b, snd s = Ok b -> Forall P b) (sort_key (map (fun c => (ac_name c, account_total xs c)) cs))).
    { eapply Permutation_Forall; [apply sort_key_perm|]. apply Forall_forall. intros s I. apply in_map_iff in I as (c & <- & I). cbn [snd]. exact (IH c I). }
    clear -closed EQ K. revert EQ K. assert (F0 : Forall P bal_new) by constructor. revert F0. generalize bal_new.
    induction (sort_key (map (fun c => (ac_name c, account_total xs c)) cs)) as [|s l IHl]; intros b0 F0 EQ K; cbn [fold_outcome] in EQ; [injection EQ as <-; exact F0|].
    inversion K; subst. inv_bind EQ. inv_bind EQ0. eapply IHl; [|exact EQ|assumption]. eapply bal_sum_closed; [exact F0| |exact EQ0]. auto.
  Qed.
End CLOSED.

Lemma total_plain j a b : reachable_journal j -> Forall plain_symbol (amounts_of (all_posts j)) -> account_total (j_xacts j) a = Ok b ->
  Forall wf_amt b /\ Forall plain_symbol b.
Proof.
  intros R Pl T. assert (W : Forall wf_amt (amounts_of (all_posts j))).
  { apply reachable_inv in R as [_ _ _ I _]. clear -I. unfold amounts_of. apply Forall_flat_map. eapply Forall_impl; [|exact I].
    intros p [[Wp _] _]. destruct (po_amount p); [constructor; [exact (Wp _ eq_refl)|constructor]|constructor]. }
  split.
  - eapply total_closed; [|exact W|exact T]. intros x y r Wx Wy H. apply (amt_add_ok x y r); assumption.
  - eapply total_closed; [|exact Pl|exact T]. intros x y r (s & E & Fs) _ H. exists s. split; [|exact Fs]. rewrite <- E.
    unfold amt_add in H. destruct (comm_eqb _ _); [|discriminate]. destruct (d_is_zero _); [injection H as <-; reflexivity|]. inv_bind H. injection H as <-. reflexivity.
Qed.

Theorem report_determines j1 j2 out : reachable_journal j1 -> reachable_journal j2 -> plain_journal j1 -> plain_journal j2 ->
  balance_report j1 = Ok out -> balance_report j2 = Ok out ->
  (forall q, exists_at (j_master j1) q <-> exists_at (j_master j2) q)
  /\ forall q a1 a2 b1 b2, get_account (j_master j1) q = Some a1 -> get_account (j_master j2) q = Some a2 ->
     account_total (j_xacts j1) a1 = Ok b1 -> account_total (j_xacts j2) a2 = Ok b2 -> Forall2 same_entry b1 b2.
Proof.
  intros R1 R2 [N1 S1] [N2 S2] H1 H2. destruct (report_shape _ _ R1 H1) as (ps1 & [_ O1] & F1). destruct (report_shape _ _ R2 H2) as (ps2 & [_ O2] & F2).
  assert (W1 := i_tree _ _ (reachable_inv _ R1)). assert (W2 := i_tree _ _ (reachable_inv _ R2)).
  assert (M : forall out ps1 ps2, (forall p, In p ps1 -> exists_at (j_master j1) p) -> (forall p, In p ps2 -> exists_at (j_master j2) p) ->
     Forall2 (fun p line => exists a b, get_account (j_master j1) p = Some a /\ account_total (j_xacts j1) a = Ok b
         /\ line = lit "Account " ++ fullname p ++ lit " has balance " ++ concat (map (fun x => d_to_string (a_q x) ++ match a_c x with Some s => 32%N :: s | None => [] end) b)) ps1 out ->
     Forall2 (fun p line => exists a b, get_account (j_master j2) p = Some a /\ account_total (j_xacts j2) a = Ok b
         /\ line = lit "Account " ++ fullname p ++ lit " has balance " ++ concat (map (fun x => d_to_string (a_q x) ++ match a_c x with Some s => 32%N :: s | None => [] end) b)) ps2 out ->
     ps1 = ps2 /\ Forall (fun q => forall a1 a2 b1 b2, get_account (j_master j1) q = Some a1 -> get_account (j_master j2) q = Some a2 ->
       account_total (j_xacts j1) a1 = Ok b1 -> account_total (j_xacts j2) a2 = Ok b2 -> Forall2 same_entry b1 b2) ps1).
  { clear -R1 R2 N1 N2 S1 S2 W1 W2. intros out ps1 ps2 X1 X2 F1. revert ps2 X2. induction F1 as [|p1 line ps1 out (a1 & b1 & G1 & T1 & E1) _ IH]; intros ps2 X2 F2; inversion F2 as [|p2 ? ps2' ? (a2 & b2 & G2 & T2 & E2) F2']; subst; [auto|].
    apply app_inv_head in E2.
    assert (P1 := N1 p1 (X1 p1 (or_introl eq_refl))). assert (P2 := N2 p2 (X2 p2 (or_introl eq_refl))).
    apply words_split in E2 as [En Et]; [|apply fullname_no_words; exact P1|apply fullname_no_words; exact P2].
    assert (p1 = p2) as <-. { eapply fullname_injective; [exact W1|exact W2| | |exact P1|exact P2|exact En]; [apply X1|apply X2]; left; reflexivity. }
    destruct (IH (fun p I => X1 p (or_intror I)) ps2' (fun p I => X2 p (or_intror I)) F2') as [-> K]. split; [reflexivity|]. constructor; [|exact K].
    intros a1' a2' b1' b2' G1' G2' T1' T2'. rewrite G1 in G1'. injection G1' as <-. rewrite G2 in G2'. injection G2' as <-. rewrite T1 in T1'. injection T1' as <-. rewrite T2 in T2'. injection T2' as <-.
    destruct (total_plain _ _ _ R1 S1 T1) as [Wb1 Pb1]. destruct (total_plain _ _ _ R2 S2 T2) as [Wb2 Pb2].
    apply balance_text_injective; try assumption. unfold balance_text. rewrite !flat_map_concat_map. exact Et. }
  destruct (M out ps1 ps2 (fun p => proj1 (O1 p)) (fun p => proj1 (O2 p)) F1 F2) as [-> K]. split.
  - intros q. rewrite <- O1, <- O2. reflexivity.
  - intros q a1 a2 b1 b2 G1. rewrite Forall_forall in K. apply (K q); [apply O1; exists a1; exact G1|exact G1].
Qed.

Lemma same_holds b1 b2 : Forall2 same_entry b1 b2 -> forall c, holds b1 c = holds b2 c.
Proof.
  intros F c. unfold holds. induction F as [|x y l l' (E1 & E2 & _) F IH]; [reflexivity|]. rewrite !total_cons, E1, E2, IH. reflexivity.
Qed.
Lemma posting_exists j p q : reachable_journal j -> In p (all_posts j) -> prefix_of q (po_account p) = true -> exists_at (j_master j) q.
Proof.
  intros R I E. apply reachable_inv in R as [_ _ [_ L] _ _]. eapply exists_prefix; [|exact E].
  unfold all_posts in I. apply in_flat_map in I as (x & Ix & Ip). apply In_nth_error in Ix as [n En]. apply In_nth_error in Ip as [k Ek].
  apply (L (n, k)). unfold account_of, get_post. cbn [fst snd]. rewrite En, Ek. reflexivity.
Qed.
Lemma report_sums j1 j2 out : reachable_journal j1 -> reachable_journal j2 -> plain_journal j1 -> plain_journal j2 ->
  balance_report j1 = Ok out -> balance_report j2 = Ok out -> fits_amts (amounts_of (all_posts j1)) -> fits_amts (amounts_of (all_posts j2)) ->
  forall q c, total c (amounts_of (posts_below j1 q)) = total c (amounts_of (posts_below j2 q)).
Proof.
  intros R1 R2 P1 P2 H1 H2 F1 F2 q c. destruct (report_determines _ _ _ R1 R2 P1 P2 H1 H2) as [X T].
  assert (F : forall j, fits_amts (amounts_of (all_posts j)) -> fits_amts (amounts_of (posts_below j q))).
  { intros j F. destruct (below_sub j q []) as (r & P). rewrite below_master in P. cbn [app] in P. eapply fits_amts_sub; eassumption. }
  assert (D : exists_at (j_master j1) q \/ ~ exists_at (j_master j1) q).
  { unfold exists_at. destruct (get_account (j_master j1) q); [left; eauto|right]. intros [a E]. discriminate. }
  destruct D as [Y|N].
  - destruct Y as [a1 G1]. destruct (proj1 (X q) (ex_intro _ a1 G1)) as [a2 G2].
    destruct (total_below _ _ _ R1 G1 (F _ F1)) as (b1 & T1 & S1). destruct (total_below _ _ _ R2 G2 (F _ F2)) as (b2 & T2 & S2).
    destruct S1 as (_ & _ & _ & S1), S2 as (_ & _ & _ & S2). rewrite <- S1, <- S2. apply same_holds. eapply T; eassumption.
  - assert (N2 : ~ exists_at (j_master j2) q) by (rewrite <- X; exact N).
    assert (E : forall j, reachable_journal j -> ~ exists_at (j_master j) q -> posts_below j q = []).
    { intros j R Hn. unfold posts_below. destruct (filter _ (all_posts j)) as [|p l] eqn:Ef; [reflexivity|]. exfalso. apply Hn.
      assert (I : In p (filter (fun p => prefix_of q (po_account p)) (all_posts j))) by (rewrite Ef; left; reflexivity).
      apply filter_In in I as [I Ip]. exact (posting_exists _ _ _ R I Ip). }
    rewrite (E _ R1 N), (E _ R2 N2). reflexivity.
Qed.
