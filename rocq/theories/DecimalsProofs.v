(** Reports on journals that write a commodity always with the same number of decimals. *)
From Coq Require Import String List NArith ZArith Bool Lia Sorted Permutation.
From Verif Require Import Base Decimal Dates Amount Balance Scanner History Pool Account Journal Xact Parser Report Options Lib.
From Verif Require Import SpecDecimal SpecAmount SpecDates SpecPool SpecAccount SpecXact SpecJournal SpecText SpecReading SpecScan SpecWhole SpecReport SpecCommand SpecFull SpecEnd SpecFullEnd SpecOrder SpecDecimals.
From Verif Require Import BaseFacts DecimalFacts BalanceFacts ScaleFacts AccountFacts AccountProofs XactFacts XactProofs JournalFacts JournalProofs ReportFacts ReportProofs CommandProofs WholeProofs FullFacts FullProofs EndProofs FullEndProofs OrderProofs SpecShown ShownProofs.
Import ListNotations.
Open Scope list_scope.
Open Scope nat_scope.

(** ** Totals *)
Section Totals.
  Variable f : comm -> nat.
  Variable C : comm -> Prop.
  Variable W : Z.
  Variable G : amount -> Prop.
  Hypothesis room : forall c, C c -> (W < 2 ^ 96 * 10 ^ Z.of_nat (28 - f c))%Z.
  Hypothesis G_add : forall x a r, G x -> G a -> amt_add x a = Ok r -> G r.
  Notation al := (alike f C G).

  Lemma totals_alike xs cs :
    (forall c b, In c cs -> account_total xs c = Ok b -> Forall al b /\ (weight b <= weight (amounts_at xs (sub_refs c)))%Z) ->
    forall t t', Forall al t -> (weight t + weight (amounts_at xs (concat (map sub_refs cs))) <= W)%Z ->
    fold_outcome (fun t c => let* b := account_total xs c in bal_add_bal t b) cs t = Ok t' ->
    Forall al t' /\ (weight t' <= weight t + weight (amounts_at xs (concat (map sub_refs cs))))%Z.
  Proof.
    induction cs as [|c cs IH]; intros H t t' T B E; cbn [fold_outcome map concat] in *.
    - injection E as <-. split; [exact T|]. cbn. change (weight []) with 0%Z. lia.
    - rewrite amounts_at_app, weight_app in *. inv_bind E. inv_bind EQ. destruct (H c v0 (or_introl eq_refl) EQ0) as [Av Bv].
      pose proof (weight_nonneg (amounts_at xs (concat (map sub_refs cs)))) as N. unfold bal_add_bal in EQ.
      destruct (fold_alike f C W G room G_add v0 t v T Av) as [A1 B1]; [lia|exact EQ|].
      destruct (IH (fun c b h => H c b (or_intror h)) v t' A1) as [A2 B2]; [lia|exact E|]. split; [exact A2|lia].
  Qed.
  Lemma account_alike xs a : resolves xs (sub_refs a) -> Forall al (amounts_at xs (sub_refs a)) -> (weight (amounts_at xs (sub_refs a)) <= W)%Z ->
    forall b, account_total xs a = Ok b -> Forall al b /\ (weight b <= weight (amounts_at xs (sub_refs a)))%Z.
  Proof.
    induction a as [n cs ps IH] using account_ind'. intros R F B b E. rewrite account_total_eq in E. rewrite sub_refs_eq in *. apply Forall_app in R as [R1 R2].
    rewrite amounts_at_app, weight_app in *. apply Forall_app in F as [F1 F2]. cbn [ac_posts] in *. inv_bind E. inv_bind E.
    pose proof (weight_nonneg (amounts_at xs ps)) as N2. pose proof (weight_nonneg (amounts_at xs (concat (map sub_refs (kids (Acct n cs ps)))))) as N1.
    assert (T : Forall al v /\ (weight v <= weight bal_new + weight (amounts_at xs (concat (map sub_refs (kids (Acct n cs ps))))))%Z).
    { eapply totals_alike; [|constructor|change (weight bal_new) with 0%Z; lia|exact EQ]. intros c b' Hc Ec. destruct (concat_split sub_refs _ _ Hc) as (r & Pr).
      assert (Pa := amounts_at_perm xs _ _ Pr). rewrite amounts_at_app in Pa.
      apply IH; [apply kids_in in Hc; exact Hc| | | |exact Ec].
      - apply Forall_forall. intros x Hx. unfold resolves in R1. rewrite Forall_forall in R1. apply R1, concat_in. eauto.
      - eapply Permutation_Forall in F1; [|exact Pa]. apply Forall_app in F1. apply F1.
      - assert (Ew : weight (amounts_at xs (concat (map sub_refs (kids (Acct n cs ps))))) = weight (amounts_at xs (sub_refs c) ++ amounts_at xs r)) by (unfold weight; apply sumZ_perm, Permutation_map, Pa).
        rewrite weight_app in Ew. pose proof (weight_nonneg (amounts_at xs r)). lia. }
    destruct T as [T1 T2]. change (weight bal_new) with 0%Z in T2. unfold account_amount in EQ0. rewrite amount_fold in EQ0 by exact R2.
    destruct (fold_alike f C W G room G_add (amounts_at xs ps) bal_new v0 (Forall_nil _) F2) as [A0 B0]; [change (weight bal_new) with 0%Z; lia|exact EQ0|].
    change (weight bal_new) with 0%Z in B0. unfold bal_add_bal in E.
    destruct (fold_alike f C W G room G_add v0 v b T1 A0) as [A1 B1]; [lia|exact E|]. split; [exact A1|lia].
  Qed.
End Totals.

(** ** The amounts of a journal *)
Lemma fxact_alike f w x : xact_ok w -> decimals_alike f w -> fxact_is w x ->
  Forall (fun p => forall a, po_amount p = Some a -> d_s (a_q a) = f (a_c a)) (x_posts x).
Proof.
  intros OK [D E] (_ & _ & _ & _ & F). apply Forall2_in_l in F.
  assert (X : forall l l', Forall2 (fun fp p => In fp (fx_posts w) /\ fposting_is w fp p) l l' -> Forall (fun p => forall a, po_amount p = Some a -> d_s (a_q a) = f (a_c a)) l'); [|eapply X, F].
  clear F. intros l l' F. induction F as [|fp p l l' [Hin (A & _ & a & Pa & M)] F IH]; constructor; [|exact IH].
  intros a' Pa'. rewrite Pa in Pa'. injection Pa' as <-. destruct (fp_value fp) as [v|] eqn:Ev.
  - destruct M as (((_ & _ & Sa & Ca) & _) & _). rewrite Sa, Ca. rewrite Forall_forall in D. apply D. unfold values_of. apply in_flat_map. exists fp. split; [exact Hin|]. rewrite Ev. left. reflexivity.
  - destruct M as (_ & _ & Ca & _ & _ & Sa). apply Sa. destruct E as [E|E]; [rewrite Forall_forall in E; elim (E fp Hin Ev)|].
    rewrite Forall_forall in *. intros v Hv. destruct (E v Hv) as [E1 E2]. split; [|exact E2]. rewrite E1, (Ca v Hv). reflexivity.
Qed.
Lemma fxact_plain w x : no_zero_rest w -> fxact_is w x -> Forall (fun p => forall a, po_amount p = Some a -> plain a) (x_posts x).
Proof.
  intros E (_ & _ & _ & _ & F). apply Forall2_in_l in F.
  assert (X : forall l l', Forall2 (fun fp p => In fp (fx_posts w) /\ fposting_is w fp p) l l' -> Forall (fun p => forall a, po_amount p = Some a -> plain a) l'); [|eapply X, F].
  clear F. intros l l' F. induction F as [|fp p l l' [Hin (A & _ & a & Pa & M)] F IH]; constructor; [|exact IH].
  intros a' Pa'. rewrite Pa in Pa'. injection Pa' as <-. destruct (fp_value fp) as [v|] eqn:Ev; [apply M|].
  destruct M as (_ & Ua & _ & Wa & _). destruct E as [E|E]; [rewrite Forall_forall in E; elim (E fp Hin Ev)|]. apply plain_nonzero; [exact Wa|]. rewrite Ua. lia.
Qed.
Lemma xacts_all {A B C} (R : A -> B -> Prop) (P : A -> Prop) (Q : C -> Prop) (g : B -> list C) ws xs :
  (forall w x, P w -> R w x -> Forall Q (g x)) -> Forall P ws -> Forall2 R ws xs -> Forall Q (flat_map g xs).
Proof. intros H W F. induction F as [|w x ws xs I F IH]; [constructor|]. inversion W; subst. cbn [flat_map]. apply Forall_app. split; [eapply H; eassumption|apply IH; assumption]. Qed.

Lemma full_balance_alike (f : comm -> nat) depth cwd fs args verb cmds files wss :
  args_mean args (verb :: cmds) files -> balance_verb verb -> Forall2 (ffile_says depth cwd fs) files wss ->
  Forall xact_ok (concat wss) -> lots_ok (j_pool journal_new) (concat wss) -> full_sums_fit (concat wss) ->
  Forall (decimals_alike f) (concat wss) ->
  exists out ps, run depth cwd fs args = Ok out /\ accounts_of_entries (full_entries (concat wss)) ps
    /\ Forall2 (fun p line => exists b, totals_said (below p (full_entries (concat wss))) b
                /\ shown_order (below p (full_entries (concat wss))) (map a_c b)
                /\ Forall (fun a => d_s (a_q a) = f (a_c a)) b /\ (Forall no_zero_rest (concat wss) -> Forall plain b)
                /\ line = lit "Account " ++ shown_name p ++ lit " has balance " ++ shown_amounts b) ps out.
Proof.
  intros A V F OK LO (scale & L & K & B) D. destruct (full_files_read depth cwd fs _ _ F OK LO) as (srcs & j & Fa & Rd & R & X & Ex).
  set (es := full_entries (concat wss)) in *. pose proof (full_says scale _ _ OK K X) as S. fold es in S. change (flat_map x_posts (j_xacts j)) with (all_posts j) in S.
  assert (Al : Forall (fun p => forall a, po_amount p = Some a -> d_s (a_q a) = f (a_c a)) (all_posts j)).
  { eapply (xacts_all fxact_is (fun w => xact_ok w /\ decimals_alike f w)); [|rewrite Forall_forall in *; intros w Hw; split; [apply OK, Hw|apply D, Hw]|exact X].
    intros w x [O D'] I. eapply fxact_alike; eassumption. }
  assert (Pl : Forall no_zero_rest (concat wss) -> Forall (fun p => forall a, po_amount p = Some a -> plain a) (all_posts j)).
  { intros N. eapply (xacts_all fxact_is no_zero_rest); [|exact N|exact X]. intros w x O I. eapply fxact_plain; eassumption. }
  rewrite (run_balance depth cwd fs _ _ _ _ _ A Fa V), Rd. cbn [bind].
  assert (Wf : Forall wf_amt (amounts_of (all_posts j))).
  { pose proof (i_posts _ _ (reachable_inv _ R)) as Q. clear -Q. unfold amounts_of. induction Q as [|p ps [[Wa _] _] Q IH]; [constructor|]. cbn [flat_map].
    apply Forall_app. split; [|exact IH]. destruct (po_amount p) as [a|] eqn:E; constructor; [apply Wa; reflexivity|constructor]. }
  assert (Ft : fits_amts (amounts_of (all_posts j))) by (eapply says_fits; [exact L|exact Wf|apply says_amounts, S|exact B]).
  destruct (report_succeeds j R Ft) as (out & E). destruct (report_shape j out R E) as (ps & O & G). exists out, ps. split; [exact E|].
  split; [apply (said_accounts _ j); [eapply says_names, S|exact O|exact Ex]|]. eapply Forall2_impl; [|exact G]. intros p line (a & b & Ga & T & ->).
  assert (Fb : fits_amts (amounts_of (posts_below j p))).
  { destruct (below_sub j p []) as (r & P). rewrite below_master in P. cbn [app] in P. eapply fits_amts_sub; eassumption. }
  destruct (total_below j p a R Ga Fb) as (b' & T' & Nd & Cm & Wb & Hs). rewrite T in T'. injection T' as <-. exists b.
  pose proof (says_amounts _ _ _ (says_filter scale p _ _ S)) as Sb. fold (posts_below j p) in Sb.
  split; [split; [exact Nd|]; split; [intros c; rewrite Cm; eapply says_comms, Sb|]; split; [exact Wb|];
          intros x Hx; rewrite <- (says_total _ _ _ (a_c x) Sb), <- Hs; symmetry; apply total_nodup; assumption|].
  split; [destruct (commodities_order j p a b R Ga T) as (qs & Oq & ->); exact (said_order scale _ _ _ (says_filter scale p _ _ S) Oq)|].
  (* the decimals *)
  assert (Q : forall H : amount -> Prop, (forall x y r, H x -> H y -> amt_add x y = Ok r -> H r) ->
    Forall (fun p => forall a, po_amount p = Some a -> H a) (all_posts j) -> Forall (fun a => d_s (a_q a) = f (a_c a) /\ H a) b).
  { intros H Ha HH. destruct (reachable_inv _ R) as [Wt _ Lk _ _]. destruct (sub_refs_amounts j p a Wt Lk Ga) as [P Rs].
    assert (We : (weight (amounts_at (j_xacts j) (sub_refs a)) <= sumZ (map (fun e => Z.abs (snd e)) es))%Z).
    { assert (W1 : weight (amounts_at (j_xacts j) (sub_refs a)) = weight (amounts_of (posts_below j p))) by (unfold weight; apply sumZ_perm, Permutation_map, P). rewrite W1. clear -S.
      unfold posts_below. induction S as [|e x es xs (_ & y & Py & _ & Uy & _) S IH]; [apply Z.le_refl|]. cbn [filter map sumZ fold_right]. change (fold_right Z.add 0%Z) with sumZ.
      destruct (prefix_of p (po_account x)); [|pose proof (Z.abs_nonneg (snd e)); lia]. unfold amounts_of. cbn [flat_map]. rewrite Py. cbn [app]. rewrite weight_cons, Uy. unfold amounts_of in IH. lia. }
    assert (Fo : Forall (alike f (fun c => f c <= scale) H) (amounts_at (j_xacts j) (sub_refs a))).
    { eapply Permutation_Forall; [symmetry; exact P|]. unfold posts_below. clear -S Al HH Wf. unfold amounts_of in *. induction S as [|e x es xs (_ & y & Py & _ & _ & Sy) S IH]; [constructor|].
      inversion Al as [|? ? Al1 Al2]; inversion HH as [|? ? Q1 Q2]; subst. cbn [flat_map] in Wf. rewrite Py in Wf. inversion Wf as [|? ? W1 W2]; subst. cbn [filter].
      destruct (prefix_of p (po_account x)); [|apply IH; assumption]. cbn [flat_map]. rewrite Py. cbn [app]. constructor; [|apply IH; assumption].
      split; [rewrite <- (Al1 y Py); exact Sy|]. split; [exact W1|]. split; [exact (Al1 y Py)|exact (Q1 y Py)]. }
    destruct (account_alike f (fun c => f c <= scale) (sumZ (map (fun e => Z.abs (snd e)) es)) H) with (xs := j_xacts j) (a := a) (b := b) as [Z _]; try assumption.
    - intros c Hc. eapply Z.lt_le_trans; [exact B|]. apply Z.mul_le_mono_nonneg_l; [apply Z.pow_nonneg; lia|]. apply Z.pow_le_mono_r; lia.
    - eapply Forall_impl; [|exact Z]. intros y (_ & _ & Sy & Hy). auto. }
  split; [|split; [|rewrite shown_fullname; reflexivity]].
  - eapply Forall_impl; [|apply (Q (fun _ => True))]; [intros y [Sy _]; exact Sy|auto|]. apply Forall_forall. auto.
  - intros N. eapply Forall_impl; [|apply (Q plain plain_add (Pl N))]. intros y [_ Hy]. exact Hy.
Qed.

(** ** The same entries in another order *)
Lemma amount_same a a' : wf_amt a -> wf_amt a' -> plain a -> plain a' -> a_c a = a_c a' -> d_s (a_q a) = d_s (a_q a') -> aunits a = aunits a' -> a = a'.
Proof.
  destruct a as [[n m s] c], a' as [[n' m' s'] c']. unfold wf_amt, wf_dec, plain, aunits. rewrite !units_eq. cbn [a_q a_c d_neg d_m d_s]. intros [[M _] _] [[M' _] _] P P' -> -> U.
  apply Z.mul_cancel_r in U; [|pose proof (p10_pos (28 - s')); lia]. unfold d_signed in U. cbn [d_neg d_m] in U.
  assert (E : m = m') by (destruct n, n'; lia). subst m'. f_equal. f_equal. destruct (Z.eq_dec m 0) as [Z|Z]; [rewrite P, P' by exact Z; reflexivity|]. destruct n, n'; try reflexivity; lia.
Qed.
Lemma totals_equal f es es' b b' : Permutation es es' -> totals_said es b -> totals_said es' b' ->
  Forall (fun a => d_s (a_q a) = f (a_c a)) b -> Forall (fun a => d_s (a_q a) = f (a_c a)) b' -> Forall plain b -> Forall plain b' -> Permutation b b'.
Proof.
  intros P (N & I & W & V) (N' & I' & W' & V') S S' Pl Pl'. rewrite Forall_forall in *.
  apply NoDup_Permutation; [apply (NoDup_map_inv a_c), N|apply (NoDup_map_inv a_c), N'|].
  assert (X : forall (es es' : list entry) (b b' : balance), Permutation es es' -> (forall c, In c (map a_c b) <-> exists e, In e es /\ snd (fst e) = c) -> (forall c, In c (map a_c b') <-> exists e, In e es' /\ snd (fst e) = c) ->
    (forall a a', In a b -> In a' b' -> a_c a = a_c a' -> a = a') -> forall x, In x b -> In x b').
  { clear. intros es es' b b' P I I' E x Hx. assert (C : In (a_c x) (map a_c b')).
    { apply I'. assert (C : In (a_c x) (map a_c b)) by (apply in_map, Hx). apply I in C as (e & He & Ec). exists e. split; [eapply Permutation_in, He; exact P|exact Ec]. }
    apply in_map_iff in C as (y & Ey & Hy). rewrite (E x y Hx Hy) by (symmetry; exact Ey). exact Hy. }
  assert (E : forall a a', In a b -> In a' b' -> a_c a = a_c a' -> a = a').
  { intros a a' Ha Ha' Ec. apply amount_same; auto; [rewrite S, S', Ec by assumption; reflexivity|]. rewrite V, V' by assumption. rewrite Ec. apply sum_in_perm, P. }
  intros x. split; [apply (X es es')|apply (X es' es)]; auto; [symmetry; exact P|]. intros a a' Ha Ha' Ec. symmetry. apply E; auto.
Qed.
Definition shown_line (f : comm -> nat) (es : list entry) (p : path) (line : str) : Prop :=
  exists b, totals_said (below p es) b /\ shown_order (below p es) (map a_c b) /\ Forall (fun a => d_s (a_q a) = f (a_c a)) b /\ Forall plain b
            /\ line = lit "Account " ++ shown_name p ++ lit " has balance " ++ shown_amounts b.
Lemma lines_equal f es es' ps out out' : Permutation es es' -> Forall2 (shown_line f es) ps out -> Forall2 (shown_line f es') ps out' -> same_lines out out'.
Proof.
  intros P F. revert out'. induction F as [|p l ps out (b & T & Or & S & Pl & E) F IH]; intros out' F'; inversion F' as [|? l' ? ? (b' & T' & Or' & S' & Pl' & E') F'']; subst.
  - exists []. repeat constructor.
  - destruct (IH _ F'') as (rows & A & -> & ->). exists ((p, b, b') :: rows). split; [|split; reflexivity].
    constructor; [|exact A]. cbn [fst snd]. split; [|apply T']. apply (totals_equal f _ _ _ _ (below_perm p _ _ P)); assumption.
Qed.
Lemma alike_balance f d c fs args files verb ws :
  said_run d c fs args files verb ws -> balance_verb verb -> Forall xact_ok ws -> lots_ok (j_pool journal_new) ws -> full_sums_fit ws ->
  Forall (decimals_alike f) ws -> Forall no_zero_rest ws ->
  exists out ps, run d c fs args = Ok out /\ accounts_of_entries (full_entries ws) ps /\ Forall2 (shown_line f (full_entries ws)) ps out.
Proof.
  intros (cm & wss & A & F & ->) V K L S D N. destruct (full_balance_alike f _ _ _ _ _ _ _ _ A V F K L S D) as (out & ps & R & Ac & O).
  exists out, ps. split; [exact R|]. split; [exact Ac|]. eapply Forall2_impl; [|exact O]. intros p l (b & T & Or & Sb & Pl & E). exists b. auto 6.
Qed.
Lemma alike_perm {A} (P : A -> Prop) ws ws' : Permutation ws ws' -> Forall P ws -> Forall P ws'.
Proof. intros X. apply Permutation_Forall, X. Qed.
Lemma alike_order f d c fs args files verb ws d' c' fs' args' files' verb' ws' :
  said_run d c fs args files verb ws -> balance_verb verb -> said_run d' c' fs' args' files' verb' ws' -> balance_verb verb' ->
  Forall xact_ok ws -> lots_ok (j_pool journal_new) ws -> full_sums_fit ws -> Forall (decimals_alike f) ws -> Forall no_zero_rest ws -> Permutation ws ws' ->
  exists out out', run d c fs args = Ok out /\ run d' c' fs' args' = Ok out' /\ same_lines out out'.
Proof.
  intros A V A' V' K L S D N P. destruct (alike_balance f _ _ _ _ _ _ _ A V K L S D N) as (out & ps & R & Ac & O).
  destruct (alike_balance f _ _ _ _ _ _ _ A' V' (xacts_perm _ _ P K) (lots_perm _ _ _ P L) (fit_perm _ _ P S) (alike_perm _ _ _ P D) (alike_perm _ _ _ P N)) as (out' & ps' & R' & Ac' & O').
  exists out, out'. split; [exact R|]. split; [exact R'|]. pose proof (entries_perm _ _ P) as Pe. rewrite (accounts_unique _ _ _ _ Pe Ac Ac') in O. eapply lines_equal; eassumption.
Qed.
Lemma one_line_equal f c es es' ps out out' : Permutation es es' -> Forall (fun e => snd (fst e) = c) es ->
  Forall2 (shown_line f es) ps out -> Forall2 (shown_line f es') ps out' -> out = out'.
Proof.
  intros P O F. revert out'. induction F as [|p l ps out (b & T & Or & S & Pl & E) F IH]; intros out' F'; inversion F' as [|? l' ? ? (b' & T' & Or' & S' & Pl' & E') F'']; subst; [reflexivity|].
  f_equal; [|apply IH, F'']. do 3 f_equal. assert (Pb : Permutation b b') by (apply (totals_equal f _ _ _ _ (below_perm p _ _ P)); assumption). f_equal.
  destruct T as (N & I & _). assert (Cs : forall x, In x b -> a_c x = c).
  { intros x Hx. assert (C : In (a_c x) (map a_c b)) by (apply in_map, Hx). apply I in C as (e & He & <-). unfold below in He. apply filter_In in He as [He _]. rewrite Forall_forall in O. apply O, He. }
  destruct b as [|x [|y b]].
  - apply Permutation_nil in Pb. subst. reflexivity.
  - apply Permutation_length_1_inv in Pb. subst. reflexivity.
  - exfalso. cbn [map] in N. inversion N as [|? ? Hn _]; subst. apply Hn. left. rewrite (Cs x), (Cs y); [reflexivity|right; left; reflexivity|left; reflexivity].
Qed.
Lemma alike_same f d c fs args files verb ws d' c' fs' args' files' verb' ws' :
  said_run d c fs args files verb ws -> balance_verb verb -> said_run d' c' fs' args' files' verb' ws' -> balance_verb verb' ->
  Forall xact_ok ws -> lots_ok (j_pool journal_new) ws -> full_sums_fit ws -> Forall (decimals_alike f) ws -> Forall no_zero_rest ws -> one_commodity ws -> Permutation ws ws' ->
  exists out, run d c fs args = Ok out /\ run d' c' fs' args' = Ok out.
Proof.
  intros A V A' V' K L S D N (cm & O1) P. destruct (alike_balance f _ _ _ _ _ _ _ A V K L S D N) as (out & ps & R & Ac & O).
  destruct (alike_balance f _ _ _ _ _ _ _ A' V' (xacts_perm _ _ P K) (lots_perm _ _ _ P L) (fit_perm _ _ P S) (alike_perm _ _ _ P D) (alike_perm _ _ _ P N)) as (out' & ps' & R' & Ac' & O').
  exists out. split; [exact R|]. rewrite R'. f_equal. symmetry. pose proof (entries_perm _ _ P) as Pe. rewrite (accounts_unique _ _ _ _ Pe Ac Ac') in O. eapply one_line_equal; eassumption.
Qed.

(** ** The same entries in each account *)
Lemma lines_determined f es es' ps out out' : same_by_account es es' -> Forall2 (shown_line f es) ps out -> Forall2 (shown_line f es') ps out' -> out = out'.
Proof.
  intros S F. revert out'. induction F as [|p l ps out (b & T & Or & Sc & Pl & E) F IH]; intros out' F'; inversion F' as [|? l' ? ? (b' & T' & Or' & Sc' & Pl' & E') F'']; subst; [reflexivity|].
  f_equal; [|apply IH, F'']. do 4 f_equal. pose proof (by_account_below p _ _ S) as Sb. pose proof (by_account_perm _ _ Sb) as P.
  pose proof (totals_equal f _ _ _ _ P T T' Sc Sc' Pl Pl') as Pb. pose proof (by_account_shown _ _ _ _ Sb Or Or') as C. destruct T as (N & _). clear -Pb C N.
  revert b' Pb C. induction b as [|x b IH]; intros b' Pb C; [apply Permutation_nil in Pb; auto|]. destruct b' as [|y b']; [discriminate|]. cbn [map] in C, N. injection C as Cx C. inversion N as [|? ? Nx N']; subst.
  assert (E : x = y).
  { assert (I : In x (y :: b')) by (eapply Permutation_in; [exact Pb|left; reflexivity]). destruct I as [I|I]; [auto|]. exfalso. apply Nx. rewrite C. apply in_map, I. }
  subst y. f_equal. apply IH; [exact N'|eapply Permutation_cons_inv, Pb|exact C].
Qed.
Lemma by_account_same f d c fs args files verb ws d' c' fs' args' files' verb' ws' :
  said_run d c fs args files verb ws -> balance_verb verb -> said_run d' c' fs' args' files' verb' ws' -> balance_verb verb' ->
  Forall xact_ok ws -> lots_ok (j_pool journal_new) ws -> full_sums_fit ws -> Forall (decimals_alike f) ws -> Forall no_zero_rest ws ->
  Forall xact_ok ws' -> lots_ok (j_pool journal_new) ws' -> full_sums_fit ws' -> Forall (decimals_alike f) ws' -> Forall no_zero_rest ws' ->
  same_by_account (full_entries ws) (full_entries ws') ->
  exists out, run d c fs args = Ok out /\ run d' c' fs' args' = Ok out.
Proof.
  intros A V A' V' K L S D N K' L' S' D' N' B. destruct (alike_balance f _ _ _ _ _ _ _ A V K L S D N) as (out & ps & R & Ac & O).
  destruct (alike_balance f _ _ _ _ _ _ _ A' V' K' L' S' D' N') as (out' & ps' & R' & Ac' & O').
  exists out. split; [exact R|]. rewrite R'. f_equal. symmetry. rewrite (accounts_unique _ _ _ _ (by_account_perm _ _ B) Ac Ac') in O. eapply lines_determined; eassumption.
Qed.
(** Reordering transactions. *)
Lemma by_account_order f d c fs args files verb ws d' c' fs' args' files' verb' ws' :
  said_run d c fs args files verb ws -> balance_verb verb -> said_run d' c' fs' args' files' verb' ws' -> balance_verb verb' ->
  Forall xact_ok ws -> lots_ok (j_pool journal_new) ws -> full_sums_fit ws -> Forall (decimals_alike f) ws -> Forall no_zero_rest ws ->
  Permutation ws ws' -> same_by_account (full_entries ws) (full_entries ws') ->
  exists out, run d c fs args = Ok out /\ run d' c' fs' args' = Ok out.
Proof.
  intros A V A' V' K L S D N P B. eapply (by_account_same f); try eassumption.
  - eapply xacts_perm; eassumption.
  - eapply lots_perm; eassumption.
  - eapply fit_perm; eassumption.
  - eapply alike_perm; eassumption.
  - eapply alike_perm; eassumption.
Qed.
