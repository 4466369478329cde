(** Proofs about the lots that are kept, and about the commodities of any posting line. *)
From Coq Require Import String List NArith ZArith Bool Lia ZifyBool ZifyNat ZifyN.
From Verif Require Import Base BaseFacts Decimal Dates Amount Balance Scanner History Pool Account Journal Xact Parser.
From Verif Require Import SpecText SpecReading SpecScan SpecDates SpecAccount SpecXact SpecJournal SpecOutline SpecFull SpecPriceLog SpecLine SpecContent SpecLots.
From Verif Require Import ScanFacts ScanProofs DatesFacts AccountFacts JournalFacts PriceLogFacts OutlineProofs LineReadProofs ContentProofs ModerateReading PostProofs.
From Verif Require ReadingFacts LinesProofs.
Import ListNotations.
Open Scope nat_scope.

(** ** One posting *)
Lemma lots_plain q y d s q' y' d' r : lots_read q y d s q' y' d' r -> forallb is_qchar q = true -> forallb is_qchar q' = true.
Proof. induction 1 as [| ? ? ? ? ? ? ? ? ? ? ? ? ? ? ? A ? ? IH|]; auto. intros _. apply IH. eapply amount_plain, A. Qed.
Lemma lot_plain l tok : post_read l tok -> forallb is_qchar (t_price_quantity tok) = true.
Proof. intros [|? ? ? ? ? ? ? ? ? ? ? ? ? ? ? ? ? ? ? L ?]; [reflexivity|]. cbn. eapply lots_plain; [exact L|reflexivity]. Qed.

Lemma foc_known_ann p s a x : pool_find p s <> None -> s <> [] ->
  lookup x (p_ann (fst (pool_find_or_create p s (Some a)))) = match lookup x (p_ann p) with Some b => Some b | None => if str_eqb x s then Some a else None end.
Proof.
  intros K N. destruct s as [|c s]; [congruence|]. cbn [pool_find_or_create]. destruct (pool_find p (c :: s)) as [k|]; [|congruence].
  destruct (lookup (c :: s) (p_ann p)) as [b|] eqn:E; cbn [fst p_ann].
  - destruct (lookup x (p_ann p)) eqn:F; [reflexivity|]. destruct (str_eqb x (c :: s)) eqn:G; [|reflexivity]. apply str_eqb_eq in G. subst x. congruence.
  - rewrite lookup_insert. destruct (str_eqb x (c :: s)) eqn:G; [|destruct (lookup x (p_ann p)); reflexivity]. apply str_eqb_eq in G. subst x. rewrite E. reflexivity.
Qed.
Lemma post_lot j xi l j' : parse_post j xi l = Ok j' -> exists tok an, post_read l tok /\ lot_told tok an /\
  forall s, s <> [] -> lot_of (j_pool j') s = match lot_of (j_pool j) s with Some b => Some b | None => if str_eqb s (t_symbol tok) then Some an else None end.
Proof.
  unfold parse_post, lot_of. intros H. inv_bind H. rename v into tok, EQ into Sc. inv_bind H. destruct v as [m1 acct].
  unfold parse_amount_parts in H. pose proof (foc_ann (j_pool j) (t_symbol tok)) as A1. pose proof (find_foc (j_pool j) (t_symbol tok) None) as K1.
  destruct (pool_find_or_create (j_pool j) (t_symbol tok) None) as [p1 c1]. cbn [fst] in *. inv_bind H. destruct v as [p2 an].
  unfold annotation_parse in EQ0. pose proof (foc_ann p1 (t_price_commodity tok)) as A2. pose proof (find_foc p1 (t_price_commodity tok) None) as K2.
  assert (C2 : snd (pool_find_or_create p1 (t_price_commodity tok) None) = comm_of (t_price_commodity tok)).
  { destruct (t_price_commodity tok) as [|k r]; [reflexivity|]. cbn [pool_find_or_create]. destruct (pool_find p1 (k :: r)); reflexivity. }
  destruct (pool_find_or_create p1 (t_price_commodity tok) None) as [p2' c2]. cbn [fst snd] in *. subst c2. inv_bind EQ0. injection EQ0 as <- <-.
  apply post_iff in Sc.
  exists tok, (mkAnn (option_map (fun q => mkAmt q (comm_of (t_price_commodity tok))) (d_from_str (t_price_quantity tok))) v). split; [exact Sc|]. split.
  - split; cbn [an_price an_date]; [apply amount_tells; eapply lot_plain, Sc|]. destruct (t_price_date tok) as [|e r]; cbn [is_empty] in EQ1; [injection EQ1 as <-; auto|].
    inv_bind EQ1. injection EQ1 as <-. right. exists v0. split; [|reflexivity]. apply parse_date_iff. destruct (parse_date_opt (e :: r)); cbn in EQ0; [injection EQ0 as ->; reflexivity|discriminate].
  - intros s Ns. set (an := mkAnn _ v) in *. destruct (pool_find_or_create p2' (t_symbol tok) (Some an)) as [p3 c3] eqn:E3. inv_bind H. destruct v0 as [p4 cost]. apply parse_cost_ann in EQ0.
    destruct (nth_error (j_xacts j) xi) as [x|]; [|discriminate]. inv_bind H. injection H as <-. cbn [j_pool]. rewrite EQ0. change p3 with (fst (p3, c3)). rewrite <- E3.
    destruct (t_symbol tok) as [|e r] eqn:Et.
    + cbn [pool_find_or_create fst]. rewrite A2, A1. destruct s as [|? ?]; [congruence|]. cbn [str_eqb]. destruct (lookup _ _); reflexivity.
    + rewrite foc_known_ann; [rewrite A2, A1; reflexivity| |discriminate]. apply K2. left. apply K1. right. split; [reflexivity|discriminate].
Qed.

Lemma price_loop_ann date ps : forall p p' qs, price_loop date p ps = Ok (p', qs) -> p_ann p' = p_ann p.
Proof.
  induction ps as [|x ps IH]; intros p p' qs H; cbn [price_loop] in H; [injection H as <- _; reflexivity|].
  inv_bind H. destruct v as [p1 x1]. inv_bind H. destruct v as [p2 x2]. injection H as <- _. rewrite (IH _ _ _ EQ0).
  destruct (po_cost x) as [c|]; [|injection EQ as <- _; reflexivity]. destruct (po_amount x) as [a|]; [|discriminate].
  destruct (comm_eqb _ _); [discriminate|]. inv_bind EQ. inv_bind EQ. destruct v0 as [bd np]. inv_bind EQ. injection EQ as <- _.
  destruct np as [pr|]; [|injection EQ3 as <-; reflexivity]. unfold pool_add_price_struct in EQ3. eapply pool_price_ann, EQ3.
Qed.
Lemma finalize_lots j xi j' : finalize j xi = Ok j' -> lot_of (j_pool j') = lot_of (j_pool j).
Proof.
  intros H. unfold finalize in H. destruct (nth_error _ _) as [x|]; [|discriminate]. inv_bind H. destruct v as [p ps]. injection H as <-. cbn [j_pool].
  unfold finalize_posts in EQ. inv_bind EQ. destruct v as [b np]. destruct (length _ =? 1); [discriminate|]. inv_bind EQ. destruct v as [ps1 b1]. inv_bind EQ. destruct v as [p2 ps2].
  assert (E : p = p2).
  { destruct np; [|congruence]. destruct b1 as [|? [|? ?]]; congruence. }
  subst p2. unfold lot_of. rewrite (price_loop_ann _ _ _ _ _ EQ2). reflexivity.
Qed.

(** ** Many postings *)
Definition named (s : str) (ta : post_tokens * annotation) : bool := str_eqb s (t_symbol (fst ta)).
Definition gets (A : str -> option annotation) (ls : list str) (B : str -> option annotation) : Prop :=
  exists tas, Forall2 (fun l ta => post_read l (fst ta) /\ lot_told (fst ta) (snd ta)) ls tas
  /\ forall s, s <> [] -> B s = match A s with Some b => Some b | None => option_map snd (find (named s) tas) end.
Lemma gets_none A : gets A [] A.
Proof. exists []. split; [constructor|]. intros s _. destruct (A s); reflexivity. Qed.
Lemma find_two_lists {T} (f : T -> bool) l l' : find f (l ++ l') = match find f l with Some x => Some x | None => find f l' end.
Proof. induction l as [|x l IH]; [reflexivity|]. cbn. destruct (f x); [reflexivity|exact IH]. Qed.
Lemma gets_app A ls B ls' C : gets A ls B -> gets B ls' C -> gets A (ls ++ ls') C.
Proof.
  intros (tas & F & H) (tas' & F' & H'). exists (tas ++ tas'). split; [apply Forall2_app; assumption|]. intros s N. rewrite (H' s N), (H s N), find_two_lists.
  destruct (A s); [reflexivity|]. destruct (find (named s) tas); reflexivity.
Qed.
Lemma gets_one A l B tok an : post_read l tok -> lot_told tok an ->
  (forall s, s <> [] -> B s = match A s with Some b => Some b | None => if str_eqb s (t_symbol tok) then Some an else None end) -> gets A [l] B.
Proof. intros P L H. exists [(tok, an)]. split; [constructor; [split; assumption|constructor]|]. intros s N. rewrite (H s N). cbn [find]. unfold named. cbn [fst]. destruct (str_eqb _ _); reflexivity. Qed.
Lemma post_read_trim r tok : post_read (trim_start r) tok <-> post_read r tok.
Proof.
  rewrite <- !post_iff, !LinesProofs.scan_post_eq. assert (T : trim_start (trim_start r) = trim_start r).
  { destruct (trim_start_spec r) as (w & _ & _ & H). destruct (trim_start r) as [|c t]; [reflexivity|]. apply trim_start_id, H. }
  rewrite T. reflexivity.
Qed.

Section Lots.
  Context (cwd : str) (fs : filesystem).
  Definition cur_lines (cur : option lines_read) : list str := match cur with Some o => snd o | None => [] end.
  Definition inside_ok (m : mode) (cur : option lines_read) : Prop := match m, cur with Top, None => True | InXact _, Some _ => True | _, _ => False end.
  Definition lots_said (cur : option lines_read) (src : source) (j j' : journal) : Prop :=
    exists its rest, outline cwd fs cur src its /\ posting_lines its = cur_lines cur ++ rest /\ gets (lot_of (j_pool j)) rest (lot_of (j_pool j')).
  Definition lots_inc (inc : str -> journal -> outcome journal) : Prop :=
    forall arg j j', inc arg j = Ok j' -> exists its, inc_outline cwd fs arg its /\ gets (lot_of (j_pool j)) (posting_lines its) (lot_of (j_pool j')).
  Lemma posting_lines_app its its' : posting_lines (its ++ its') = posting_lines its ++ posting_lines its'.
  Proof. unfold posting_lines, xact_lines. rewrite !flat_map_app. reflexivity. Qed.
  Lemma lots_inert l src j j' : inert l -> lots_said None src j j' -> lots_said None (l :: src) j j'.
  Proof. intros I (its & rest & O & E & G). exists its, rest. split; [constructor; assumption|]. split; assumption. Qed.
  Lemma lots_lines inc src : lots_inc inc -> forall m cur j j', inside_ok m cur -> parse_lines inc m j src = Ok j' -> lots_said cur src j j'.
  Proof.
    intros HI. induction src as [|l src IH]; intros m cur j j' S H; cbn [parse_lines] in H.
    - destruct m as [|xi], cur as [o|]; try (destruct S; fail).
      + injection H as <-. exists [], []. split; [constructor|]. split; [reflexivity|apply gets_none].
      + exists [Lines o], []. split; [constructor|]. split; [reflexivity|]. rewrite (finalize_lots _ _ _ H). apply gets_none.
    - inv_bind H.
      assert (Done : forall xi o j1, finalize j xi = Ok j1 -> parse_lines inc Top j1 src = Ok j' ->
        exists its, outline cwd fs None src its /\ gets (lot_of (j_pool j)) (posting_lines its) (lot_of (j_pool j')) /\ posting_lines (Lines o :: its) = snd o ++ posting_lines its).
      { intros xi o j1 Fi P. destruct (IH Top None j1 j' Logic.I P) as (its & rest & O & E & G). cbn in E. rewrite <- E, (finalize_lots _ _ _ Fi) in G.
        exists its. split; [exact O|]. split; [exact G|]. reflexivity. }
      assert (Ends : forall xi o j1, finalize j xi = Ok j1 -> parse_lines inc Top j1 src = Ok j' -> (forall its, outline cwd fs None src its -> outline cwd fs (Some o) (l :: src) (Lines o :: its)) ->
        lots_said (Some o) (l :: src) j j').
      { intros xi o j1 Fi P Hol. destruct (Done xi o j1 Fi P) as (its & O & G & E). exists (Lines o :: its), (posting_lines its). split; [apply Hol, O|]. split; [exact E|exact G]. }
      destruct m as [|xi], cur as [o|]; try (destruct S; fail).
      + destruct l as [l|]; cbn [step] in EQ.
        2:{ injection EQ as <-. injection H as <-. exists [], []. split; [constructor|]. split; [reflexivity|apply gets_none]. }
        unfold top_line in EQ. destruct (str_eqb l [13%N; 10%N] || str_eqb l [10%N]) eqn:B.
        { injection EQ as <-. apply lots_inert; [|exact (IH Top None j j' Logic.I H)].
          exists l. split; [reflexivity|]. apply orb_prop in B as [B|B]; apply str_eqb_eq in B; auto. }
        destruct l as [|c r]; [discriminate|].
        destruct ((c =? 59) || (c =? 35) || (c =? 42) || (c =? 124))%N eqn:K.
        { injection EQ as <-. apply lots_inert; [|exact (IH Top None j j' Logic.I H)].
          exists (c :: r). split; [reflexivity|]. right. right. exists c, r. split; [reflexivity|].
          repeat (apply orb_prop in K as [K|K]); apply N.eqb_eq in K; subst c; cbn; auto. }
        destruct (N.eqb_spec c 45) as [->|N45].
        { injection EQ as <-. apply lots_inert; [|exact (IH Top None j j' Logic.I H)].
          exists (45%N :: r). split; [reflexivity|]. right. right. exists 45%N, r. split; [reflexivity|]. cbn; auto 8. }
        destruct (is_digit c) eqn:D.
        { inv_bind EQ. injection EQ as <-. destruct (IH (InXact (length (j_xacts j))) (Some (c :: r, [])) v0 j' Logic.I H) as (its & rest & O & E & G).
          rewrite (create_known _ _ _ EQ0) in G. exists its, rest. split; [apply ol_header; assumption|]. split; assumption. }
        destruct ((c =? 32) || (c =? 9))%N; [discriminate|]. inv_bind EQ. injection EQ as <-.
        destruct (IH Top None v0 j' Logic.I H) as (its & rest & O & E & G). cbn in E. subst rest.
        destruct (general_kinds _ _ _ _ EQ0) as [(arg & Hl & Hinc)|(Hp & pl & Hd & ->)].
        * destruct (HI arg j v0 Hinc) as (its1 & (p & Np & O1) & G1). exists (its1 ++ its), (posting_lines (its1 ++ its)).
          split; [destruct O1 as [(-> & Mi)|(f & Ef & O1)]; [eapply ol_missing|eapply ol_include]; eassumption|]. split; [reflexivity|].
          rewrite posting_lines_app. eapply gets_app; eassumption.
        * exists (Price_line (c :: r) :: its), (posting_lines its). split; [apply ol_price; assumption|]. split; [reflexivity|].
          apply price_directive_ann in Hd. unfold lot_of in *. cbn [j_pool set_pool] in G. rewrite Hd in G. exact G.
      + destruct l as [l|]; cbn [step] in EQ.
        2:{ inv_bind EQ. injection EQ as <-. eapply Ends; [exact EQ0|exact H|]. intros its O. constructor. exact O. }
        destruct l as [|c r]; [discriminate|]. rewrite ReadingFacts.xact_line_eq in EQ. destruct (N.eqb_spec c 32) as [->|N32].
        * change (32%N :: r) with ([32%N] ++ r) in EQ. rewrite trim_start_app in EQ by reflexivity.
          destruct (trim_start_spec r) as (w & Er & W & Sw). destruct (trim_start r) as [|d s] eqn:Tr.
          -- unfold ReadingFacts.fin in EQ. inv_bind EQ. injection EQ as <-. eapply Ends; [exact EQ0|exact H|]. intros its O.
             apply ol_blank; [|reflexivity|exact O]. rewrite app_nil_r in Er. subst w. exact W.
          -- cbn in Sw. destruct o as [h ps]. destruct (N.eqb_spec d 59) as [->|N59].
             ++ inv_bind EQ. injection EQ as <-. destruct (IH (InXact xi) (Some (h, ps)) v0 j' Logic.I H) as (its & rest & O & E & G). exists its, rest.
                split; [apply ol_note; [exists w, s; auto|exact O]|]. split; [exact E|]. unfold parse_trailing_note in EQ0.
                assert (Ep : j_pool v0 = j_pool j) by (destruct (is_empty _); injection EQ0 as <-; reflexivity). rewrite Ep in G. exact G.
             ++ inv_bind EQ. injection EQ as <-. destruct (post_lot _ _ _ _ EQ0) as (tok & an & P & L & Q). rewrite <- Tr in P. apply (proj1 (post_read_trim r tok)) in P.
                destruct (IH (InXact xi) (Some (h, ps ++ [r])) v0 j' Logic.I H) as (its & rest & O & E & G). cbn [cur_lines snd] in E. rewrite <- app_assoc in E.
                exists its, ([r] ++ rest). split; [eapply (ol_posting _ _ _ _ _ d); [exists w, s; auto|exact N59|exact O]|]. split; [exact E|].
                eapply gets_app; [eapply gets_one; eassumption|exact G].
        * destruct ((c =? 13) || (c =? 10))%N eqn:B; [|discriminate]. unfold ReadingFacts.fin in EQ. inv_bind EQ. injection EQ as <-.
          eapply Ends; [exact EQ0|exact H|]. intros its O. apply ol_return; [|exact O]. cbn.
          apply orb_prop in B as [B|B]; apply N.eqb_eq in B; auto.
  Qed.
  Lemma lots_include depth : lots_inc (include_file depth cwd fs).
  Proof.
    induction depth as [|d IH]; intros arg j j' H; cbn [include_file] in H; [discriminate|]. inv_bind H.
    set (p := resolve cwd arg). assert (Np : names_file cwd arg p) by (apply ReadingFacts.names_resolve; reflexivity).
    destruct v as [src|].
    - apply ReadingFacts.included_some in EQ. destruct (lots_lines _ src IH Top None j j' Logic.I H) as (its & rest & O & E & G). cbn in E. subst rest.
      exists its. split; [|exact G]. exists p. split; [exact Np|]. right. exists src. auto.
    - injection H as <-. exists []. split; [|apply gets_none]. exists p. split; [exact Np|]. left. split; [reflexivity|].
      destruct (fs p) as [f|] eqn:Ef; [right|left; reflexivity]. intros Fp. rewrite (ReadingFacts.included_file _ _ _ _ Np Fp) in EQ. congruence.
  Qed.
End Lots.

Theorem lots_kept depth cwd fs src j j' : read_into_journal depth cwd fs src j = Ok j' ->
  exists its, outline cwd fs None src its /\ forall s, s <> [] ->
    match lot_of (j_pool j) s with
    | Some b => lot_of (j_pool j') s = Some b
    | None => (forall tok, first_posting s (posting_lines its) tok -> exists an, lot_of (j_pool j') s = Some an /\ lot_told tok an)
              /\ (no_posting s (posting_lines its) -> lot_of (j_pool j') s = None)
    end.
Proof.
  intros H. destruct (lots_lines cwd fs _ src (lots_include cwd fs depth) Top None j j' Logic.I H) as (its & rest & O & E & tas & F & G). cbn in E. subst rest.
  exists its. split; [exact O|]. intros s N. specialize (G s N). destruct (lot_of (j_pool j) s) as [b|]; [exact G|]. rewrite G. clear G H O. split.
  - intros tok (ls1 & l & ls2 & E & P & T & B). rewrite E in F. apply Forall2_app_inv_l in F as (t1 & t2 & F1 & F2 & ->). inversion F2 as [|? ta ? t2' [P' L'] _]; subst.
    rewrite find_two_lists. assert (X : find (named (t_symbol tok)) t1 = None).
    { clear -F1 B. induction F1 as [|l ta ls ts [P L] F1 IH]; [reflexivity|]. cbn [find]. unfold named at 1. destruct (str_eqb (t_symbol tok) (t_symbol (fst ta))) eqn:K.
      - exfalso. apply str_eqb_eq in K. symmetry in K. revert K. apply (B l); [left; reflexivity|exact P].
      - apply IH. intros l' tok' I. apply B. right. exact I. }
    rewrite X. cbn [find]. unfold named. apply post_iff in P, P'. assert (K : fst ta = tok) by congruence. rewrite K, str_eqb_refl. exists (snd ta). split; [reflexivity|]. rewrite <- K. exact L'.
  - intros B. assert (X : find (named s) tas = None); [|rewrite X; reflexivity]. induction F as [|l ta ls ts [P L] F1 IH]; [reflexivity|]. cbn [find]. unfold named at 1. destruct (str_eqb s (t_symbol (fst ta))) eqn:K.
    + exfalso. apply str_eqb_eq in K. symmetry in K. revert K. apply (B l); [left; reflexivity|exact P].
    + apply IH. intros l' tok' I. apply B. right. exact I.
Qed.

(** ** The commodities of any lines *)
Lemma scanned_told l s : scanned l s <-> exists tok, post_read l tok /\ symbol_told tok s.
Proof.
  unfold scanned. assert (K : forall tok, post_read l tok -> (token_symbol tok s <-> symbol_told tok s)).
  { intros tok P. unfold token_symbol, symbol_told. destruct (post_plain _ _ P) as [Q _]. pose proof (qchars_number _ Q) as X.
    assert (Y : d_from_str (t_quantity tok) <> None <-> number_text (t_quantity tok)); [|rewrite Y; reflexivity].
    destruct (d_from_str (t_quantity tok)) as [d|]; [destruct X as (u & k & X & _); split; [intros _; exists u, k; exact X|discriminate]|split; [congruence|contradiction]]. }
  split; intros (tok & P & T); exists tok.
  - apply post_iff in P. apply (proj1 (post_read_trim l tok)) in P. split; [exact P|apply (K tok P), T].
  - split; [apply post_iff, post_read_trim, P|apply (K tok P), T].
Qed.
Theorem commodities_told depth cwd fs src j j' : reachable_journal j -> read_into_journal depth cwd fs src j = Ok j' ->
  exists its, outline cwd fs None src its /\
    forall s, pool_find (j_pool j') s <> None <-> pool_find (j_pool j) s <> None
       \/ (exists l tok, In l (posting_lines its) /\ post_read l tok /\ symbol_told tok s)
       \/ exists l a b w v, In l (price_lines its) /\ price_said l (a, b, w, v) /\ (s = a \/ s = b).
Proof.
  intros R H. destruct (read_told _ _ _ _ _ _ R H) as (its & new & O & _ & rs & Rd & G & _). exists its. split; [exact O|]. intros s. specialize (G s). unfold known in G. rewrite G.
  split; (intros [A|[A|A]]; [left; exact A|right; left|right; right]).
  - destruct A as (l & Hl & S). apply scanned_told in S as (tok & P & T). exists l, tok. auto.
  - destruct A as (l & Hl & (dt & tm & a & q & b & Sc & A)). destruct (recorded_said _ _ _ _ Rd Hl) as ([[[a' b'] w] v] & Sd). destruct (said_scan _ _ _ _ _ Sd) as (dt' & tm' & q' & Sc').
    rewrite Sc in Sc'. injection Sc' as <- <- <- <- <-. exists l, a, b, w, v. auto.
  - destruct A as (l & tok & Hl & P & T). exists l. split; [exact Hl|]. apply scanned_told. exists tok. auto.
  - destruct A as (l & a & b & w & v & Hl & Sd & A). exists l. split; [exact Hl|]. destruct (said_scan _ _ _ _ _ Sd) as (dt & tm & q & Sc). exists dt, tm, a, q, b. auto.
Qed.
