(** What reading a posting line or a header adds to the journal. *)
From Coq Require Import String List NArith ZArith Bool Lia ZifyBool ZifyNat ZifyN.
From Verif Require Import Base Decimal Dates Amount Balance Scanner History Pool Account Journal Xact Parser.
From Verif Require Import SpecDecimal SpecAmount SpecPool SpecAccount SpecText SpecReading SpecScan SpecXact SpecJournal.
From Verif Require Import BaseFacts DecimalFacts RoundFacts BalanceFacts ArithProofs AccountProofs PoolFacts XactFacts XactProofs JournalFacts ScanFacts ScanProofs.
Import ListNotations.
Open Scope nat_scope.

Lemma commodity_of_eq s : commodity_of s = comm_of s. Proof. reflexivity. Qed.

Lemma denotes_read t u k s : denotes t u k ->
  exists d, d_from_str t = Some d /\ amount_is (mkAmt d (comm_of s)) u k s.
Proof.
  intros (sign & neg & whole & pt & frac & -> & Sg & Hw & Hf & Hp & Ne & B & L & K & ->). subst k.
  destruct (read_complete sign neg whole pt frac) as (d & E & Sd & U); auto; [tauto|].
  exists d. split; [exact E|]. unfold amount_is, wf_amt, aunits. cbn [a_q a_c]. apply d_from_str_sound in E as [W _]. auto.
Qed.

Lemma adds_add_post j xi p x m pl :
  nth_error (j_xacts j) xi = Some x -> adds_posting j xi p (mkJournal m pl (add_post (j_xacts j) xi p)).
Proof.
  intros E. split; cbn [j_xacts]; unfold add_post.
  - exists x. split; [exact E|]. apply nth_update_same with (f := fun x => set_posts x (x_posts x ++ [p])) in E. exact E.
  - intros k N. apply nth_update_other. auto.
Qed.

(** Everything [parse_post] does, for any line. *)
Lemma parse_post_parts j xi l tok j' :
  scan_post l = Ok tok -> parse_post j xi l = Ok j' ->
  exists m1 acct p2 ann p4 p,
    register_account (j_master j) (t_account tok) = Ok (m1, acct)
    /\ p = mkPost acct (option_map (fun d => mkAmt d (comm_of (t_symbol tok))) (d_from_str (t_quantity tok))) (po_cost p) None
    /\ annotation_parse (fst (pool_find_or_create (j_pool j) (t_symbol tok) None)) (t_price_date tok) (t_price_quantity tok) (t_price_commodity tok) = Ok (p2, ann)
    /\ parse_cost (fst (pool_find_or_create p2 (t_symbol tok) (Some ann))) tok (po_amount p) = Ok (p4, po_cost p)
    /\ j_pool j' = p4 /\ adds_posting j xi p j'.
Proof.
  intros Hs H. unfold parse_post in H. rewrite Hs in H. cbn [bind] in H. inv_bind H. destruct v as [m1 acct].
  unfold parse_amount_parts in H. pose proof (foc_comm (j_pool j) (t_symbol tok) None) as C.
  destruct (pool_find_or_create (j_pool j) (t_symbol tok) None) as [p1 c]. cbn [fst snd] in *. subst c.
  inv_bind H. destruct v as [p2 ann].
  destruct (pool_find_or_create p2 (t_symbol tok) (Some ann)) as [p3 c3] eqn:E3.
  inv_bind H. destruct v as [p4 cost]. destruct (nth_error (j_xacts j) xi) as [x|] eqn:Ex; [|discriminate].
  inv_bind H. injection H as <-. set (amt := option_map _ _) in *.
  exists m1, acct, p2, ann, p4, (mkPost acct amt cost None). cbn [po_cost po_amount j_pool].
  repeat split; auto; [rewrite E3; exact EQ1| |]. apply (proj1 (adds_add_post j xi _ x v p4 Ex)). apply (proj2 (adds_add_post j xi _ x v p4 Ex)).
Qed.

(** ** Amounts and costs *)
Lemma amount_read j xi l a q s lq ls d cq cs unit j' u k :
  posting_line l (mkPT a q s lq ls d cq cs unit) -> denotes q u k -> parse_post j xi l = Ok j' ->
  exists p am, adds_posting j xi p j' /\ po_amount p = Some am /\ amount_is am u k s.
Proof.
  intros L D H. destruct (parse_post_parts _ _ _ _ _ (posting_scanned _ _ L) H) as (m1 & acct & p2 & ann & p4 & p & _ & Hp & _ & _ & _ & A).
  cbn [t_quantity t_symbol] in Hp. destruct (denotes_read q u k s D) as (n & E & I). rewrite E in Hp.
  exists p, (mkAmt n (comm_of s)). split; [exact A|]. split; [rewrite Hp; reflexivity|exact I].
Qed.
Lemma unit_cost_read j xi l a q s lq ls d cq cs j' u k v k' :
  posting_line l (mkPT a q s lq ls d cq cs true) -> denotes q u k -> denotes cq v k' -> parse_post j xi l = Ok j' ->
  exists p am c, adds_posting j xi p j' /\ po_amount p = Some am /\ amount_is am u k s
    /\ po_cost p = Some c /\ a_c c = commodity_of (match cs with [] => s | _ => cs end)
    /\ rounded (u * v) unit1 (a_q c)
    /\ (forall e, wf_dec e -> (units e * unit1 = u * v)%Z -> aunits c = units e).
Proof.
  intros L D D' H. destruct (parse_post_parts _ _ _ _ _ (posting_scanned _ _ L) H) as (m1 & acct & p2 & ann & p4 & p & _ & Hp & _ & Hc & _ & A).
  cbn [t_quantity t_symbol] in Hp. destruct (denotes_read q u k s D) as (n & E & I). rewrite E in Hp.
  destruct (denotes_read cq v k' cs D') as (n' & E' & I').
  rewrite Hp in Hc. cbn [option_map po_amount] in Hc. unfold parse_cost in Hc. cbn [t_cost_quantity t_cost_symbol t_is_per_unit t_symbol po_cost] in Hc.
  assert (is_empty cq = false) as Nc.
  { destruct cq; [|reflexivity]. destruct D' as (sign & neg & whole & pt & frac & X & _ & _ & _ & _ & Ne & _).
    destruct sign; [|discriminate]. destruct whole; [|discriminate]. destruct pt; [|discriminate]. destruct frac; [|discriminate]. elim Ne. reflexivity. }
  rewrite Nc in Hc. unfold parse_amount_parts in Hc. set (p3 := fst _) in Hc.
  pose proof (foc_comm p3 cs None) as C. destruct (pool_find_or_create p3 cs None) as [p3' c0]. cbn [snd] in C. subst c0. rewrite E' in Hc. cbn [option_map] in Hc.
  inv_bind Hc. rename v0 into c. injection Hc as -> Hc. 
  exists p, (mkAmt n (comm_of s)), c. split; [exact A|]. split; [rewrite Hp; reflexivity|]. split; [exact I|]. split; [symmetry; exact Hc|].
  pose proof (amt_mul_wf _ _ _ EQ) as [Wc Cc].
  assert (R : rounded (u * v) unit1 (a_q c)).
  { unfold amt_mul in EQ. inv_bind EQ. injection EQ as <-. cbn [a_q] in *. destruct I as (W & Eu & _), I' as (W' & Eu' & _).
    pose proof (d_mul_rounded _ _ _ W' W EQ0) as X. unfold rounded_product in X. unfold aunits in *. cbn [a_q] in *. rewrite Eu, Eu' in X.
    rewrite Z.mul_comm. exact X. }
  split; [|split; [exact R|]].
  - rewrite Cc. cbn [a_c]. destruct cs, s; reflexivity.
  - intros e We Ee. unfold aunits. eapply rounded_exact; [|exact R|exact We|exact Ee]. discriminate.
Qed.
Lemma total_cost_read j xi l a q s lq ls d cq cs j' u k v k' :
  posting_line l (mkPT a q s lq ls d cq cs false) -> denotes q u k -> denotes cq v k' -> parse_post j xi l = Ok j' ->
  exists p am c, adds_posting j xi p j' /\ po_amount p = Some am /\ amount_is am u k s
    /\ po_cost p = Some c /\ amount_is c v k' cs.
Proof.
  intros L D D' H. destruct (parse_post_parts _ _ _ _ _ (posting_scanned _ _ L) H) as (m1 & acct & p2 & ann & p4 & p & _ & Hp & _ & Hc & _ & A).
  cbn [t_quantity t_symbol] in Hp. destruct (denotes_read q u k s D) as (n & E & I). rewrite E in Hp.
  destruct (denotes_read cq v k' cs D') as (n' & E' & I').
  rewrite Hp in Hc. cbn [option_map po_amount] in Hc. unfold parse_cost in Hc. cbn [t_cost_quantity t_cost_symbol t_is_per_unit t_symbol po_cost] in Hc.
  assert (is_empty cq = false) as Nc.
  { destruct cq; [|reflexivity]. destruct D' as (sign & neg & whole & pt & frac & X & _ & _ & _ & _ & Ne & _).
    destruct sign; [|discriminate]. destruct whole; [|discriminate]. destruct pt; [|discriminate]. destruct frac; [|discriminate]. elim Ne. reflexivity. }
  rewrite Nc in Hc. unfold parse_amount_parts in Hc. set (p3 := fst _) in Hc.
  pose proof (foc_comm p3 cs None) as C. destruct (pool_find_or_create p3 cs None) as [p3' c0]. cbn [snd] in C. subst c0. rewrite E' in Hc. cbn [option_map] in Hc.
  injection Hc as -> Hc.
  exists p, (mkAmt n (comm_of s)), (mkAmt n' (comm_of cs)). split; [exact A|]. split; [rewrite Hp; reflexivity|]. split; [exact I|]. split; [symmetry; exact Hc|exact I'].
Qed.
Lemma no_cost_read j xi l tok j' :
  posting_line l tok -> parse_post j xi l = Ok j' ->
  exists p, adds_posting j xi p j' /\ (t_cost_quantity tok = [] \/ po_amount p = None -> po_cost p = None).
Proof.
  intros L H. destruct (parse_post_parts _ _ _ _ _ (posting_scanned _ _ L) H) as (m1 & acct & p2 & ann & p4 & p & _ & Hp & _ & Hc & _ & A).
  exists p. split; [exact A|]. unfold parse_cost in Hc. intros [D|D].
  - rewrite D in Hc. cbn [is_empty] in Hc. destruct (po_amount p); injection Hc as _ <-; reflexivity.
  - rewrite D in Hc. injection Hc as _ <-. reflexivity.
Qed.
Lemma no_other_number j xi l tok j' :
  posting_line l tok -> parse_post j xi l = Ok j' ->
  exists p, adds_posting j xi p j'
    /\ forall a, po_amount p = Some a -> a_c a = commodity_of (t_symbol tok)
       /\ exists neg whole frac, literal_of (t_quantity tok) neg whole frac
          /\ aunits a = ((if neg then - number (whole ++ frac) else number (whole ++ frac)) * 10 ^ Z.of_nat (28 - length frac))%Z.
Proof.
  intros L H. destruct (parse_post_parts _ _ _ _ _ (posting_scanned _ _ L) H) as (m1 & acct & p2 & ann & p4 & p & _ & Hp & _ & Hc & _ & A).
  exists p. split; [exact A|]. intros a Ha. rewrite Hp in Ha. cbn [po_amount] in Ha.
  destruct (d_from_str (t_quantity tok)) as [d|] eqn:D; [|discriminate]. cbn in Ha. injection Ha as <-. cbn [a_c]. split; [reflexivity|].
  apply d_from_str_sound in D as (W & n & w & f & Hl & Hs & Hv). exists n, w, f. split; [exact Hl|].
  unfold aunits. cbn [a_q]. rewrite units_eq, Hv, Hs. reflexivity.
Qed.

(** ** Annotations *)
Lemma create_ann p s : pool_find p s = None -> p_ann (pool_create p s None) = p_ann p.
Proof. intros _. unfold pool_create. destruct (add_commodity (p_hist p) s). reflexivity. Qed.
Lemma foc_none_ann p s : p_ann (fst (pool_find_or_create p s None)) = p_ann p.
Proof.
  rewrite foc_cases. destruct (is_empty s); [reflexivity|]. cbn [fst]. destruct (pool_find p s) eqn:F; [reflexivity|]. apply create_ann, F.
Qed.
Lemma foc_some_ann p s a : s <> [] -> lookup s (p_ann p) = None -> lookup s (p_ann (fst (pool_find_or_create p s (Some a)))) = Some a.
Proof.
  intros Ns N. rewrite foc_cases. destruct s as [|c s]; [congruence|]. cbn [is_empty fst]. destruct (pool_find p (c :: s)).
  - rewrite N. cbn [p_ann]. rewrite lookup_insert, str_eqb_refl; reflexivity.
  - unfold pool_create. destruct (add_commodity (p_hist p) (c :: s)). cbn [p_ann]. rewrite lookup_insert, str_eqb_refl; reflexivity.
Qed.
Lemma parse_cost_ann p t amt p' c : parse_cost p t amt = Ok (p', c) -> p_ann p' = p_ann p.
Proof.
  unfold parse_cost. intros H. destruct amt as [a|]; [|injection H as <- _; reflexivity].
  destruct (is_empty (t_cost_quantity t)); [injection H as <- _; reflexivity|].
  unfold parse_amount_parts in H. pose proof (foc_none_ann p (t_cost_symbol t)) as K.
  destruct (pool_find_or_create p (t_cost_symbol t) None) as [p1 c1]. cbn [fst] in K.
  destruct (option_map _ _); [|injection H as <- _; exact K]. destruct (t_is_per_unit t); [|injection H as <- _; exact K].
  inv_bind H. injection H as <- _. exact K.
Qed.
Lemma lot_kept j xi l a q s lq ls d cq cs unit j' :
  posting_line l (mkPT a q s lq ls d cq cs unit) -> s <> [] -> lookup s (p_ann (j_pool j)) = None -> parse_post j xi l = Ok j' ->
  exists an, lookup s (p_ann (j_pool j')) = Some an
    /\ (forall u k, denotes lq u k -> exists pr, an_price an = Some pr /\ amount_is pr u k ls)
    /\ (lq = [] -> an_price an = None)
    /\ an_date an = (match d with [] => None | _ => parse_date_opt d end)
    /\ (d <> [] -> an_date an <> None).
Proof.
  intros L Ns N H. destruct (parse_post_parts _ _ _ _ _ (posting_scanned _ _ L) H) as (m1 & acct & p2 & ann & p4 & p & _ & Hp & Ha & Hc & <- & A).
  cbn [t_quantity t_symbol t_price_date t_price_quantity t_price_commodity] in *. exists ann. pose proof (parse_cost_ann _ _ _ _ _ Hc) as K. rewrite K.
  apply annotation_inv in Ha as (-> & Pr & Dt). split.
  - apply foc_some_ann; [exact Ns|]. rewrite !foc_none_ann. exact N.
  - rewrite Pr. split; [|split; [|split]].
    + intros u k D. destruct (denotes_read lq u k ls D) as (n & E & I). rewrite E. eexists. split; [reflexivity|exact I].
    + intros ->. reflexivity.
    + destruct d; cbn [is_empty] in Dt; [exact Dt|apply Dt].
    + intros Nd. destruct d; [congruence|]. cbn [is_empty] in Dt. destruct Dt as [-> X]. exact X.
Qed.
