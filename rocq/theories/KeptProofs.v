(** Proofs for C101. *)
From Coq Require Import String List NArith ZArith Bool Lia.
From Verif Require Import Base Decimal Dates Amount Balance Scanner Pool Account Journal Xact Parser.
From Verif Require Import SpecDecimal SpecAmount SpecText SpecReading SpecScan SpecAccount SpecJournal SpecXact SpecWhole SpecFull SpecKept.
From Verif Require Import BaseFacts DecimalFacts FullProofs.
Import ListNotations.
Open Scope list_scope.
Open Scope nat_scope.

Lemma commodity_of_inj s t : commodity_of s = commodity_of t -> s = t.
Proof. destruct s, t; cbn; congruence. Qed.
Lemma exact_units a x y : (a * unit1 = x * y)%Z -> (x * y / unit1)%Z = a.
Proof. intros <-. apply Z.div_mul. vm_compute. discriminate. Qed.
(** The cost of a posting is the cost that is kept. *)
Lemma kept_cost w p a v c : fposting_is w (mkFP (fp_account p) (Some v) (fp_notes p)) a -> cost_in w v c ->
  c = match po_cost a with None => None | Some k => match a_c k with None => Some ([], aunits k) | Some s => Some (s, aunits k) end end.
Proof.
  intros (_ & _ & x & _ & _ & A & B) [(y & r & P & ->)|[N ->]]; cbn [fp_value] in *.
  - destruct (B y r P) as (k & -> & _ & C & E). rewrite C. unfold rate_cost. rewrite (exact_units _ _ _ E). destruct y; reflexivity.
  - specialize (A N). unfold cost_is in A. unfold worth_symbol, worth_units. destruct (wv_cost v) as [[[|] wa]|]; [| |rewrite A; reflexivity].
    + destruct A as (k & -> & _ & C & E). rewrite C, (exact_units _ _ _ E). destruct (wa_symbol wa); reflexivity.
    + destruct A as (k & -> & _ & U & _ & C). rewrite C, U. destruct (wa_symbol wa); reflexivity.
Qed.
Lemma alike_postings w w' p p' a : fposting_is w p a -> fposting_is w' p' a -> alike_posting w w' p p'.
Proof.
  intros P P'. pose proof P as (A & N & x & X & V). pose proof P' as (A' & N' & x' & X' & V'). rewrite X in X'. injection X' as <-.
  split; [congruence|]. split; [congruence|]. destruct p as [ac [v|] ns], p' as [ac' [v'|] ns']; cbn [fp_value fp_account fp_notes] in *.
  - destruct V as (((_ & U & D & C) & _) & _), V' as (((_ & U' & D' & C') & _) & _). split.
    + destruct (wv_amount v) as [u k s], (wv_amount v') as [u' k' s']. cbn [wa_units wa_decimals wa_symbol] in *. f_equal; [congruence|congruence|apply commodity_of_inj; congruence].
    + intros c c' H H'. rewrite (kept_cost w (mkFP ac None ns) a v c P H), (kept_cost w' (mkFP ac' None ns') a v' c' P' H'). reflexivity.
  - destruct V as (((_ & U & D & C) & _) & _), V' as (K & S & F & _). split; [split; [congruence|]|].
    + eapply Forall_impl; [|exact F]. cbv beta. intros u E. apply commodity_of_inj. congruence.
    + intros c H. rewrite (kept_cost w (mkFP ac None ns) a v c P H), K. reflexivity.
  - destruct V' as (((_ & U & D & C) & _) & _), V as (K & S & F & _). split; [split; [congruence|]|].
    + eapply Forall_impl; [|exact F]. cbv beta. intros u E. apply commodity_of_inj. congruence.
    + intros c H. rewrite (kept_cost w' (mkFP ac' None ns') a v' c P' H), K. reflexivity.
  - destruct V as (_ & S & F & _), V' as (_ & S' & F' & _). split; [apply Z.opp_inj; congruence|]. rewrite Forall_forall in F, F'. intros v v' I I'. apply commodity_of_inj. rewrite <- (F v I), <- (F' v' I'). reflexivity.
Qed.
Lemma Forall2_meet {A B C} (P : A -> C -> Prop) (Q : B -> C -> Prop) (R : A -> B -> Prop) l l' l'' :
  (forall a b c, P a c -> Q b c -> R a b) -> Forall2 P l l'' -> Forall2 Q l' l'' -> Forall2 R l l'.
Proof. intros H F. revert l'. induction F; intros k G; inversion G; subst; constructor; eauto. Qed.
Theorem kept_alike depth cwd fs t ws j j1 depth' cwd' fs' t' ws' j' j1' new : read_as depth cwd fs t ws j j1 -> read_as depth' cwd' fs' t' ws' j' j1' ->
  j_xacts j1 = j_xacts j ++ new -> j_xacts j1' = j_xacts j' ++ new -> Forall2 alike ws ws'.
Proof.
  intros ((ls & L & S) & Ok1 & Lo & R & E) ((ls' & L' & S') & Ok1' & Lo' & R' & E') X X'.
  destruct (full_journal_accepted depth cwd fs t ls ws j L S Ok1 Lo R) as (j2 & n2 & rss & E2 & X2 & F & _). rewrite E in E2. injection E2 as <-. rewrite X in X2. apply app_inv_head in X2. subst n2.
  destruct (full_journal_accepted depth' cwd' fs' t' ls' ws' j' L' S' Ok1' Lo' R') as (j2' & n2 & rss' & E2' & X2' & F' & _). rewrite E' in E2'. injection E2' as <-. rewrite X' in X2'. apply app_inv_head in X2'. subst n2.
  eapply Forall2_meet; [|exact F|exact F']. intros w w' x (D & A & P & N & Ps) (D' & A' & P' & N' & Ps').
  split; [congruence|]. split; [congruence|]. split; [congruence|]. split; [unfold header_note; congruence|].
  eapply Forall2_meet; [|exact Ps|exact Ps']. intros p p' a. apply alike_postings.
Qed.
