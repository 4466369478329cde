(** C48 and C75: the lots and the commodities of any lines. *)
From Coq Require Import String List NArith ZArith Bool Lia.
From Verif Require Import Base Decimal Dates Amount Balance Scanner History Pool Account Journal Xact Parser.
From Verif Require Import SpecText SpecReading SpecScan SpecDates SpecAccount SpecJournal SpecOutline SpecPriceLog SpecLine SpecContent SpecLots.
From Verif Require Import LineReadProofs OutlineProofs LotProofs DatesFacts.
Import ListNotations.
Open Scope list_scope.
Open Scope nat_scope.

(** Which lot is kept for a commodity: the one there is, else that of the first posting with an amount in the commodity, also if this
    posting has none; and no lot if there is no such posting. *)
Theorem C48_which_partial :
  forall depth cwd fs src j j', read_into_journal depth cwd fs src j = Ok j' ->
  exists its, outline cwd fs None src its /\ forall s, s <> [] ->
    match lot_of (j_pool j) s with
    | Some b => lot_of (j_pool j') s = Some b
    | None => (forall tok, first_posting s (posting_lines its) tok -> exists an, lot_of (j_pool j') s = Some an /\ lot_told tok an)
              /\ (no_posting s (posting_lines its) -> lot_of (j_pool j') s = None)
    end.
Proof. exact lots_kept. Qed.
Print Assumptions C48_which_partial.
(** The commodities known after any file that can be read. *)
Theorem C75_any_lines :
  forall depth cwd fs src j j', reachable_journal j -> read_into_journal depth cwd fs src j = Ok j' ->
  exists its, outline cwd fs None src its
    /\ forall s, pool_find (j_pool j') s <> None <->
          pool_find (j_pool j) s <> None
          \/ (exists l tok, In l (posting_lines its) /\ post_read l tok /\ symbol_told tok s)
          \/ exists l a b w v, In l (price_lines its) /\ price_said l (a, b, w, v) /\ (s = a \/ s = b).
Proof. exact commodities_told. Qed.
Print Assumptions C75_any_lines.

(** Two lots for VTI, of which the first one is kept; a lot for IVV after a posting without one, which is not kept; a quantity that is not
    a number, with a commodity for it and its lot price, but not for its cost. *)
Definition nl : str := [10%N].
Definition lot_lines : list str :=
  [lit "2023-05-01 Broker" ++ nl; lit " A  2 VTI {3 EUR} [2023-04-01]" ++ nl; lit " A  2 VTI {4 EUR}" ++ nl; lit " B  1 IVV" ++ nl; lit " B  1 IVV {5 USD}" ++ nl; nl; lit "2023-05-02 Bank" ++ nl; lit " C  1,000 CHF {6 GBP} @ 7 JPY" ++ nl; lit " D  5 VTI" ++ nl].
Definition lot_items : list item := [Lines (lit "2023-05-01 Broker" ++ nl, map (@tl N) (firstn 4 (skipn 1 lot_lines))); Lines (lit "2023-05-02 Bank" ++ nl, map (@tl N) (skipn 7 lot_lines))].
Definition after_lots : journal := match read_into_journal 1 [] (fun _ => None) (map Some lot_lines) journal_new with Ok j => j | _ => journal_new end.
Lemma lot_outline : outline [] (fun _ => None) None (map Some lot_lines) lot_items.
Proof.
  unfold lot_lines, lot_items. cbn [map tl firstn skipn]. apply (ol_header _ _ 50%N); [reflexivity|].
  repeat (eapply ol_posting; [eexists [], _; split; [reflexivity|split; reflexivity]|discriminate|]). apply ol_return; [right; reflexivity|].
  apply (ol_header _ _ 50%N); [reflexivity|].
  repeat (eapply ol_posting; [eexists [], _; split; [reflexivity|split; reflexivity]|discriminate|]). apply ol_end_xact.
Qed.
Example C48_which_case :
  read_into_journal 1 [] (fun _ => None) (map Some lot_lines) journal_new = Ok after_lots
  /\ (exists tok, first_posting (lit "VTI") (posting_lines lot_items) tok) /\ (exists tok, first_posting (lit "IVV") (posting_lines lot_items) tok) /\ no_posting (lit "EUR") (posting_lines lot_items)
  /\ lot_of (j_pool after_lots) (lit "VTI") = Some (mkAnn (Some (mkAmt (mkDec false 3 0) (Some (lit "EUR")))) (Some (mkDate 2023 4 1)))
  /\ lot_of (j_pool after_lots) (lit "IVV") = Some (mkAnn None None) /\ lot_of (j_pool after_lots) (lit "EUR") = None.
Proof.
  split; [vm_compute; reflexivity|].
  split; [eexists; exists [], (lit "A  2 VTI {3 EUR} [2023-04-01]" ++ nl); eexists; split; [reflexivity|]; split; [apply post_iff; vm_compute; reflexivity|]; split; [reflexivity|intros ? ? []]|].
  split; [eexists; exists [lit "A  2 VTI {3 EUR} [2023-04-01]" ++ nl; lit "A  2 VTI {4 EUR}" ++ nl], (lit "B  1 IVV" ++ nl); eexists; split; [reflexivity|]; split; [apply post_iff; vm_compute; reflexivity|];
    split; [reflexivity|intros l tok [<-|[<-|[]]] P; apply post_iff in P; vm_compute in P; injection P as <-; discriminate]|].
  split; [intros l tok I P; cbn in I; repeat (destruct I as [<-|I]; [apply post_iff in P; vm_compute in P; injection P as <-; discriminate|]); destruct I|].
  split; [vm_compute; reflexivity|]. split; vm_compute; reflexivity.
Qed.
Example C75_any_case :
  exists tok, post_read (lit "C  1,000 CHF {6 GBP} @ 7 JPY" ++ nl) tok /\ symbol_told tok (lit "CHF") /\ symbol_told tok (lit "GBP") /\ t_cost_symbol tok = lit "JPY"
  /\ map fst (p_comms (j_pool after_lots)) = [lit "VTI"; lit "EUR"; lit "IVV"; lit "USD"; lit "CHF"; lit "GBP"].
Proof.
  eexists. split; [apply post_iff; vm_compute; reflexivity|]. split; [split; [discriminate|left; reflexivity]|]. split; [split; [discriminate|right; left; reflexivity]|]. split; [reflexivity|]. vm_compute. reflexivity.
Qed.
