(** C101: what a journal tells about the file it was read from. *)
From Coq Require Import String List NArith ZArith Bool Lia.
From Verif Require Import Base Decimal Dates Amount Pool Account Journal Parser.
From Verif Require Import SpecDecimal SpecText SpecReading SpecScan SpecAccount SpecJournal SpecXact SpecFull SpecOrder SpecKept KeptProofs MoreProofs DemoReading DemoWhole DemoFull DemoOrder DemoKept.
Import ListNotations.
Open Scope list_scope.
Open Scope nat_scope.

(** ** C101: the journal determines what the file said *)
(** If the same transactions are read from two texts, then both texts say the same dates, payees, accounts and amounts, the
    same costs in total, the same last notes, and the amounts left out in one are those written in the other. *)
Theorem C101_alike_partial :
  forall depth cwd fs t ws j j1 depth' cwd' fs' t' ws' j' j1' new, read_as depth cwd fs t ws j j1 -> read_as depth' cwd' fs' t' ws' j' j1' ->
  j_xacts j1 = j_xacts j ++ new -> j_xacts j1' = j_xacts j' ++ new -> Forall2 alike ws ws'.
Proof. exact kept_alike. Qed.
Print Assumptions C101_alike_partial.
(** The rest is lost: whether a cost was given for one unit, ... *)
Theorem C101_unit_cost_refuted : same_journal [w_total] [w_unit] /\ [w_total] <> [w_unit].
Proof.
  split; [exact same_cost|]. intros E. apply (f_equal (map (fun w => map (fun p => option_map (fun v => option_map fst (wv_cost v)) (fp_value p)) (fx_posts w)))) in E. revert E. vm_compute. discriminate.
Qed.
Print Assumptions C101_unit_cost_refuted.
(** ... whether an amount was left out, ... *)
Theorem C101_left_out_refuted : same_journal [fb] [w_written] /\ [fb] <> [w_written].
Proof.
  split; [exact same_left_out|]. intros E. apply (f_equal (map (fun w => map (fun p => option_map wv_lot (fp_value p)) (fx_posts w)))) in E. revert E. vm_compute. discriminate.
Qed.
Print Assumptions C101_left_out_refuted.
(** ... all notes but the last, ... *)
Theorem C101_notes_refuted : same_journal [w_notes] [w_note] /\ [w_notes] <> [w_note].
Proof.
  split; [exact same_notes|]. intros E. apply (f_equal (map (fun w => map (fun p => length (fp_notes p)) (fx_posts w)))) in E. revert E. vm_compute. discriminate.
Qed.
Print Assumptions C101_notes_refuted.
(** ... and the lots of a commodity after its first posting. *)
Theorem C101_lots_refuted : same_journal [w_lot 2] [w_lot 3] /\ [w_lot 2] <> [w_lot 3].
Proof.
  split; [exact same_lots|]. intros E. apply (f_equal (map (fun w => map (fun p => option_map (fun v => option_map wa_units (wv_lot v)) (fp_value p)) (fx_posts w)))) in E. revert E. vm_compute. discriminate.
Qed.
Print Assumptions C101_lots_refuted.
Example C101_case :
  Forall2 alike [fb] [w_written] /\ left_out fb (wv_amount v_food) /\ (forall c, cost_in w_unit v_unit c -> c = Some (lit "EUR", 100 * unit1)%Z)
  /\ ~ alike fb w_unit /\ ~ alike w_note fb.
Proof.
  split; [|split; [|split; [|split]]].
  - destruct same_left_out as (cwd & fs & t & t' & j & A & B). exact (C101_alike_partial _ _ _ _ _ _ _ _ _ _ _ _ _ _ (j_xacts j) A B eq_refl eq_refl).
  - split; [vm_compute; reflexivity|]. repeat constructor.
  - intros c [(y & r & (_ & F & _) & _)|[_ ->]]; [|vm_compute; reflexivity]. inversion F as [|? ? _ F']; subst. inversion F' as [|? ? X _]; subst. destruct X. reflexivity.
  - intros (_ & _ & _ & _ & F). inversion F as [|? ? ? ? H _]; subst. destruct H as (_ & _ & H). destruct H as [X _]. apply (f_equal wa_decimals) in X. revert X. vm_compute. discriminate.
  - intros (_ & _ & _ & _ & F). inversion F as [|? ? ? ? H _]; subst. destruct H as (_ & X & _). revert X. vm_compute. discriminate.
Qed.
