(** C13, C17 and C29: journals built by reading. *)
From Coq Require Import String List NArith ZArith Bool Lia Sorted.
From Verif Require Import Base Decimal Dates Amount Balance Scanner History Pool Account Journal Xact Parser.
From Verif Require Import SpecDecimal SpecAmount SpecDates SpecPool SpecAccount SpecXact SpecJournal.
From Verif Require Import JournalProofs DemoJournal.
From Verif Require ModelTests.
Import ListNotations.
Open Scope list_scope.
Open Scope nat_scope.

(** ** C13: no posting is left without an amount *)
Theorem C13_no_posting_without_amount :
  forall j, reachable_journal j ->
  Forall (fun x => length (x_posts x) <> 1
     /\ Forall (fun p => exists a, po_amount p = Some a /\ forall c, po_cost p = Some c -> a_c a <> a_c c) (x_posts x))
    (j_xacts j).
Proof. exact no_posting_incomplete. Qed.
Print Assumptions C13_no_posting_without_amount.

(** Moreover all quantities are representable decimals in commodities known to the pool. *)
Theorem C13_quantities_wf :
  forall j, reachable_journal j -> Forall (fun p => wf_post p /\ post_known (j_pool j) p) (all_posts j).
Proof. exact postings_wf. Qed.
Print Assumptions C13_quantities_wf.

(** Every transaction has been through [finalize], so that C06 to C12 apply to it. *)
Theorem C13_all_finalised :
  forall j, reachable_journal j -> Forall finished (j_xacts j).
Proof. exact reachable_finished. Qed.
Print Assumptions C13_all_finalised.

Example C13_case :
  reachable_journal j2 /\ ModelTests.quantities j2
  = map (fun s => Some (lit s)) ["12.50"; "7.50"; "-20.00"; "10"; "-9"; "1000"; "-1000"]%string
  /\ map (fun x => length (x_posts x)) (j_xacts j2) = [3; 2; 2].
Proof. split; [exact j2_reachable|]. split; vm_compute; reflexivity. Qed.

(** ** C17: account posting lists and the journal agree *)
Theorem C17_posting_lists :
  forall j, reachable_journal j -> lists_own_postings j.
Proof. exact accounts_agree. Qed.
Print Assumptions C17_posting_lists.

Example C17_case :
  reachable_journal j2
  /\ posts_at (j_master j2) [lit "Assets"; lit "Bank"] = Some [(0, 2); (1, 1); (2, 0)]
  /\ posts_at (j_master j2) [lit "Assets"] = Some []
  /\ account_of (j_xacts j2) (1, 1) = Some [lit "Assets"; lit "Bank"].
Proof. split; [exact j2_reachable|]. repeat split; vm_compute; reflexivity. Qed.

(** ** C29: reading only appends *)
Theorem C29_read_appends :
  forall depth cwd fs src j j',
  reachable_journal j -> read_into_journal depth cwd fs src j = Ok j' -> appends j j'.
Proof. exact read_appends. Qed.
Print Assumptions C29_read_appends.

Example C29_case :
  reachable_journal j1 /\ read_on text2 j1 = Ok j2 /\ length (j_xacts j1) = 2 /\ length (j_xacts j2) = 3.
Proof. split; [exact j1_reachable|]. split; [exact j2_ok|]. split; vm_compute; reflexivity. Qed.
