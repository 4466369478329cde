(** Journals for the examples about pointers. *)
From Coq Require Import String List NArith ZArith Bool Lia.
From Verif Require Import Base Decimal Dates Amount Balance Scanner History Pool Account Journal Xact Parser Report Options Lib Memory Heap.
From Verif Require Import SpecMemory SpecHeap DemoJournal DemoMemory.
Import ListNotations.
Open Scope list_scope.
Open Scope nat_scope.

Definition heap_file : str := lit "/w/h.ledger".
Definition heap_fs (text : str) : filesystem := fun p => if str_eqb p heap_file then Some (text_source text) else None.
Definition heap_args (verb : str) : list str := [verb; lit "-f"; heap_file].

(** Three commodities, four postings, three accounts side by side, a lot and a cost. *)
Definition tidy : str := lit "2023-04-05 Broker
    Assets:Broker  10 VTI @ 25 CHF
    Assets:Cash  -250 CHF
    Assets:Cash  7.50 EUR
    Income:Interest  -7.50 EUR

2023-04-06 Shop
    Expenses:Food  2.50 EUR
    Assets:Cash
".
(** The fourth commodity moves the other three, and the first has two addresses in one transaction. *)
Definition commodities4 : str := lit "2023-04-05 A
    Assets:Cash  1 EUR
    Assets:Cash  -1 EUR

2023-04-05 B
    Assets:Cash  1 USD
    Assets:Cash  -1 USD

2023-04-05 C
    Assets:Cash  1 CHF
    Assets:Cash  -1 CHF

2023-04-05 D
    Assets:Cash  1 EUR
    Assets:Cash  1 GBP
    Assets:Cash  -1 EUR
    Assets:Cash  -1 GBP
".
(** The fifth posting moves the other four while the account points to them. *)
Definition postings5 : str := lit "2023-04-05 Shop
    Expenses:Food  1 EUR
    Expenses:Food  1 EUR
    Expenses:Food  1 EUR
    Expenses:Food  1 EUR
    Assets:Cash
".
(** The fourth account beside it moves the parent of [Assets:Cash]. *)
Definition children4 : str := lit "2023-04-05 Shop
    Assets:Cash  -1 EUR
    Expenses  1 EUR

2023-04-06 Bank
    Income  1 EUR
    Liabilities  -1 EUR
".
(** No commodity: the missing amount is made of a reference that is null. *)
Definition bare : str := lit "2023-04-05 Shop
    Expenses:Food  20
    Assets:Cash
".

Definition heap_j (text : str) : journal := from_ok journal_new (read_journal_files 0 [] (heap_fs text) [heap_file]).
Definition comms_check (pol : policy) (j : journal) : bool := length (p_comms (j_pool j)) <=? map_next pol 0.
Definition posts_check (pol : policy) (j : journal) : bool := forallb (fun x => length (x_posts x) <=? vec_next pol 0) (j_xacts j).
Definition children_check (pol : policy) (j : journal) : bool := all_children (fun n => n <=? map_next pol 0) (j_master j).
Definition priced_check (j : journal) : bool :=
  forallb (fun p => match po_amount p with Some a => match a_c a with Some _ => true | None => false end | None => true end) (all_posts j).
Lemma comms_ok pol j : comms_check pol j = true -> few_commodities pol j.
Proof. apply Nat.leb_le. Qed.
Lemma posts_ok pol j : posts_check pol j = true -> few_postings pol j.
Proof. intros H x X. unfold posts_check in H. rewrite forallb_forall in H. apply Nat.leb_le, H, X. Qed.
Lemma children_ok pol j : children_check pol j = true -> few_children pol j.
Proof. intros H p a X. apply Nat.leb_le. exact (all_children_get _ _ _ H _ X). Qed.
Lemma priced_ok j : priced_check j = true -> all_priced j.
Proof. intros H p a X E N. unfold priced_check in H. rewrite forallb_forall in H. specialize (H p X). rewrite E, N in H. discriminate. Qed.

Lemma tidy_read : read_journal_files 0 [] (heap_fs tidy) [heap_file] = Ok (heap_j tidy)
  /\ few_commodities std_policy (heap_j tidy) /\ few_postings std_policy (heap_j tidy) /\ few_children std_policy (heap_j tidy) /\ all_priced (heap_j tidy).
Proof.
  split; [vm_compute; reflexivity|]. split; [apply comms_ok; vm_compute; reflexivity|]. split; [apply posts_ok; vm_compute; reflexivity|].
  split; [apply children_ok; vm_compute; reflexivity|apply priced_ok; vm_compute; reflexivity].
Qed.
