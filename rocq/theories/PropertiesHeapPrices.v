(** C95: price lookups with pointers. *)
From Coq Require Import String List NArith ZArith Bool Lia.
From Verif Require Import Base Decimal Dates Amount Balance Scanner History Pool Account Journal Xact Parser Report Options Lib Memory Heap HeapPrices.
From Verif Require Import SpecText SpecMemory SpecHeap SpecHeapPrices.
From Verif Require Import HeapPriceProofs DemoMemory DemoPrices.
Import ListNotations.
Open Scope list_scope.
Open Scope nat_scope.

(** The pool has a pointer for each commodity there is. *)
Theorem C95_found :
  forall pol strict depth cwd fs files h j, h_read_files pol strict depth cwd fs files = Ok h -> read_journal_files depth cwd fs files = Ok j ->
  forall s, (exists a, hp_find (h_pool h) s = Some a) <-> exists c, In (s, c) (p_comms (j_pool j)).
Proof. exact found_files. Qed.
Print Assumptions C95_found.
(** A lookup with pointers that the pool gives now is the lookup by names, with the pointer to the target in the answer.
    It is never undefined, however many commodities there are. *)
Theorem C95_fresh :
  forall pol strict depth cwd fs files h j, h_read_files pol strict depth cwd fs files = Ok h -> read_journal_files depth cwd fs files = Ok j ->
  forall astar s t a b now moment oldest, hp_find (h_pool h) s = Some a -> hp_find (h_pool h) t = Some b ->
  h_find_price astar (h_pool h) (Some a) (Some b) now moment oldest
  = let* r := pool_find_price astar (j_pool j) (Some s) (Some t) now moment oldest in Ok (with_pointer b r).
Proof. exact fresh_files. Qed.
Print Assumptions C95_fresh.
(** With pointers that the pool gave before more files were read: the same, if the commodities have not been moved since;
    undefined, if they have. *)
Theorem C95_kept :
  forall pol strict depth cwd fs files1 files2 h1 h2 j1 j2, grows pol ->
  h_read_files pol strict depth cwd fs files1 = Ok h1 -> h_read_files pol strict depth cwd fs (files1 ++ files2) = Ok h2 ->
  read_journal_files depth cwd fs files1 = Ok j1 -> read_journal_files depth cwd fs (files1 ++ files2) = Ok j2 ->
  forall astar s t a b now moment oldest, hp_find (h_pool h1) s = Some a -> hp_find (h_pool h1) t = Some b -> s <> t ->
  let r := h_find_price astar (h_pool h2) (Some a) (Some b) now moment oldest in
  (~ moved (map_next pol) (commodities j1) (commodities j2) ->
     r = let* r := pool_find_price astar (j_pool j2) (Some s) (Some t) now moment oldest in Ok (with_pointer b r))
  /\ (moved (map_next pol) (commodities j1) (commodities j2) -> undefined r).
Proof. intros pol strict depth cwd fs files1 files2 h1 h2 j1 j2 G. exact (kept_files pol G strict depth cwd fs files1 files2 h1 h2 j1 j2). Qed.
Print Assumptions C95_kept.
(** An old and a new pointer, also to the same commodity. *)
Theorem C95_mixed :
  forall pol strict depth cwd fs files1 files2 h1 h2 j1 j2, grows pol ->
  h_read_files pol strict depth cwd fs files1 = Ok h1 -> h_read_files pol strict depth cwd fs (files1 ++ files2) = Ok h2 ->
  read_journal_files depth cwd fs files1 = Ok j1 -> read_journal_files depth cwd fs (files1 ++ files2) = Ok j2 ->
  forall astar s t a b now moment oldest, hp_find (h_pool h1) s = Some a -> hp_find (h_pool h2) t = Some b ->
  moved (map_next pol) (commodities j1) (commodities j2) ->
  undefined (h_find_price astar (h_pool h2) (Some a) (Some b) now moment oldest) /\ undefined (h_find_price astar (h_pool h2) (Some b) (Some a) now moment oldest).
Proof. intros pol strict depth cwd fs files1 files2 h1 h2 j1 j2 G. exact (mixed_files pol G strict depth cwd fs files1 files2 h1 h2 j1 j2). Qed.
Print Assumptions C95_mixed.
(** The commodity of a node of the price graph: its pointer is the one made with the commodity, and is not renewed. *)
Theorem C95_node :
  forall pol strict depth cwd fs files h j, grows pol -> h_read_files pol strict depth cwd fs files = Ok h -> read_journal_files depth cwd fs files = Ok j ->
  forall s i, made_as j s i ->
  (~ moved (map_next pol) (S i) (commodities j) -> exists c, h_by_symbol (h_pool h) s = Ok c /\ c_symbol c = s)
  /\ (moved (map_next pol) (S i) (commodities j) -> undefined (h_by_symbol (h_pool h) s)).
Proof. intros pol strict depth cwd fs files h j G. exact (node_files pol G strict depth cwd fs files h j). Qed.
Print Assumptions C95_node.

Definition lookup_first : str := lit "2024-01-01 x
  A  1 EUR @@ 2 USD
  B  -2 USD
".
Definition lookup_second : str := lit "2024-01-02 y
  A  1 AUD
  B  -1 AUD
".
Definition lookup_third : str := lit "2024-01-03 z
  A  1 GBP
  B  -1 GBP
".
Definition lookup_fs : filesystem := fun p =>
  if str_eqb p (lit "1") then Some (text_source lookup_first)
  else if str_eqb p (lit "2") then Some (text_source lookup_second)
  else if str_eqb p (lit "3") then Some (text_source lookup_third) else None.
Definition lookup_h (files : list str) : heap := match h_read_files std_policy true 0 [] lookup_fs files with Ok h => h | _ => heap_new end.
Definition lookup_j (files : list str) : journal := match read_journal_files 0 [] lookup_fs files with Ok j => j | _ => journal_new end.
Definition eur : addr := AComm 1 (lit "EUR").
Definition usd : addr := AComm 1 (lit "USD").
Definition look (files : list str) (a b : addr) := h_find_price bfs (h_pool (lookup_h files)) (Some a) (Some b) (day 2025 1 1) (day 2025 1 1) (day 2025 1 1).
Lemma lookup_read : forall files, In files [[lit "1"]; [lit "1"; lit "2"]; [lit "1"; lit "2"; lit "3"]] ->
  h_read_files std_policy true 0 [] lookup_fs files = Ok (lookup_h files) /\ read_journal_files 0 [] lookup_fs files = Ok (lookup_j files).
Proof. intros files [<-|[<-|[<-|[]]]]; split; vm_compute; reflexivity. Qed.
(** Two commodities, then three, then four: the map of commodities has room for three. *)
Example C95_case :
  hp_find (h_pool (lookup_h [lit "1"])) (lit "EUR") = Some eur /\ hp_find (h_pool (lookup_h [lit "1"])) (lit "USD") = Some usd
  /\ commodities (lookup_j [lit "1"]) = 2 /\ commodities (lookup_j [lit "1"; lit "2"]) = 3 /\ commodities (lookup_j [lit "1"; lit "2"; lit "3"]) = 4
  /\ look [lit "1"] eur usd = Ok (Some (day 2024 1 1, mkHA (dq 2 0) (Some usd)))
  /\ look [lit "1"; lit "2"] eur usd = Ok (Some (day 2024 1 1, mkHA (dq 2 0) (Some usd)))
  /\ undefined (look [lit "1"; lit "2"; lit "3"] eur usd)
  /\ hp_find (h_pool (lookup_h [lit "1"; lit "2"; lit "3"])) (lit "EUR") = Some (AComm 2 (lit "EUR"))
  /\ undefined (look [lit "1"; lit "2"; lit "3"] eur (AComm 2 (lit "EUR")))
  /\ look [lit "1"; lit "2"; lit "3"] (AComm 2 (lit "EUR")) (AComm 2 (lit "USD")) = Ok (Some (day 2024 1 1, mkHA (dq 2 0) (Some (AComm 2 (lit "USD")))))
  /\ made_as (lookup_j [lit "1"; lit "2"; lit "3"]) (lit "EUR") 0 /\ made_as (lookup_j [lit "1"; lit "2"; lit "3"]) (lit "GBP") 3
  /\ undefined (h_by_symbol (h_pool (lookup_h [lit "1"; lit "2"; lit "3"])) (lit "EUR"))
  /\ exists c, h_by_symbol (h_pool (lookup_h [lit "1"; lit "2"; lit "3"])) (lit "GBP") = Ok c.
Proof.
  assert (M : forall s i, (exists c, nth_error (p_comms (j_pool (lookup_j [lit "1"; lit "2"; lit "3"]))) i = Some (s, c)) -> made_as (lookup_j [lit "1"; lit "2"; lit "3"]) s i) by (intros s i H; exact H).
  repeat (split; [first [apply M; eexists; vm_compute; reflexivity | vm_compute; reflexivity]|]). eexists. vm_compute. reflexivity.
Qed.
Example C95_moved_case : moved (map_next std_policy) 2 4 /\ ~ moved (map_next std_policy) 2 3.
Proof.
  split; [exists 3; split; [exists 0; reflexivity|lia]|]. intros (c & (i & ->) & L1 & L2). pose proof (MemoryFacts.iter_ge (map_next std_policy) (proj2 std_grows) i) as X. change (map_next std_policy 0) with 3 in X. lia.
Qed.
