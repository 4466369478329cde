(** C100: how much one reading can make of a text. *)
From Coq Require Import String List NArith ZArith Bool Lia.
From Verif Require Import Base Decimal Dates Amount Pool Account Journal Parser.
From Verif Require Import SpecReading SpecPool SpecAccount SpecJournal SpecSize SizeProofs MoreProofs JournalProofs DemoReading DemoWhole DemoFull DemoSize.
Import ListNotations.
Open Scope list_scope.
Open Scope nat_scope.

(** ** C100: what is read is no larger than the text that is read *)
(** An included file counts each time it is included. *)
Theorem C100_entries_partial :
  forall depth cwd fs src j j' n, reachable_journal j -> read_into_journal depth cwd fs src j = Ok j' -> costs per_line cwd fs src n ->
  entries_in j' <= entries_in j + n.
Proof. exact entries_bound. Qed.
Print Assumptions C100_entries_partial.
Theorem C100_accounts_partial :
  forall depth cwd fs src j j' n N, reachable_journal j -> read_into_journal depth cwd fs src j = Ok j' -> costs per_character cwd fs src n ->
  at_most (exists_at (j_master j)) N -> at_most (exists_at (j_master j')) (N + n).
Proof. exact accounts_bound. Qed.
Print Assumptions C100_accounts_partial.
Theorem C100_commodities_partial :
  forall depth cwd fs src j j' n N, reachable_journal j -> read_into_journal depth cwd fs src j = Ok j' -> costs per_line cwd fs src n ->
  at_most (commodity_known (j_pool j)) N -> at_most (commodity_known (j_pool j')) (N + 3 * n).
Proof. exact commodities_bound. Qed.
Print Assumptions C100_commodities_partial.
Theorem C100_prices_partial :
  forall depth cwd fs src j j' n N, reachable_journal j -> read_into_journal depth cwd fs src j = Ok j' -> costs per_line cwd fs src n ->
  at_most (price_known (j_pool j)) N -> at_most (price_known (j_pool j')) (N + n).
Proof. exact prices_bound. Qed.
Print Assumptions C100_prices_partial.
(** Without includes this is the length of the text. *)
Theorem C100_no_includes :
  forall cwd fs src, (forall l arg p, In (Some l) src -> include_line l arg -> names_file cwd arg p -> fs p = None) ->
  exists n, costs per_line cwd fs src n /\ n <= length src.
Proof. exact flat_lines. Qed.
Print Assumptions C100_no_includes.
(** With includes it is at most exponential in the number of files ... *)
Theorem C100_exponential :
  forall cwd fs files src L, acyclic cwd fs -> only_files fs files -> 1 <= L -> (forall p f, fs p = Some f -> length f <= L) -> length src <= L ->
  exists n, costs per_line cwd fs src n /\ n <= L ^ S (length files).
Proof. exact lines_exponential. Qed.
Print Assumptions C100_exponential.
(** ... and does become so. *)
Theorem C100_doubling :
  forall k, exists fs files src j, acyclic [] fs /\ only_files fs files /\ length files = S k /\ lines_in fs files = 2 * k + 3 /\ In (Some src) (map fs files)
  /\ read_into_journal k [] fs src journal_new = Ok j /\ length (j_xacts j) = 2 ^ k.
Proof.
  intros k. destruct (tower_read k) as (j & E & L). exists (tower k), (map name_of (seq 0 (S k))), (text_source (tower_text k)), j.
  split; [apply tower_acyclic|]. split; [apply tower_only|]. split; [rewrite map_length, seq_length; reflexivity|]. split; [apply tower_lines_in|].
  split; [rewrite map_map; apply in_map_iff; exists k; split; [apply tower_file; lia|apply in_seq; lia]|]. split; [exact E|exact L].
Qed.
Print Assumptions C100_doubling.
(** So the result is not bounded by the size of the files. *)
Theorem C100_linear_refuted :
  ~ exists c, forall depth cwd fs files src j, acyclic cwd fs -> only_files fs files -> In (Some src) (map fs files) ->
      read_into_journal depth cwd fs src journal_new = Ok j -> length (j_xacts j) <= c * lines_in fs files.
Proof.
  intros [c H]. destruct (C100_doubling (c + 6)) as (fs & files & src & j & A & O & _ & Li & I & E & L). specialize (H _ _ _ _ _ _ A O I E). rewrite L, Li in H.
  assert (X : forall c, c * (2 * (c + 6) + 3) < 2 ^ (c + 6)).
  { clear. intros c. assert (Y : c * (2 * (c + 6) + 3) < 2 ^ (c + 6) /\ 4 * c + 17 < 2 ^ (c + 6)).
    - induction c as [|c [IH1 IH2]]; [cbn; lia|]. replace (S c + 6) with (S (c + 6)) by lia. cbn [Nat.pow]. lia.
    - exact (proj1 Y). }
  specialize (X c). lia.
Qed.
Print Assumptions C100_linear_refuted.
Definition C100_lines : list str := map (fun s => s ++ [10%N]) [lit "2023-01-01 p"; lit " a:b:c  1 X @@ 2 Y"; lit " d"; []; lit "i 2023-01-02 Z 3 W ;"].
Lemma C100_cost : costs per_line [] (tower 0) (map Some C100_lines) 5.
Proof.
  apply (costs_flat per_line [] (tower 0) (map Some C100_lines)). intros l arg p I H. exfalso. apply in_map_iff in I as (l' & E & I). injection E as ->.
  pose proof (proj1 (ReadingFacts.include_line_arg _ _ H)) as W. clear H. revert W. repeat (destruct I as [<-|I]; [vm_compute; discriminate|]). destruct I.
Qed.
Example C100_case :
  at_most (exists_at (j_master journal_new)) 1 /\ at_most (commodity_known (j_pool journal_new)) 0 /\ at_most (price_known (j_pool journal_new)) 0
  /\ costs per_line [] (tower 0) (map Some C100_lines) 5
  /\ (exists j, read_into_journal 0 [] (tower 0) (map Some C100_lines) journal_new = Ok j /\ entries_in j = 3
      /\ exists_at (j_master j) [lit "a"; lit "b"; lit "c"] /\ Forall (commodity_known (j_pool j)) [lit "X"; lit "Y"; lit "Z"; lit "W"]
      /\ price_known (j_pool j) (lit "X", lit "Y", mkDT (mkDate 2023 1 1) midnight) /\ price_known (j_pool j) (lit "Z", lit "W", mkDT (mkDate 2023 1 2) midnight))
  /\ lines_in (tower 4) (map name_of (seq 0 5)) = 11 /\ option_map entries_in (match read_into_journal 4 [] (tower 4) (text_source (tower_text 4)) journal_new with Ok j => Some j | _ => None end) = Some 48.
Proof.
  split.
  { intros l Nd F. change 1 with (length [@nil str]). apply NoDup_incl_length; [exact Nd|]. intros p I. rewrite Forall_forall in F. destruct (F p I) as [a Ha]. destruct p as [|x p]; [left; reflexivity|discriminate]. }
  split; [intros [|s l] _ F; [apply le_n|inversion F as [|? ? X]; destruct X; reflexivity]|].
  split; [intros [|s l] _ F; [apply le_n|inversion F as [|? ? [v X]]; exfalso; destruct X as (a & b & m & X & _); discriminate X]|].
  split; [exact C100_cost|].
  split; [|split; vm_compute; reflexivity].
  eexists. split; [vm_compute; reflexivity|]. split; [vm_compute; reflexivity|]. split; [eexists; vm_compute; reflexivity|].
  split; [do 4 (apply Forall_cons; [vm_compute; discriminate|]); apply Forall_nil|].
  split; (eexists _, _, _; split; [vm_compute; reflexivity|]; split; [vm_compute; reflexivity|]; vm_compute; left; reflexivity).
Qed.
