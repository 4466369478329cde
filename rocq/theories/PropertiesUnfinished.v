(** C64-C69: code that nothing calls yet. *)
From Coq Require Import String List NArith ZArith Bool Lia.
From Verif Require Import Base Decimal Amount Pool Journal Scanner Parser Unfinished.
From Verif Require Import SpecDecimal SpecAmount SpecWhole SpecUnfinished ArithProofs UnfinishedProofs DemoWhole.
Import ListNotations.
Open Scope list_scope.

(** ** C64: the directive reader gives one item for each line *)
Theorem C64_items :
  forall t lines items it, lines_of t lines ->
  (loop diter_next (create_str_reader t) items it <-> items = repeat DComment (length lines) /\ it = mkDiter [] t).
Proof. exact reader_items. Qed.
Print Assumptions C64_items.
Theorem C64_fused : forall it, fused diter_next it.
Proof. exact reader_fused. Qed.
Print Assumptions C64_fused.
Theorem C64_undecodable :
  forall lines rest, exists it,
  calls diter_next (mkDiter (map Some lines ++ None :: rest) []) (map (fun _ => Some DComment) lines) it /\ fails (diter_next it).
Proof. intros lines rest. eexists. split; [apply diter_runs|]. eapply reader_undecodable, diter_runs. Qed.
Print Assumptions C64_undecodable.
Example C64_case :
  let t := lit "a
b" in
  lines_of t [lit "a
"; lit "b"] /\ loop diter_next (create_str_reader t) [DComment; DComment] (mkDiter [] t)
  /\ calls diter_next (create_str_reader t) [Some DComment; Some DComment; None; None] (mkDiter [] t)
  /\ calls diter_next (mkDiter [Some (lit "a
"); None] []) [Some DComment] (mkDiter [None] (lit "a
")).
Proof.
  cbv zeta. split; [apply (lines_check [lit "a
"] (lit "b")); reflexivity|]. split; [|split].
  - econstructor; [reflexivity|]. econstructor; [reflexivity|]. constructor. reflexivity.
  - repeat (econstructor; [reflexivity|]). constructor.
  - econstructor; [reflexivity|]. constructor.
Qed.

(** ** C65: the reader's buffer holds the line just read *)
Theorem C65_buffer_refuted :
  ~ (forall lines it, calls diter_next (diter_new (map Some lines)) (map (fun _ => Some DComment) lines) it -> lines <> [] -> di_buffer it = last lines []).
Proof. exact buffer_refuted. Qed.
Print Assumptions C65_buffer_refuted.
(** It holds all lines read so far.  Missing from the full statement: lines after the first. *)
Theorem C65_buffer_partial :
  forall lines rest n it, calls diter_next (diter_new (map Some lines ++ rest)) n it -> length n = length lines -> di_buffer it = concat lines.
Proof. exact buffer_all. Qed.
Print Assumptions C65_buffer_partial.
Example C65_case :
  calls diter_next (diter_new (map Some [lit "a
"; lit "b
"] ++ [Some (lit "c")])) [Some DComment; Some DComment] (mkDiter [Some (lit "c")] (lit "a
b
")).
Proof. repeat (econstructor; [reflexivity|]). constructor. Qed.

(** ** C66: the counting iterator ends after 100 items and stays ended *)
Theorem C66_items :
  forall checks items s, loop (siter_next checks) siter_new items s <-> items = repeat (DXact xact_default) 100 /\ s = 101%N.
Proof. exact simple_items. Qed.
Print Assumptions C66_items.
(** Without overflow checks it starts again with the 256th call. *)
Theorem C66_fused_refuted : ~ fused (siter_next false) siter_new.
Proof. exact simple_not_fused. Qed.
Print Assumptions C66_fused_refuted.
(** With them this call panics. *)
Theorem C66_overflow_refuted : exists l s, length l = 255 /\ calls (siter_next true) siter_new l s /\ fails (siter_next true s).
Proof. exact simple_overflow. Qed.
Print Assumptions C66_overflow_refuted.
(** Missing from the full statement: calls from the 256th on. *)
Theorem C66_calls_partial :
  forall checks l s, calls (siter_next checks) siter_new l s -> length l <= 255 ->
  l = repeat (Some (DXact xact_default)) (min 100 (length l)) ++ repeat None (length l - 100).
Proof. exact simple_while. Qed.
Print Assumptions C66_calls_partial.
Example C66_case :
  loop (siter_next true) siter_new (repeat (DXact xact_default) 100) 101%N
  /\ calls (siter_next true) siter_new (repeat (Some (DXact xact_default)) 100 ++ repeat None 155) 255%N.
Proof. split; [apply simple_items; auto|apply calls_255]. Qed.

(** ** C67: the unfinished functions never return *)
Theorem C67_lookups :
  (forall c, fails (find_option c)) /\ (forall k c, fails (lookup_option_global k c)) /\ (forall k n, fails (session_lookup k n))
  /\ (forall c, fails (session_lookup_option c)) /\ (forall k n, fails (lookup_report k n)) /\ (forall c, fails (lookup_option_report c)).
Proof. exact lookups_fail. Qed.
Print Assumptions C67_lookups.
Theorem C67_exchange_commodities : forall cs p, fails (exchange_commodities cs p).
Proof. exact exchange_commodities_fails. Qed.
Print Assumptions C67_exchange_commodities.
(** How they fail: a [todo!] is reached unless the name is empty.  [process_option] is the one that returns. *)
Theorem C67_how :
  (forall c, find_option c = Panic PTodo) /\ (forall k c, lookup_option_global k c = Panic PTodo) /\ (forall c, lookup_option_report c = Panic PTodo)
  /\ (forall k n, (n = [] -> session_lookup k n = Panic PUnwrap /\ lookup_report k n = Panic PUnwrap)
                /\ (n <> [] -> session_lookup k n = Panic PTodo /\ lookup_report k n = Panic PTodo))
  /\ (forall w v, process_option w v = Ok tt).
Proof.
  split; [reflexivity|]. split; [intros [] c; reflexivity|]. split; [reflexivity|]. split; [|reflexivity].
  intros k n. split; intros H.
  - subst n. split; reflexivity.
  - destruct n as [|c n]; [contradiction|]. split; [destruct k; reflexivity|].
    unfold lookup_report, unwrap, hd_error, bind.
    destruct k; try reflexivity. destruct (c =? 97)%N; [destruct (str_eqb (c :: n) (lit "accounts")); reflexivity|].
    destruct (c =? 98)%N; [reflexivity|]. destruct (c =? 112)%N; reflexivity.
Qed.
Print Assumptions C67_how.
Example C67_case :
  find_option 102 = Panic PTodo /\ lookup_report COMMAND (lit "prices") = Panic PTodo /\ session_lookup OPTION [] = Panic PUnwrap
  /\ exchange_commodities (lit "EUR,USD") pool_new = Panic PTodo.
Proof. repeat split. Qed.

(** ** C68: elements end at the first separator *)
Theorem C68_next_element :
  forall s e, next_element s = Some e <-> exists c r, s = e ++ c :: r /\ Forall (fun c => ~ separator c) e /\ separator c.
Proof. exact next_element_spec. Qed.
Print Assumptions C68_next_element.
Theorem C68_price_element :
  forall s e r, scan_price_element s = (e, r) <->
  s = e ++ r /\ Forall (fun c => ~ separator c) e /\ (r = [] \/ exists c r', r = c :: r' /\ separator c).
Proof. exact price_element_spec. Qed.
Print Assumptions C68_price_element.
Example C68_case :
  next_element (lit "EUR 20 x") = Some (lit "EUR") /\ next_element (lit "EUR") = None
  /\ scan_price_element (lit "EUR 20") = (lit "EUR", lit " 20") /\ scan_price_element (lit "20") = (lit "20", []).
Proof. repeat split. Qed.

(** ** C69: quantities and integers *)
Theorem C69_from :
  forall z, units (quantity_from_i32 z) = (z * 10 ^ 28)%Z /\ aunits (amount_from_i32 z) = (z * 10 ^ 28)%Z /\ a_c (amount_from_i32 z) = None.
Proof. intros z. split; [exact (from_i32_value z)|]. split; [exact (from_i32_value z)|reflexivity]. Qed.
Print Assumptions C69_from.
Theorem C69_into :
  forall d z, wf_dec d -> (quantity_into_i32 d = Ok z <-> truncation (units d) z /\ (- 2 ^ 31 <= z < 2 ^ 31)%Z).
Proof. exact into_i32_spec. Qed.
Print Assumptions C69_into.
Theorem C69_out_of_range :
  forall d, wf_dec d -> (fails (quantity_into_i32 d) <-> (units d <= (- 2 ^ 31 - 1) * 10 ^ 28 \/ 2 ^ 31 * 10 ^ 28 <= units d)%Z).
Proof. exact into_i32_fails. Qed.
Print Assumptions C69_out_of_range.
Theorem C69_round_trip : forall z, (- 2 ^ 31 <= z < 2 ^ 31)%Z -> quantity_into_i32 (quantity_from_i32 z) = Ok z.
Proof. exact i32_round_trip. Qed.
Print Assumptions C69_round_trip.
Example C69_case :
  wf_dec (mkDec true 29 1) /\ quantity_into_i32 (mkDec true 29 1) = Ok (-2)%Z
  /\ quantity_into_i32 (mkDec true (2 ^ 31 * 10 + 9) 1) = Ok (- 2 ^ 31)%Z /\ quantity_into_i32 (mkDec false (2 ^ 31) 0) = Panic PUnwrap /\ quantity_into_i32 (mkDec true (2 ^ 31) 0) = Ok (- 2 ^ 31)%Z.
Proof. split; [split; cbn; lia|]. repeat split. Qed.
