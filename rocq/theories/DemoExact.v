(** Journals with many postings, for every way in which containers grow. *)
From Coq Require Import String List NArith ZArith Bool Lia.
From Verif Require Import Base BaseFacts Decimal Dates Amount Balance Scanner History Pool Account Journal Xact Parser Report Options Lib Memory Heap.
From Verif Require Import SpecText SpecWhole SpecCommand SpecMemory SpecHeap SpecExact LinesProofs HeapReport HeapExactProofs DemoHeap.
Import ListNotations.
Open Scope list_scope.
Open Scope nat_scope.

Definition many_header : str := lit "2023-04-05 Shop" ++ nl.
Definition many_line : str := lit "    A  0" ++ nl.
Definition many_lines (n : nat) : list str := many_header :: repeat many_line n.
Definition many_text (n : nat) : str := concat (many_lines n).
Lemma many_lines_of n : lines_of (many_text n) (many_lines n).
Proof.
  split; [reflexivity|]. left. constructor; [exists (lit "2023-04-05 Shop"); split; [reflexivity|]|].
  - vm_compute. intros H. repeat (destruct H as [H|H]; [discriminate H|]). exact H.
  - apply Forall_forall. intros l L. apply repeat_spec in L. subst l. exists (lit "    A  0"). split; [reflexivity|]. vm_compute. intros H. repeat (destruct H as [H|H]; [discriminate H|]). exact H.
Qed.
Definition zero : amount := mkAmt d_zero None.
Definition many_post : post := mkPost [lit "A"] (Some zero) None None.
Definition many_xact (n : nat) : xact := mkXact (Some (mkDate 2023 4 5)) None (lit "Shop") None (repeat many_post n).
Definition many_j (n : nat) : journal := mkJournal (Acct [] [Acct (lit "A") [] (map (fun k => (0, k)) (seq 0 n))] []) pool_new [many_xact n].
Lemma many_step inc refs d aux payee note posts :
  step inc (InXact 0) (mkJournal (Acct [] [Acct (lit "A") [] refs] []) pool_new [mkXact d aux payee note posts]) (Some many_line)
  = Ok (Continue (InXact 0) (mkJournal (Acct [] [Acct (lit "A") [] (refs ++ [(0, length posts)])] []) pool_new [mkXact d aux payee note (posts ++ [many_post])])).
Proof. vm_compute. reflexivity. Qed.

Lemma many_first inc : parse_lines inc Top journal_new [Some many_header; Some many_line] = parse_lines inc (InXact 0) (many_j 1) [].
Proof. vm_compute. reflexivity. Qed.
Lemma many_start inc ls : parse_lines inc Top journal_new (Some many_header :: Some many_line :: ls) = parse_lines inc (InXact 0) (many_j 1) ls.
Proof.
  cbn [parse_lines]. assert (E : step inc Top journal_new (Some many_header) = Ok (Continue (InXact 0) (mkJournal (Acct [] [] []) pool_new [mkXact (Some (mkDate 2023 4 5)) None (lit "Shop") None []]))) by (vm_compute; reflexivity).
  rewrite E. cbn [bind parse_lines].
  assert (E2 : step inc (InXact 0) (mkJournal (Acct [] [] []) pool_new [mkXact (Some (mkDate 2023 4 5)) None (lit "Shop") None []]) (Some many_line) = Ok (Continue (InXact 0) (many_j 1))) by (vm_compute; reflexivity).
  rewrite E2. reflexivity.
Qed.
Lemma repeat_snoc {A} (a : A) n : repeat a n ++ [a] = repeat a (S n).
Proof. induction n as [|n IH]; cbn; [reflexivity|]. rewrite IH. reflexivity. Qed.
Lemma many_on inc n : forall k, parse_lines inc (InXact 0) (many_j k) (map Some (repeat many_line n)) = parse_lines inc (InXact 0) (many_j (n + k)) [].
Proof.
  induction n as [|n IH]; intros k; [reflexivity|]. cbn [repeat map]. unfold many_j at 1, many_xact at 1.
  change (parse_lines inc (InXact 0) ?j (Some many_line :: ?ls)) with (let* n := step inc (InXact 0) j (Some many_line) in match n with Continue m' j' => parse_lines inc m' j' ls | Stop j' => Ok j' end).
  rewrite many_step. cbn [bind]. replace (S n + k) with (n + S k) by lia. rewrite <- IH. f_equal. unfold many_j, many_xact. rewrite repeat_snoc, repeat_length, seq_S, map_app. reflexivity.
Qed.
Lemma many_sum n : forall i, sum_posts (repeat many_post n) i [zero] None = Ok ([zero], None).
Proof.
  induction n as [|n IH]; intros i; [reflexivity|]. cbn [repeat sum_posts]. assert (E : (match post_value many_post with Some a => bal_add [zero] a | None => Ok [] end) = Ok [zero]) by (vm_compute; reflexivity).
  cbn [post_value many_post po_cost po_amount] in *. rewrite E. cbn [bind]. apply IH.
Qed.
Lemma many_price d pool n : price_loop d pool (repeat many_post n) = Ok (pool, repeat many_post n).
Proof. induction n as [|n IH]; [reflexivity|]. cbn [repeat price_loop many_post po_cost bind]. rewrite IH. reflexivity. Qed.
Lemma many_done inc n : 2 <= n -> parse_lines inc (InXact 0) (many_j n) [] = Ok (many_j n).
Proof.
  intros L. cbn [parse_lines]. unfold finalize. cbn [many_j j_xacts nth_error many_xact x_date x_posts j_pool j_master]. unfold finalize_posts.
  assert (S0 : sum_posts (repeat many_post n) 0 bal_new None = Ok ([zero], None)).
  { destruct n as [|n]; [lia|]. cbn [repeat sum_posts]. assert (E : (match post_value many_post with Some a => bal_add bal_new a | None => Ok [] end) = Ok [zero]) by (vm_compute; reflexivity).
    cbn [post_value many_post po_cost po_amount] in *. rewrite E. cbn [bind]. apply many_sum. }
  rewrite S0. cbn [bind]. rewrite repeat_length. destruct (Nat.eqb_spec n 1); [lia|]. cbn [infer_costs bind]. rewrite many_price. cbn [bind]. reflexivity.
Qed.
Lemma many_read n : 2 <= n -> read_journal_files 0 [] (heap_fs (many_text n)) [heap_file] = Ok (many_j n).
Proof.
  intros L. unfold read_journal_files. cbn [fold_outcome]. unfold parse_file, heap_fs. assert (str_eqb heap_file heap_file = true) as -> by (apply str_eqb_eq; reflexivity).
  rewrite (proj2 (text_lines_iff _ _) (many_lines_of n)). unfold many_lines. destruct n as [|n]; [lia|]. cbn [repeat map]. unfold read_into_journal. rewrite many_start, many_on, many_done by lia.
  cbn [bind]. do 2 f_equal. lia.
Qed.
Lemma many_total n : account_amount [many_xact n] (map (fun k => (0, k)) (seq 0 n)) = Ok (match n with O => [] | _ => [zero] end).
Proof.
  unfold account_amount. assert (H : forall l b, (forall k, In k l -> k < n) -> b = [zero] \/ l <> [] /\ b = [] ->
     fold_outcome (fun bal r => match get_post [many_xact n] r with
            | None => Panic PNull
            | Some p => match po_amount p with Some a => bal_add bal a | None => Ok bal end end) (map (fun k => (0, k)) l) b = Ok [zero]).
  { induction l as [|k l IH]; intros b F B; [destruct B as [->|[X _]]; [reflexivity|congruence]|]. cbn [map fold_outcome]. unfold get_post at 1. cbn [fst snd nth_error many_xact x_posts].
    rewrite (nth_error_repeat many_post) by (apply F; left; reflexivity). cbn [many_post po_amount].
    assert (E : bal_add b zero = Ok [zero]) by (destruct B as [->|[_ ->]]; vm_compute; reflexivity). rewrite E. cbn [bind]. apply IH; [|auto]. intros i I0. apply F. right. exact I0. }
  destruct n as [|n]; [reflexivity|]. apply H; [intros k X; apply in_seq in X; lia|]. right. split; [discriminate|reflexivity].
Qed.
Lemma many_report n : 2 <= n -> balance_report (many_j n) = Ok [lit "Account  has balance 0"; lit "Account A has balance 0"].
Proof.
  intros L. unfold balance_report, many_j. cbn [j_master j_xacts]. pose proof (many_total n) as T. destruct n as [|n]; [lia|].
  remember (map (fun k => (0, k)) (seq 0 (S n))) as refs eqn:E. clear E. remember [many_xact (S n)] as xs eqn:E. clear E L.
  assert (A : account_total xs (Acct (lit "A") [] refs) = Ok [zero]) by (cbn [account_total ac_children ac_posts map sort_key fold_outcome bind]; rewrite T; vm_compute; reflexivity).
  assert (B : account_total xs (Acct [] [Acct (lit "A") [] refs] []) = Ok [zero]).
  { change (account_total xs (Acct [] [Acct (lit "A") [] refs] [])) with (let* t := fold_outcome (fun t (s : str * outcome balance) => let* b := snd s in bal_add_bal t b) [(lit "A", account_total xs (Acct (lit "A") [] refs))] [] in let* own := account_amount xs [] in bal_add_bal t own).
    rewrite A. vm_compute. reflexivity. }
  cbn [children_lines]. rewrite B. cbn [ac_children map ac_name sort_key insert_key children_lines]. rewrite A. vm_compute. reflexivity.
Qed.
Lemma many_run n : 2 <= n -> run 0 [] (heap_fs (many_text n)) (heap_args (lit "bal")) = Ok [lit "Account  has balance 0"; lit "Account A has balance 0"].
Proof.
  intros L. unfold run. assert (process_arguments (heap_args (lit "bal")) = Ok ([lit "bal"], [heap_file])) as -> by (vm_compute; reflexivity). cbn [bind].
  unfold execute_command. cbn [nth_error unwrap bind]. rewrite many_read by exact L. cbn [bind]. rewrite <- (many_report n L). reflexivity.
Qed.
Lemma many_undefined pol : grows pol -> undefined (h_run pol false 0 [] (heap_fs (many_text (S (S (vec_next pol 0))))) (heap_args (lit "bal"))).
Proof.
  intros G. set (n := S (S (vec_next pol 0))). assert (L : 2 <= n) by (unfold n; lia).
  destruct (agree_or _ _ (run_agree pol false 0 [] (heap_fs (many_text n)) (heap_args (lit "bal")))) as [E|E]; [exact E|exfalso].
  rewrite (many_run n L) in E.
  destruct (report_exact pol G false 0 [] (heap_fs (many_text n)) (heap_args (lit "bal")) (lit "bal") [] [heap_file] (many_j n) [lit "Account  has balance 0"; lit "Account A has balance 0"] (eq_refl _) (or_intror (or_introl eq_refl)) (many_read n L)) as [H _].
  - unfold few_commodities. cbn. lia.
  - discriminate.
  - exact (many_run n L).
  - destruct (H E) as [F _]. specialize (F (many_xact n) (or_introl eq_refl)). cbn [many_xact x_posts] in F. rewrite repeat_length in F. unfold n in F. lia.
Qed.
(** Four accounts beside each other; the account below one of them comes after they have been moved for the last time. *)
Definition children_late : str := lit "2023-04-05 Shop
    Assets  -1 EUR
    Expenses  1 EUR

2023-04-06 Bank
    Income  1 EUR
    Liabilities  -1 EUR

2023-04-07 Bank
    Assets:Cash  1 EUR
    Assets:Cash  -1 EUR
".
Lemma late_read : read_journal_files 0 [] (heap_fs children_late) [heap_file] = Ok (heap_j children_late)
  /\ few_commodities std_policy (heap_j children_late) /\ all_priced (heap_j children_late).
Proof. split; [vm_compute; reflexivity|]. split; [apply comms_ok; vm_compute; reflexivity|apply priced_ok; vm_compute; reflexivity]. Qed.
