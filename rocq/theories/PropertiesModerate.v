(** Files with numbers of ordinary size. *)
From Coq Require Import String List NArith ZArith Bool Lia Relations.
From Verif Require Import Base Decimal Dates Amount Balance Scanner History Pool Account Journal Xact Parser Report Options Lib.
From Verif Require Import SpecText SpecDecimal SpecAmount SpecReading SpecReport SpecJournal SpecPool SpecDates SpecLine SpecValue SpecContent SpecRefused SpecModerate.
From Verif Require Import BaseFacts ReadingProofs LineReadProofs LiteralProofs RefusedProofs ReportProofs ModerateReading ModerateRun DemoReading DemoScan DemoPrices.
Import ListNotations.
Open Scope nat_scope.

(** * C86: files with numbers of ordinary size do not overflow. *)
(** No calculation leaves the range of the decimals: not the sums, the inferred costs, the unit costs, the lot gains, in
    any accepted or refused file; and the journal that results is again one of ordinary numbers. *)
Theorem C86_reading :
  forall B k n depth cwd fs src j, moderate_bounds B k n ->
  moderate_source B k n src -> (forall p f, fs p = Some f -> moderate_source B k n f) -> moderate_journal B k n j ->
  read_into_journal depth cwd fs src j <> Panic PArith
  /\ forall j', read_into_journal depth cwd fs src j = Ok j' -> moderate_journal B k n j'.
Proof. intros B k n depth cwd fs src j H. exact (moderate_reading B k n H depth cwd fs src j). Qed.
Print Assumptions C86_reading.
(** The balance report of such a journal is made, unless there are extremely many postings. *)
Theorem C86_report :
  forall B k n j, moderate_bounds B k n -> reachable_journal j -> moderate_journal B k n j ->
  (Z.of_nat (length (all_posts j)) * (Z.of_nat n * (B * B * 10 ^ Z.of_nat (2 * k))) < 2 ^ 96)%Z ->
  exists lines, balance_report j = Ok lines.
Proof. intros B k n j Bd R Mj T. apply report_succeeds; [exact R|]. exact (moderate_fits B k n j Bd Mj T). Qed.
Print Assumptions C86_report.
(** So such a file is read exactly if none of its lines is refused. *)
Theorem C86_read_unless_refused :
  forall B k n cwd fs files src j depth, moderate_bounds B k n ->
  moderate_source B k n src -> (forall p f, fs p = Some f -> moderate_source B k n f) -> moderate_journal B k n j ->
  acyclic cwd fs -> only_files fs files -> (forall q, fs q <> None -> file_path q) -> reachable_journal j -> length files < depth ->
  ((exists j', read_into_journal depth cwd fs src j = Ok j') <-> ~ refused cwd fs None src).
Proof.
  intros B k n cwd fs files src j depth Bd Ms Mf Mj Ac Of Fp R Ld. destruct (C86_reading B k n depth cwd fs src j Bd Ms Mf Mj) as [Np _].
  destruct (terminates cwd fs files Ac Of src j) as (o & No & Ho). rewrite (Ho _ Ld) in *. split.
  - intros [j' E] Rf. exact (refused_not_read depth cwd fs src j j' R Rf (eq_trans (Ho _ Ld) E)).
  - intros Nr. destruct o as [j'|p|]; [eauto| |congruence]. exfalso. apply Nr. apply (panics_refused depth cwd fs src j p Fp R (Ho _ Ld)). congruence.
Qed.
Print Assumptions C86_read_unless_refused.

(** No command overflows on such files. *)
Theorem C86_run :
  forall B k n depth cwd fs args, moderate_bounds B k n -> (forall p f, fs p = Some f -> moderate_source B k n f) ->
  (forall commands files j, process_arguments args = Ok (commands, files) -> read_journal_files depth cwd fs files = Ok j ->
     (Z.of_nat (length (all_posts j)) * (Z.of_nat n * (B * B * 10 ^ Z.of_nat (2 * k))) < 2 ^ 96)%Z) ->
  run depth cwd fs args <> Panic PArith.
Proof. intros B k n depth cwd fs args Bd Mf T. exact (moderate_run B k n Bd depth cwd fs Mf args T). Qed.
Print Assumptions C86_run.

(** Numbers up to a million with two decimals, in blocks of up to 900 lines. *)
Example C86_bounds : moderate_bounds 1000000 2 900.
Proof. repeat split; vm_compute; congruence || lia. Qed.
Definition check_number (B : Z) (k : nat) (s : str) : bool :=
  match d_from_str s with Some d => (d_s d <=? k) && (d_m d <=? B * 10 ^ Z.of_nat (d_s d))%Z | None => true end.
Lemma check_number_ok B k s : check_number B k s = true -> moderate B k s.
Proof.
  intros H neg whole frac Q. apply quantity_text_value in Q. unfold check_number in H. rewrite Q in H. cbn [d_make d_s d_m] in H. apply andb_prop in H as [H1 H2]. apply Nat.leb_le in H1. apply Z.leb_le in H2. auto.
Qed.
Definition check_line (B : Z) (k : nat) (l : option str) : bool :=
  match l with
  | Some (c :: r) => match scan_post r with Ok t => check_number B k (t_quantity t) && check_number B k (t_price_quantity t) && check_number B k (t_cost_quantity t) | _ => true end
  | _ => true
  end.
Lemma check_source B k n src : forallb (check_line B k) src = true -> length src <= n -> moderate_source B k n src.
Proof.
  intros H L. split.
  - intros l I r tok -> P. rewrite forallb_forall in H. specialize (H _ I). cbn [check_line] in H. apply post_iff in P. rewrite P in H. apply andb_prop in H as [H H3]. apply andb_prop in H as [H1 H2].
    split; [|split]; apply check_number_ok; assumption.
  - intros s1 b s2 E _. rewrite E, !app_length in L. lia.
Qed.
Lemma new_moderate B k n : moderate_journal B k n journal_new.
Proof. split; [intros p a []|]. intros s an pr H. discriminate H. Qed.
(** Purchases at a unit cost and at a total cost, a sale from a lot, an exchange without cost; and an included file. *)
Definition ordinary_text : str := lit "include food.ledger
2023-05-01 Broker
    Assets:Stock  10.5 VTI @ 201.25 EUR
    Assets:Bond  3 BND @@ 250.10 EUR
    Assets:Cash

2023-06-01 Broker
    Assets:Stock  -2.5 VTI {201.25 EUR} @ 210 EUR
    Assets:Cash  500 EUR
    Income:Gain

2023-06-02 Exchange
    Assets:Dollars  110 USD
    Assets:Cash  -100 EUR
".
Lemma demo_moderate : forall p f, demo_fs p = Some f -> moderate_source 1000000 2 900 f.
Proof. intros p f E. apply demo_fs_src in E. subst f. apply check_source; [vm_compute; reflexivity|]. apply Nat.leb_le. vm_compute. reflexivity. Qed.
Definition ordinary_result : outcome journal := read_into_journal 3 (lit "/w") demo_fs (text_source ordinary_text) journal_new.
Definition ordinary_journal : journal := match ordinary_result with Ok j => j | _ => journal_new end.
Lemma ordinary_read : read_into_journal 3 (lit "/w") demo_fs (text_source ordinary_text) journal_new = Ok ordinary_journal.
Proof. change (ordinary_result = Ok ordinary_journal). assert (X : match ordinary_result with Ok _ => True | _ => False end) by (vm_compute; exact I). unfold ordinary_journal. destruct ordinary_result; [reflexivity|destruct X|destruct X]. Qed.
Example C86_case :
  moderate_source 1000000 2 900 (text_source ordinary_text) /\ ~ refused (lit "/w") demo_fs None (text_source ordinary_text)
  /\ moderate_journal 1000000 2 900 ordinary_journal /\ length (all_posts ordinary_journal) = 10
  /\ match balance_report ordinary_journal with Ok lines => length lines = 10 | _ => False end.
Proof.
  assert (Ms : moderate_source 1000000 2 900 (text_source ordinary_text)) by (apply check_source; [vm_compute; reflexivity|apply Nat.leb_le; vm_compute; reflexivity]).
  assert (Fp : forall q, demo_fs q <> None -> file_path q).
  { intros q H. unfold demo_fs in H. destruct (str_eqb q inc_path) eqn:E; [|congruence]. apply str_eqb_eq in E. subst q. exact inc_file_path. }
  split; [exact Ms|]. split; [|split; [|split; vm_compute; reflexivity]].
  - apply (proj1 (C86_read_unless_refused 1000000 2 900 (lit "/w") demo_fs [inc_path] (text_source ordinary_text) journal_new 3 C86_bounds Ms demo_moderate (new_moderate _ _ _) demo_acyclic demo_only Fp rj_new ltac:(cbn; lia))). exists ordinary_journal. exact ordinary_read.
  - exact (proj2 (C86_reading _ _ _ _ _ _ _ _ C86_bounds Ms demo_moderate (new_moderate _ _ _)) _ ordinary_read).
Qed.
(** A file with larger numbers of the same form does overflow. *)
Definition large_text : str := lit "2023-05-01 Broker
    Assets:Stock  1000000000000000 VTI @ 1000000000000000 EUR
    Assets:Cash
".
Example C86_large_case : read_into_journal 1 [] (fun _ => None) (text_source large_text) journal_new = Panic PArith.
Proof. vm_compute. reflexivity. Qed.
Definition balance_args : list str := [lit "b"; lit "-f"; inc_path].
Example C86_run_case :
  (forall commands files j, process_arguments balance_args = Ok (commands, files) -> read_journal_files 3 (lit "/w") demo_fs files = Ok j ->
     (Z.of_nat (length (all_posts j)) * (Z.of_nat 900 * (1000000 * 1000000 * 10 ^ Z.of_nat (2 * 2))) < 2 ^ 96)%Z)
  /\ exists lines, run 3 (lit "/w") demo_fs balance_args = Ok lines.
Proof.
  split; [|eexists; vm_compute; reflexivity]. intros commands files j E. assert (F : files = [inc_path]) by (vm_compute in E; injection E as _ <-; reflexivity). subst files. intros R.
  assert (L : match read_journal_files 3 (lit "/w") demo_fs [inc_path] with Ok j => length (all_posts j) = 2 | _ => False end) by (vm_compute; reflexivity).
  rewrite R in L. rewrite L. vm_compute. reflexivity.
Qed.

(** * C34: a lookup over ordinary prices does not overflow either. *)
Theorem C34_ordinary_prices :
  forall astar p s t now moment oldest P path,
  shortest_paths astar -> reachable_pool p -> valid_dt now -> s <> t ->
  (exists c, pool_find p s = Some c) -> (exists c, pool_find p t = Some c) ->
  (1 <= P)%Z -> (forall a b w v, price_on p a b w v -> (Z.abs (units v) <= P * 10 ^ 28)%Z) ->
  price_chain p s path t -> ((P + 1) ^ Z.of_nat (length path) < 2 ^ 96)%Z ->
  exists x, pool_find_price astar p (Some s) (Some t) now moment oldest = Ok (Some x).
Proof. exact ordinary_lookup. Qed.
Print Assumptions C34_ordinary_prices.

Lemma points_in g a b e : In e (points g a b) -> In e (flat_map snd (g_edges g)).
Proof.
  unfold points. induction (g_edges g) as [|[[x y] m] es IH]; cbn [find_edge flat_map snd]; [intros []|]. destruct (_ && _); intros H; apply in_or_app; auto.
Qed.
Example C34_ordinary_case :
  (forall a b w v, price_on demo_pool a b w v -> (Z.abs (units v) <= 2 * 10 ^ 28)%Z) /\ price_chain demo_pool sEUR [sUSD; sAUD] sAUD
  /\ ((2 + 1) ^ Z.of_nat (length [sUSD; sAUD]) < 2 ^ 96)%Z
  /\ exists x, pool_find_price bfs demo_pool (Some sEUR) (Some sAUD) (day 2024 1 1) (day 2024 1 1) (day 2000 1 1) = Ok (Some x).
Proof.
  split; [|split; [|split]].
  - intros a b w v (x & y & _ & _ & H). apply points_in in H. assert (F : forallb (fun e => Z.abs (units (snd e)) <=? 2 * 10 ^ 28)%Z (flat_map snd (g_edges (p_hist demo_pool))) = true) by (vm_compute; reflexivity).
    rewrite forallb_forall in F. apply Z.leb_le. exact (F _ H).
  - split; [|split; [|reflexivity]].
    + exists (day 2023 3 1), (dq 12 1), 0, 1. repeat split; vm_compute; auto.
    + exists (day 2023 1 1), (dq 15 1), 1, 2. repeat split; vm_compute; auto.
  - vm_compute. reflexivity.
  - eexists. vm_compute. reflexivity.
Qed.
