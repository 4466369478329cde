(** The command on files with numbers of moderate size. *)
From Coq Require Import String List NArith ZArith Bool Lia.
From Verif Require Import Base Decimal Dates Amount Balance Scanner History Pool Account Journal Xact Parser Report Options Lib.
From Verif Require Import SpecText SpecDecimal SpecAmount SpecReading SpecReport SpecJournal SpecPool SpecDates SpecModerate.
From Verif Require Import BaseFacts ReportProofs PoolFacts PriceProofs ModerateFacts ModerateProofs ModerateReading.
Import ListNotations.
Local Open Scope Z_scope.

Section Run.
  Variables (B : Z) (k N : nat).
  Hypothesis Bounds : moderate_bounds B k N.
  Variables (depth : nat) (cwd : str) (fs : filesystem).
  Hypothesis Files : forall p f, fs p = Some f -> moderate_source B k N f.
  Lemma files_moderate files : forall j, reachable_journal j -> moderate_journal B k N j ->
    calm (fold_outcome (fun j f => parse_file depth cwd fs f j) files j)
    /\ forall j', fold_outcome (fun j f => parse_file depth cwd fs f j) files j = Ok j' -> reachable_journal j' /\ moderate_journal B k N j'.
  Proof.
    induction files as [|f files IH]; intros j R M; cbn [fold_outcome]; [split; [discriminate|intros ? [= <-]; auto]|].
    unfold parse_file at 1 3. destruct (fs f) as [src|] eqn:E; cbn [bind]; [|split; discriminate].
    destruct (moderate_reading B k N Bounds depth cwd fs src j (Files _ _ E) Files M) as [C1 C2].
    destruct (read_into_journal depth cwd fs src j) as [j1|q|] eqn:Er; cbn [bind]; [|split; [intros [= ->]; apply C1; reflexivity|discriminate]|split; discriminate].
    apply IH; [exact (rj_read _ _ _ _ _ _ R Er)|apply C2; reflexivity].
  Qed.
  Lemma calm_values letters : forall args, calm (take_values letters args).
  Proof. induction letters as [|c letters IH]; intros args; cbn [take_values]; calms. Qed.
  Lemma calm_split fuel : forall args, calm (split_args fuel args).
  Proof. induction fuel as [|fuel IH]; intros [|a args]; cbn [split_args]; pose proof calm_values; calms. Qed.
  Lemma calm_inputs opts : calm (get_input_options opts).
  Proof.
    enough (H : forall n opts, (length opts <= n)%nat -> calm (get_input_options opts)) by exact (H _ opts (le_n _)). clear. induction n as [|n IH]; intros [|o opts] L; cbn [get_input_options length] in *; try discriminate; [lia|].
    destruct (str_eqb _ _); [|discriminate]. destruct opts as [|f opts]; [discriminate|]. cbn [length] in L. apply calm_bind; [apply IH; lia|intros; calms].
  Qed.
  Theorem moderate_run args : (forall commands files j, process_arguments args = Ok (commands, files) -> read_journal_files depth cwd fs files = Ok j -> Z.of_nat (length (all_posts j)) * (Z.of_nat N * (B * B * 10 ^ Z.of_nat (2 * k))) < 2 ^ 96) ->
    run depth cwd fs args <> Panic PArith.
  Proof.
    intros T. change (calm (run depth cwd fs args)). unfold run. apply calm_bind; [unfold process_arguments; apply calm_bind; [apply calm_split|]; intros [c o] _; apply calm_bind; [apply calm_inputs|]; intros; discriminate|].
    intros [commands files] Ea. unfold execute_command. apply calm_bind; [apply calm_unwrap|]. intros verb _.
    destruct (files_moderate files journal_new rj_new) as [C1 C2]. { split; [intros p a []|]. intros s an pr H. discriminate H. }
    apply calm_bind; [exact C1|]. intros j E. destruct (C2 _ E) as [R M]. assert (T' := T _ _ _ Ea E).
    assert (Br : calm (balance_report j)) by (destruct (report_succeeds j R (moderate_fits B k N j Bounds M T')) as [ls ->]; discriminate). 
    generalize dependent (balance_report j). intros o Co. calms.
  Qed.
End Run.

(** ** Price lookups *)
Lemma products_bounded P vs : 1 <= P -> Forall (bounded P) vs -> forall i r, bounded ((P + 1) ^ Z.of_nat i) r -> (P + 1) ^ Z.of_nat (i + length vs) < 2 ^ 96 -> exists r', fold_outcome d_mul vs r = Ok r'.
Proof.
  intros HP. induction 1 as [|v vs Bv F IH]; intros i r Br L; cbn [fold_outcome]; [eauto|]. cbn [length] in L.
  assert (Pi : 1 <= (P + 1) ^ Z.of_nat i) by (pose proof (Z.pow_pos_nonneg (P + 1) (Z.of_nat i)); lia).
  assert (Sc : (P + 1) ^ Z.of_nat (S i) = (P + 1) ^ Z.of_nat i * (P + 1)) by (rewrite Nat2Z.inj_succ, Z.pow_succ_r by lia; ring).
  assert (Mo : (P + 1) ^ Z.of_nat (S i) <= (P + 1) ^ Z.of_nat (i + S (length vs))) by (apply Z.pow_le_mono_r; lia).
  destruct (mul_bounded ((P + 1) ^ Z.of_nat i) P (mkAmt r None) (mkAmt v None)) as (a & E & W & Ba); try assumption; [|lia|].
  { rewrite Sc in Mo. generalize dependent (2 ^ 96). intros M L. nia. }
  unfold amt_mul in E. cbn [a_q] in E. destruct (d_mul r v) as [x| |] eqn:Ex; [|discriminate|discriminate]. cbn [bind] in *. apply (IH (S i)).
  - injection E as <-. split; [exact W|]. unfold aunits in Ba. cbn [a_q] in Ba. destruct Bv as [_ Bv]. pose proof unit1_pos. rewrite Sc. generalize dependent (2 ^ 96). intros. nia.
  - replace (S i + length vs)%nat with (i + S (length vs))%nat by lia. exact L.
Qed.
Theorem ordinary_lookup astar p s t now moment oldest P path :
  shortest_paths astar -> reachable_pool p -> valid_dt now -> s <> t ->
  (exists c, pool_find p s = Some c) -> (exists c, pool_find p t = Some c) ->
  1 <= P -> (forall a b w v, price_on p a b w v -> Z.abs (units v) <= P * 10 ^ 28) ->
  price_chain p s path t -> (P + 1) ^ Z.of_nat (length path) < 2 ^ 96 ->
  exists x, pool_find_price astar p (Some s) (Some t) now moment oldest = Ok (Some x).
Proof.
  intros A R Vn Hst Fs Ft HP Hb Ch L. apply reachable_wf in R as W.
  destruct (find_price_cases astar p s t now moment oldest A W Hst Vn Fs Ft) as [[E Nn]|(path' & prices & P' & Mn & NA & F & E)]; [exfalso; exact (Nn _ Ch)|]. rewrite E.
  destruct (Nat.eqb_spec (length path') 1) as [L1|L1].
  - destruct path' as [|x [|? ?]]; try discriminate. destruct prices as [|[w v] prices]; [contradiction|]. eauto.
  - assert (Bp : Forall (bounded P) (map snd prices) /\ length prices = length path').
    { clear E L1 Mn P'. clear Ch Hst Fs. revert s NA. revert prices F. induction path' as [|x path' IH]; intros [|[w v] prices] F s; cbn [newest_along]; intros NA; try contradiction; [split; [constructor|reflexivity]|].
      destruct NA as [[Np _] NA]. inversion F as [|? ? [_ Wv] F']; subst. destruct (IH prices F' x NA) as [I1 I2]. split; [|cbn [length]; congruence]. constructor; [|exact I1]. split; [exact Wv|]. exact (Hb _ _ _ _ Np). }
    destruct Bp as [Bp Lp]. destruct (products_bounded P (map snd prices) HP Bp 0 d_one) as [r ->]; [split; [split; vm_compute; [split; congruence|lia]|vm_compute; congruence]| |cbn [bind]; eauto].
    rewrite map_length, Lp. cbn [Nat.add]. eapply Z.le_lt_trans; [|exact L]. apply Z.pow_le_mono_r; [lia|]. specialize (Mn _ Ch). lia.
Qed.
