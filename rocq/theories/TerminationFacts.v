(** Nothing but a cycle of include lines runs out of fuel. *)
From Coq Require Import String List NArith ZArith Bool Lia Relations Permutation ZifyBool ZifyNat ZifyN.
From Verif Require Import Base BaseFacts Decimal Dates Amount Balance Scanner History Pool Account Journal Xact Parser Report Options Lib.
From Verif Require Import SpecText SpecReading ReadingFacts.
Import ListNotations.
Open Scope nat_scope.

Definition nd {A} (o : outcome A) : Prop := o <> Diverge.
Lemma nd_ok {A} (a : A) : nd (Ok a).
Proof. discriminate. Qed.
Lemma nd_panic {A} p : nd (@Panic A p).
Proof. discriminate. Qed.
Lemma nd_bind {A B} (m : outcome A) (k : A -> outcome B) : nd m -> (forall a, m = Ok a -> nd (k a)) -> nd (bind m k).
Proof. intros H K. destruct m; cbn; [apply K; reflexivity|discriminate|congruence]. Qed.
Lemma nd_unwrap {A} (o : option A) : nd (unwrap o).
Proof. destruct o; discriminate. Qed.
Lemma nd_fold {A S} (f : S -> A -> outcome S) l : (forall s a, In a l -> nd (f s a)) -> forall s, nd (fold_outcome f l s).
Proof.
  induction l as [|a l IH]; intros H s; cbn; [apply nd_ok|]. apply nd_bind; [apply H; left; reflexivity|].
  intros s' _. apply IH. intros. apply H. right. assumption.
Qed.
Create HintDb nd.
Global Hint Resolve nd_ok nd_panic nd_unwrap : nd.
Ltac nds := repeat (match goal with
  | |- nd (bind _ _) => apply nd_bind; [|intros ? _]
  | |- nd (match ?x with _ => _ end) => destruct x
  end; auto with nd); auto with nd.

Lemma nd_reduced z s : nd (d_reduced z s).
Proof. unfold d_reduced. nds. Qed.
Global Hint Resolve nd_reduced : nd.
Lemma nd_d_add a b : nd (d_add a b).
Proof. unfold d_add. nds. Qed.
Lemma nd_d_sub a b : nd (d_sub a b).
Proof. unfold d_sub. nds. Qed.
Lemma nd_d_mul a b : nd (d_mul a b).
Proof. unfold d_mul. nds. Qed.
Lemma nd_d_div a b : nd (d_div a b).
Proof. unfold d_div. nds. Qed.
Global Hint Resolve nd_d_add nd_d_sub nd_d_mul nd_d_div : nd.
Lemma nd_amt_add a b : nd (amt_add a b).
Proof. unfold amt_add. nds. Qed.
Lemma nd_amt_plus a b : nd (amt_plus a b).
Proof. unfold amt_plus. nds. Qed.
Lemma nd_amt_minus a b : nd (amt_minus a b).
Proof. unfold amt_minus. nds. Qed.
Lemma nd_amt_div a b : nd (amt_div a b).
Proof. unfold amt_div. nds. Qed.
Lemma nd_amt_mul a b : nd (amt_mul a b).
Proof. unfold amt_mul. nds. Qed.
Global Hint Resolve nd_amt_add nd_amt_plus nd_amt_minus nd_amt_div nd_amt_mul : nd.
Lemma nd_bal_add b a : nd (bal_add b a).
Proof. induction b as [|x b IH]; cbn [bal_add]; nds. Qed.
Lemma nd_bal_sub b a : nd (bal_sub b a).
Proof. induction b as [|x b IH]; cbn [bal_sub]; nds. Qed.
Global Hint Resolve nd_bal_add nd_bal_sub : nd.
Lemma nd_bal_add_bal b a : nd (bal_add_bal b a).
Proof. apply nd_fold. intros. apply nd_bal_add. Qed.
Global Hint Resolve nd_bal_add_bal : nd.

(** *** Scanning *)
Lemma nd_drop_bytes n s : nd (drop_bytes n s).
Proof. revert n; induction s as [|c s IH]; intros [|n]; cbn [drop_bytes]; nds. Qed.
Global Hint Resolve nd_drop_bytes : nd.
Lemma nd_header s : nd (tokenize_xact_header s).
Proof. unfold tokenize_xact_header, tokenize_note. nds. Qed.
Lemma nd_scan_amount s : nd (scan_amount s).
Proof. unfold scan_amount. nds. Qed.
Lemma nd_scan_until s c : nd (scan_until s c).
Proof. unfold scan_until. nds. Qed.
Global Hint Resolve nd_header nd_scan_amount nd_scan_until : nd.
Lemma drop_while_length p s : length (drop_while p s) <= length s.
Proof. induction s as [|c s IH]; cbn; [lia|]. destruct (p c); cbn; lia. Qed.
Lemma scan_until_length s c a r : scan_until s c = Ok (a, r) -> length r <= length s.
Proof. unfold scan_until. destruct (find_char _ s); [|discriminate]. intros [= <- <-]. rewrite skipn_length. lia. Qed.
Lemma nd_annotation_loop s : forall fuel q t d, length s <= fuel -> nd (annotation_loop fuel q t d s).
Proof.
  induction s as [s IH] using (Wf_nat.induction_ltof1 _ (@length N)). unfold Wf_nat.ltof in IH. intros fuel q t d L.
  destruct s as [|c tail]; [destruct fuel; apply nd_ok|]. cbn [length] in *.
  assert (T : forall r a k, scan_until tail k = Ok (a, r) -> forall f, fuel = S f -> forall q t d, nd (annotation_loop f q t d (trim_start (skipn 1 r)))).
  { intros r a k E f -> q' t' d'. apply scan_until_length in E.
    pose proof (drop_while_length is_ws (skipn 1 r)) as L1. unfold trim_start. rewrite skipn_length in L1. apply IH; lia. }
  destruct fuel as [|f]; [lia|]. cbn [annotation_loop].
  destruct (c =? 123)%N; [destruct (negb _); [apply nd_panic|]|destruct (c =? 91)%N; [destruct (negb _); [apply nd_panic|]|nds]].
  - apply nd_bind; [apply nd_scan_until|]. intros [a r] E. apply nd_bind; [apply nd_scan_amount|]. intros [[q' s'] u] _. eapply T; eauto.
  - apply nd_bind; [apply nd_scan_until|]. intros [a r] E. destruct (scan_date a). eapply T; eauto.
Qed.
Lemma nd_scan_annotations s : nd (scan_annotations s).
Proof. apply nd_annotation_loop. lia. Qed.
Lemma nd_scan_cost s : nd (scan_cost s).
Proof. unfold scan_cost. nds. Qed.
Global Hint Resolve nd_scan_annotations nd_scan_cost : nd.
Lemma nd_scan_post s : nd (scan_post s).
Proof. unfold scan_post. nds. Qed.
Lemma nd_scan_price s : nd (scan_price_directive s).
Proof. unfold scan_price_directive. nds. Qed.
Global Hint Resolve nd_scan_post nd_scan_price : nd.

(** *** Accounts *)
Lemma split_first_length name : name <> [] -> length (snd (split_first name)) < length name.
Proof.
  intros N. unfold split_first. destruct (find_char _ name) eqn:E; cbn [snd length]; [|destruct name; [congruence|cbn; lia]].
  rewrite skipn_length. destruct name; [congruence|]. cbn [length]. lia.
Qed.
Lemma nd_find_or_create auto name : forall fuel self, length name < fuel -> nd (find_or_create fuel self name auto).
Proof.
  induction name as [name IH] using (Wf_nat.induction_ltof1 _ (@length N)). unfold Wf_nat.ltof in IH. intros fuel [n cs ps] L.
  destruct fuel as [|f]; [lia|]. cbn [find_or_create]. destruct (find_child name cs); [apply nd_ok|].
  destruct (split_first name) as [first rest] eqn:E. pose proof (split_first_length name) as Ls. rewrite E in Ls. cbn [snd] in Ls.
  assert (T : rest <> [] -> forall c, nd (find_or_create f c rest auto)).
  { intros Nr c. destruct name as [|ch name]; [cbn in E; injection E as <- <-; congruence|]. apply IH; [apply Ls; discriminate|].
    specialize (Ls ltac:(discriminate)). lia. }
  destruct (find_child first cs); [|destruct auto; [|apply nd_ok]]; destruct rest; try apply nd_ok; (apply nd_bind; [apply T; discriminate|]; intros; nds).
Qed.
Lemma nd_register m name : nd (register_account m name).
Proof. unfold register_account. destruct name; [apply nd_panic|]. apply nd_bind; [apply nd_find_or_create; lia|]. intros; nds. Qed.
Lemma nd_push_post p r : forall a, nd (push_post a p r).
Proof. induction p as [|k p IH]; intros [n cs ps]; cbn [push_post]; nds. Qed.
Global Hint Resolve nd_register nd_push_post : nd.

(** *** Pool, postings, transactions *)
Lemma nd_deref p c : nd (deref p c).
Proof. unfold deref. nds. Qed.
Global Hint Resolve nd_deref : nd.
Lemma nd_add_price p s w a : nd (pool_add_price p s w a).
Proof. unfold pool_add_price. nds. Qed.
Lemma nd_get_by_index p i : nd (pool_get_by_index p i).
Proof. unfold pool_get_by_index, get_commodity. nds. Qed.
Global Hint Resolve nd_add_price nd_get_by_index : nd.
Lemma nd_exchange p a c u m : nd (exchange p a c u m).
Proof. unfold exchange. nds. Qed.
Lemma nd_price_directive p l : nd (parse_price_directive p l).
Proof. unfold parse_price_directive. nds. Qed.
Lemma nd_annotation_parse p d q s : nd (annotation_parse p d q s).
Proof. unfold annotation_parse. nds. Qed.
Lemma nd_parse_cost p t a : nd (parse_cost p t a).
Proof. unfold parse_cost. nds. Qed.
Global Hint Resolve nd_exchange nd_price_directive nd_annotation_parse nd_parse_cost : nd.
Lemma nd_parse_post j xi s : nd (parse_post j xi s).
Proof. unfold parse_post. nds. Qed.
Lemma nd_note j xi s : nd (parse_trailing_note j xi s).
Proof. unfold parse_trailing_note. nds. Qed.
Lemma nd_create_xact j s : nd (create_xact j s).
Proof. unfold create_xact, xact_create, parse_date. nds. Qed.
Lemma nd_sum_posts ps : forall i b n, nd (sum_posts ps i b n).
Proof. induction ps as [|p ps IH]; intros; cbn [sum_posts]; nds. Qed.
Lemma nd_cost_loop c u ps : forall b, nd (cost_loop c u ps b).
Proof. induction ps as [|p ps IH]; intros; cbn [cost_loop]; nds. Qed.
Global Hint Resolve nd_sum_posts nd_cost_loop : nd.
Lemma nd_infer ps b : nd (infer_costs ps b).
Proof. unfold infer_costs. nds. Qed.
Lemma nd_price_loop d ps : forall p, nd (price_loop d p ps).
Proof. induction ps as [|q ps IH]; intros; cbn [price_loop]; unfold pool_add_price_struct; nds. Qed.
Global Hint Resolve nd_infer nd_price_loop : nd.
Lemma nd_finalize j xi : nd (finalize j xi).
Proof. unfold finalize, finalize_posts. nds. Qed.
Global Hint Resolve nd_parse_post nd_note nd_create_xact nd_finalize : nd.

(** *** Lines *)
Lemma take_word_include l a arg :
  fst (take_word l) = lit "include" -> fst (take_word (snd (take_word l))) = a :: arg -> include_line l (a :: arg).
Proof.
  destruct (take_word l) as [w r] eqn:E1. cbn [fst snd]. intros -> H2. destruct (take_word r) as [w2 rest] eqn:E2. cbn [fst] in H2. subst w2.
  destruct (take_word_inv _ _ _ E1) as (ws0 & -> & S0 & _ & Hr). destruct (take_word_inv _ _ _ E2) as (ws1 & -> & S1 & Fw & Hr2).
  exists ws0, ws1, rest. split; [reflexivity|]. split; [exact S0|]. split; [|split; [exact S1|]; split; [split; [discriminate|exact Fw]|exact Hr2]].
  intros ->. cbn [app] in Hr. destruct Hr as [Hr|(c & r' & Hr & Hc)]; [discriminate|]. injection Hr as <- _. cbn in Fw. rewrite Hc in Fw. discriminate.
Qed.
Lemma nd_general inc j l : (forall arg, include_line l arg -> forall j, nd (inc arg j)) -> nd (general_directive inc j l).
Proof.
  intros H. rewrite general_eq. destruct (fst (take_word l)) as [|c d] eqn:E; [apply nd_panic|].
  destruct (c =? 97)%N; [apply nd_panic|]. destruct (c =? 105)%N; [|apply nd_panic].
  destruct (str_eqb (c :: d) (lit "include")) eqn:Ei.
  - apply str_eqb_eq in Ei. rewrite Ei in E. destruct (fst (take_word (snd (take_word l)))) as [|a arg] eqn:E2; [apply nd_panic|].
    apply H, take_word_include; assumption.
  - unfold price_line_on. nds.
Qed.
Lemma nd_step inc m j l : (forall t arg, l = Some t -> include_line t arg -> forall j, nd (inc arg j)) -> nd (step inc m j l).
Proof.
  intros H. destruct m as [|xi], l as [l|]; cbn [step]; [| | |].
  - unfold top_line. destruct (_ || _); [apply nd_ok|]. destruct l as [|c r]; [apply nd_panic|]. destruct (_ || _); [apply nd_ok|].
    destruct (c =? 45)%N; [apply nd_ok|]. destruct (is_digit c); [nds|]. destruct (_ || _); [apply nd_panic|].
    apply nd_bind; [|intros; apply nd_ok]. apply nd_general. intros arg K. eapply H; [reflexivity|exact K].
  - apply nd_ok.
  - destruct l as [|c r]; [apply nd_panic|]. rewrite xact_line_eq. unfold fin. nds.
  - nds.
Qed.
Lemma nd_parse inc src : (forall t arg, In (Some t) src -> include_line t arg -> forall j, nd (inc arg j)) ->
  forall m j, nd (parse_lines inc m j src).
Proof.
  induction src as [|l src IH]; intros H m j; cbn [parse_lines]; [destruct m; nds|].
  apply nd_bind; [apply nd_step; intros t arg -> K; eapply H; [left; reflexivity|exact K]|].
  intros [m' j'|j'] _; [|apply nd_ok]. apply IH. intros t arg I. apply H. right. exact I.
Qed.

(** *** Includes *)
Lemma nd_include cwd fs files : acyclic cwd fs -> only_files fs files -> forall d visited arg,
  NoDup visited -> incl visited files -> (forall v, In v visited -> clos_trans _ (includes cwd fs) v (resolve cwd arg)) ->
  length files < d + length visited -> forall j, nd (include_file d cwd fs arg j).
Proof.
  intros A O. induction d as [|d IH]; intros visited arg Nd Hin Hv L j.
  { pose proof (NoDup_incl_length Nd Hin). lia. }
  cbn [include_file]. pose proof (included_ends cwd fs arg) as Ni. destruct (included cwd fs arg) as [[src|]| |] eqn:Fi; cbn [bind]; [|apply nd_ok|discriminate|congruence].
  apply included_some in Fi as Fs.
  apply nd_parse. intros t arg' It Hl j'.
  assert (Inc : includes cwd fs (resolve cwd arg) (resolve cwd arg')) by (exists src, t, arg'; rewrite names_resolve; auto).
  apply (IH (resolve cwd arg :: visited)).
  - constructor; [|exact Nd]. intros K. exact (A _ (Hv _ K)).
  - intros v [<-|K]; [apply O; congruence|apply Hin, K].
  - intros v [<-|K]; [apply t_step, Inc|]. eapply t_trans; [apply Hv, K|apply t_step, Inc].
  - cbn [length]. lia.
Qed.
Lemma nd_read cwd fs files : acyclic cwd fs -> only_files fs files ->
  forall depth src j, length files < depth -> nd (read_into_journal depth cwd fs src j).
Proof.
  intros A O depth src j L. apply nd_parse. intros t arg _ _ j'. apply (nd_include cwd fs files A O depth []).
  - constructor.
  - intros ? [].
  - intros ? [].
  - cbn. lia.
Qed.

(** *** Reports and the command line *)
Lemma in_sort {A} (l : list (str * A)) x : In x (sort_key l) -> In x l.
Proof. apply Permutation_in. symmetry. apply sort_key_perm. Qed.
Lemma nd_account_amount xs refs : nd (account_amount xs refs).
Proof. apply nd_fold. intros. nds. Qed.
Lemma nd_account_total xs : forall a, nd (account_total xs a).
Proof.
  fix IH 1. intros [n cs ps]. cbn [account_total ac_children ac_posts].
  assert (H : forall s, In s (map (fun c => (ac_name c, account_total xs c)) cs) -> nd (snd s)).
  { induction cs as [|c cs IHc]; cbn [map In]; [intros ? []|]. intros s [<-|K]; [apply IH|apply IHc, K]. }
  apply nd_bind; [|intros; apply nd_bind; [apply nd_account_amount|intros; nds]].
  apply nd_fold. intros t s K. apply nd_bind; [|intros; nds]. apply H, in_sort, K.
Qed.
Lemma nd_children_lines xs : forall a p, nd (children_lines xs p a).
Proof.
  fix IH 1. intros [n cs ps] p. cbn [children_lines ac_children].
  assert (H : forall s, In s (map (fun c => (ac_name c, children_lines xs (p ++ [ac_name c]) c)) cs) -> nd (snd s)).
  { induction cs as [|c cs IHc]; cbn [map In]; [intros ? []|]. intros s [<-|K]; [apply IH|apply IHc, K]. }
  apply nd_bind; [apply nd_account_total|]. intros t _.
  apply nd_fold. intros u s K. apply nd_bind; [|intros; nds]. apply H, in_sort, K.
Qed.
Lemma nd_take_values l : forall args, nd (take_values l args).
Proof. induction l as [|c l IH]; intros; cbn [take_values]; nds. Qed.
Lemma take_values_length l : forall args o r, take_values l args = Ok (o, r) -> length r <= length args.
Proof.
  induction l as [|c l IH]; intros args o r H; cbn [take_values] in H; [injection H as <- <-; lia|].
  destruct args as [|v args]; [discriminate|]. inv_bind H. destruct v0 as [o' r']. injection H as <- <-. apply IH in EQ. cbn. lia.
Qed.
Lemma nd_split_args : forall fuel args, length args <= fuel -> nd (split_args fuel args).
Proof.
  induction fuel as [|f IH]; intros [|arg args] L; cbn [split_args length] in *; try apply nd_ok; [lia|].
  assert (D : nd (let* (cmds, opts) := split_args f args in Ok (arg :: cmds, opts))) by (apply nd_bind; [apply IH; lia|intros; nds]).
  assert (E : forall letters, nd (let* (opts, rest) := take_values letters args in let* (cmds, opts') := split_args f rest in Ok (cmds, opts ++ opts'))).
  { intros letters. apply nd_bind; [apply nd_take_values|]. intros [o r] T. apply take_values_length in T. apply nd_bind; [apply IH; lia|]. intros; nds. }
  repeat (exact D || apply E || apply nd_panic || match goal with |- nd (match ?x with _ => _ end) => destruct x end).
Qed.
Lemma nd_input_options : forall n opts, length opts <= n -> nd (get_input_options opts).
Proof.
  induction n as [|n IH]; intros [|o opts] L; cbn [get_input_options length] in *; try apply nd_ok; [lia|].
  destruct (str_eqb _ _); [|apply nd_panic]. destruct opts as [|f opts]; [apply nd_panic|]. cbn [length] in L. apply nd_bind; [apply IH; lia|intros; nds].
Qed.
Lemma nd_process args : nd (process_arguments args).
Proof.
  apply nd_bind; [apply nd_split_args; lia|]. intros [c o] _. apply nd_bind; [eapply nd_input_options; constructor|intros; nds].
Qed.
Lemma nd_run cwd fs files : acyclic cwd fs -> only_files fs files ->
  forall depth args, length files < depth -> nd (run depth cwd fs args).
Proof.
  intros A O depth args L. apply nd_bind; [apply nd_process|]. intros [cmds inputs] _. unfold execute_command.
  apply nd_bind; [apply nd_unwrap|]. intros verb _. apply nd_bind.
  { apply nd_fold. intros j f _. unfold parse_file. destruct (fs f); [|apply nd_panic]. eapply nd_read; eassumption. }
  intros j _. assert (R : nd (balance_report j)) by apply nd_children_lines.
  repeat (exact R || apply nd_ok || apply nd_panic || match goal with |- nd (match ?x with _ => _ end) => destruct x end).
Qed.
