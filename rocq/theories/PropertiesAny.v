(** C88: what the commands show for any files whatever. *)
From Coq Require Import String List NArith ZArith Bool Lia Permutation Sorting.
From Verif Require Import Base Decimal Dates Amount Balance Scanner History Pool Account Journal Xact Parser Report Options Lib.
From Verif Require Import SpecText SpecDecimal SpecAmount SpecReading SpecReport SpecAccount SpecJournal SpecPool SpecDates SpecLine SpecCommand SpecEnd SpecContent SpecRefused SpecModerate SpecAny.
From Verif Require Import BaseFacts JournalFacts CommandProofs ContentProofs RefusedProofs AnyProofs ModerateReading DemoReading PropertiesModerate.
Import ListNotations.
Open Scope list_scope.
Open Scope nat_scope.

(** ** C88: the reports show what the lines of the files say, whatever the lines are *)
(** If the balance command shows anything, it shows a line for each account that the postings of the files name, with
    the sums of the amounts posted to it and to the accounts below it, unless they leave the range of numbers. *)
Theorem C88_balance :
  forall depth cwd fs args verb cmds files out,
  args_mean args (verb :: cmds) files -> balance_verb verb -> run depth cwd fs args = Ok out ->
  exists its xs ps, files_tell cwd fs files its /\ Forall2 xact_told its xs /\ accounts_named xs ps
    /\ Forall2 (fun p line => exists b, (fits_amts (amounts_below p xs) -> sums_up b (amounts_below p xs))
                  /\ line = lit "Account " ++ shown_name p ++ lit " has balance " ++ shown_amounts b) ps out.
Proof. exact any_balance. Qed.
Print Assumptions C88_balance.
Theorem C88_accounts :
  forall depth cwd fs args verb cmds files out,
  args_mean args (verb :: cmds) files -> accounts_verb verb -> run depth cwd fs args = Ok out ->
  exists its xs ps, files_tell cwd fs files its /\ Forall2 xact_told its xs /\ accounts_named xs ps
    /\ Permutation out (map (fun p => last p []) ps) /\ StronglySorted (fun a b => str_lt a b \/ a = b) out.
Proof. exact any_accounts. Qed.
Print Assumptions C88_accounts.
(** With numbers of ordinary size the balance command succeeds unless a line is refused, and the sums are exact. *)
Theorem C88_ordinary_balance :
  forall B k n cwd fs known depth args verb cmds files,
  moderate_bounds B k n -> (forall p f, fs p = Some f -> moderate_source B k n f) ->
  acyclic cwd fs -> only_files fs known -> (forall q, fs q <> None -> file_path q) -> length known < depth ->
  args_mean args (verb :: cmds) files -> balance_verb verb -> (forall f, In f files -> exists src, fs f = Some src /\ ~ refused cwd fs None src) ->
  (forall its, files_tell cwd fs files its -> Z.of_nat (posting_lines its) * (Z.of_nat n * (B * B * 10 ^ Z.of_nat (2 * k))) < 2 ^ 96)%Z ->
  exists out its xs ps, run depth cwd fs args = Ok out /\ files_tell cwd fs files its /\ Forall2 xact_told its xs /\ accounts_named xs ps
    /\ Forall2 (fun p line => exists b, sums_up b (amounts_below p xs)
                  /\ line = lit "Account " ++ shown_name p ++ lit " has balance " ++ shown_amounts b) ps out.
Proof.
  intros B k n cwd fs known depth args verb cmds files Bd Mf Ac Of Fp Ld A V F L.
  exact (ordinary_balance B k n Bd cwd fs known depth Mf Ac Of Fp Ld args verb cmds files A V F L).
Qed.
Print Assumptions C88_ordinary_balance.
(** Which transactions the files tell of is determined by them. *)
Theorem C88_told_once :
  forall cwd fs files its its', (forall p, fs p <> None -> file_path p) -> files_tell cwd fs files its -> files_tell cwd fs files its' -> its' = its.
Proof.
  intros cwd fs files its its' Fp (a & F & ->) (b & G & ->). f_equal. revert b G. induction F as [|f i files a (src & E & C) F IH]; intros b G; inversion G as [|? i' ? b' (src' & E' & C') G']; subst; [reflexivity|].
  f_equal; [|apply IH; assumption]. rewrite E in E'. injection E' as <-. exact (content_unique cwd fs Fp _ _ _ C _ C').
Qed.
Print Assumptions C88_told_once.

(** A file in which hardly a line is as it should be: a quantity that is not a number, a cost without a space, what is left
    behind it, an undecodable line. *)
Definition odd_file : filesystem := fun p => if str_eqb p (lit "odd") then Some (text_source (lit "2023-05-01=2023-05-02 x
 ; first
 Expenses:Food  1,000 EUR
  Assets:Stock  -5 VTI {2 USD} @@x3USD ; tail
 ;

- not read
") ++ [None; Some (lit "never")]) else None.
Example C88_odd_case :
  args_mean [lit "bal"; lit "-f"; lit "odd"] [lit "bal"] [lit "odd"]
  /\ run 1 [] odd_file [lit "bal"; lit "-f"; lit "odd"] = Ok [lit "Account  has balance -5 VTI-3 USD"; lit "Account Assets has balance -5 VTI"; lit "Account Assets:Stock has balance -5 VTI";
       lit "Account Expenses has balance -3 USD"; lit "Account Expenses:Food has balance -3 USD"].
Proof. split; [|vm_compute; reflexivity]. apply am_word; [discriminate|]. apply (am_files 1 [lit "odd"] [] [] []); [reflexivity|constructor]. Qed.

Lemma demo_paths : forall q, demo_fs q <> None -> file_path q.
Proof. intros q H. unfold demo_fs in H. destruct (str_eqb q inc_path) eqn:E; [|congruence]. apply str_eqb_eq in E. subst q. exact inc_file_path. Qed.
Example C88_ordinary_case :
  args_mean balance_args [lit "b"] [inc_path] /\ (forall f, In f [inc_path] -> exists src, demo_fs f = Some src /\ ~ refused (lit "/w") demo_fs None src)
  /\ (forall its, files_tell (lit "/w") demo_fs [inc_path] its -> Z.of_nat (posting_lines its) * (Z.of_nat 900 * (1000000 * 1000000 * 10 ^ Z.of_nat (2 * 2))) < 2 ^ 96)%Z
  /\ exists lines, run 3 (lit "/w") demo_fs balance_args = Ok lines.
Proof.
  split; [apply am_word; [discriminate|]; apply (am_files 1 [inc_path] [] [] []); [reflexivity|constructor]|]. split; [|split; [|eexists; vm_compute; reflexivity]].
  - intros f [<-|[]]. destruct (demo_fs inc_path) as [src|] eqn:E; [|vm_compute in E; discriminate]. exists src. split; [reflexivity|].
    apply (proj1 (C86_read_unless_refused 1000000 2 900 (lit "/w") demo_fs [inc_path] src journal_new 3 C86_bounds (demo_moderate _ _ E) demo_moderate (new_moderate _ _ _) demo_acyclic demo_only demo_paths rj_new ltac:(cbn; lia))).
    apply demo_fs_src in E. subst src. eexists. vm_compute. reflexivity.
  - intros its T.
    destruct (read_journal_files 3 (lit "/w") demo_fs [inc_path]) as [j| |] eqn:E.
    2, 3: exfalso; revert E; vm_compute; discriminate.
    assert (L : match read_journal_files 3 (lit "/w") demo_fs [inc_path] with Ok j => length (all_posts j) = 2 | _ => False end) by (vm_compute; reflexivity). rewrite E in L.
    destruct (files_content _ _ _ _ _ _ rj_new named_new E) as (_ & _ & its' & xs & T' & X & P). rewrite (C88_told_once _ _ _ _ _ demo_paths T' T), <- (posting_count _ _ P).
    unfold all_posts in L. rewrite X in L. cbn [journal_new j_xacts app] in L. unfold postings. rewrite L. vm_compute. reflexivity.
Qed.
