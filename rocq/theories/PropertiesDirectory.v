(** C99: the working directory. *)
From Coq Require Import String List NArith ZArith Bool Lia.
From Verif Require Import Base Decimal Dates Amount Balance Scanner History Pool Account Journal Xact Parser Report Options Lib.
From Verif Require Import SpecText SpecReading SpecCommand SpecDirectory.
From Verif Require Import BaseFacts ReadingFacts CommandProofs DirectoryProofs.
Import ListNotations.
Open Scope list_scope.
Open Scope nat_scope.

(** Where all names that are included have the same files behind them in two working directories, reading gives the same, ... *)
Theorem C99_source :
  forall depth cwd cwd' fs fs' src j, file_path cwd -> file_path cwd' -> all_includes cwd fs src (same_file cwd fs cwd' fs') ->
  read_into_journal depth cwd fs src j = read_into_journal depth cwd' fs' src j.
Proof. exact directory_source. Qed.
Print Assumptions C99_source.
(** ... and so do commands on files with the same contents. *)
Theorem C99_run :
  forall depth cwd cwd' fs fs' args args' cmds files files', file_path cwd -> file_path cwd' ->
  args_mean args cmds files -> args_mean args' cmds files' -> Forall2 (fun f f' => fs f = fs' f') files files' ->
  (forall f src, In f files -> fs f = Some src -> all_includes cwd fs src (same_file cwd fs cwd' fs')) ->
  run depth cwd fs args = run depth cwd' fs' args'.
Proof. exact directory_run. Qed.
Print Assumptions C99_run.
(** If only full paths are included, then any working directory does. *)
Theorem C99_full_source :
  forall depth cwd cwd' fs src j, all_includes cwd fs src full_path ->
  read_into_journal depth cwd fs src j = read_into_journal depth cwd' fs src j.
Proof. exact full_source. Qed.
Print Assumptions C99_full_source.
Theorem C99_full_run :
  forall depth cwd cwd' fs args cmds files, args_mean args cmds files ->
  (forall f src, In f files -> fs f = Some src -> all_includes cwd fs src full_path) ->
  run depth cwd fs args = run depth cwd' fs args.
Proof. exact full_run. Qed.
Print Assumptions C99_full_run.

(** A way to list the names that are included. *)
Definition included_names (s : source) : list str :=
  flat_map (fun l => match l with
                     | Some t => if str_eqb (fst (take_word t)) (lit "include") then [fst (take_word (snd (take_word t)))] else []
                     | None => [] end) s.
Lemma included_listed s l arg : In (Some l) s -> include_line l arg -> In arg (included_names s).
Proof.
  intros I L. apply include_line_arg in L as [L A]. apply in_flat_map. exists (Some l). split; [exact I|]. cbv beta iota. rewrite L, str_eqb_refl, A. left. reflexivity.
Qed.
Lemma includes_check cwd fs sl src (P : str -> Prop) : In src sl ->
  (forall s arg, In s sl -> In arg (included_names s) -> P arg /\ forall s', fs (resolve cwd arg) = Some s' -> In s' sl) -> all_includes cwd fs src P.
Proof.
  intros I H s l arg R Il L. assert (Is : In s sl).
  { clear l arg Il L. induction R as [|s l arg p s' R IH Il L N F]; [exact I|]. apply names_resolve in N. subst p. exact (proj2 (H s arg IH (included_listed _ _ _ Il L)) _ F). }
  exact (proj1 (H s arg Is (included_listed _ _ _ Il L))).
Qed.

(** A file that includes one by a relative name, which includes another one by its full path, in two places. *)
Definition nl : str := [10%N].
Definition main_file : source := [Some (lit "include in/shop" ++ nl)].
Definition shop_file : source := [Some (lit "2023-05-03 Shop" ++ nl); Some (lit "  Food  5 EUR" ++ nl); Some (lit "  Cash  -5 EUR" ++ nl); Some nl; Some (lit "include /all" ++ nl)].
Definition all_file : source := [Some (lit "2023-05-04 Bank" ++ nl); Some (lit "  Bank  7 EUR" ++ nl); Some (lit "  Cash  -7 EUR" ++ nl)].
Definition place (dir : str) : filesystem := fun p =>
  if str_eqb p (dir ++ lit "/main") then Some main_file else if str_eqb p (dir ++ lit "/in/shop") then Some shop_file else if str_eqb p (lit "/all") then Some all_file else None.
Definition bal_of (dir : str) : list str := [lit "bal"; lit "-f"; dir ++ lit "/main"].
Example C99_case :
  file_path (lit "/w") /\ file_path (lit "/home/me") /\ args_mean (bal_of (lit "/w")) [lit "bal"] [lit "/w/main"] /\ args_mean (bal_of (lit "/home/me")) [lit "bal"] [lit "/home/me/main"]
  /\ place (lit "/w") (lit "/w/main") = Some main_file
  /\ all_includes (lit "/w") (place (lit "/w")) main_file (same_file (lit "/w") (place (lit "/w")) (lit "/home/me") (place (lit "/home/me")))
  /\ all_includes (lit "/w") (place (lit "/w")) shop_file full_path
  /\ run 3 (lit "/home/me") (place (lit "/home/me")) (bal_of (lit "/home/me"))
     = Ok [lit "Account  has balance 0 EUR"; lit "Account Bank has balance 7 EUR"; lit "Account Cash has balance -12 EUR"; lit "Account Food has balance 5 EUR"].
Proof.
  split; [exists [], (lit "w"); split; [reflexivity|repeat split; try discriminate; cbn; intros [X|[]]; discriminate]|].
  split; [exists (lit "/home"), (lit "me"); split; [reflexivity|repeat split; try discriminate; cbn; intros [X|[X|[]]]; discriminate]|].
  split; [apply arguments_meaning; vm_compute; reflexivity|]. split; [apply arguments_meaning; vm_compute; reflexivity|]. split; [reflexivity|]. split; [|split; [|vm_compute; reflexivity]].
  - apply (includes_check _ _ [main_file; shop_file; all_file]); [left; reflexivity|]. intros s arg [<-|[<-|[<-|[]]]] I; vm_compute in I.
    + destruct I as [<-|[]]. split; [|intros s' X; vm_compute in X; injection X as <-; right; left; reflexivity]. intros p p' N N'. apply names_resolve in N, N'. subst. vm_compute. reflexivity.
    + destruct I as [<-|[]]. split; [|intros s' X; vm_compute in X; injection X as <-; right; right; left; reflexivity]. intros p p' N N'. apply names_resolve in N, N'. subst. vm_compute. reflexivity.
    + destruct I.
  - apply (includes_check _ _ [shop_file; all_file]); [left; reflexivity|]. intros s arg [<-|[<-|[]]] I; vm_compute in I.
    + destruct I as [<-|[]]. split; [exists 47%N, (lit "all"); split; [reflexivity|left; reflexivity]|intros s' X; vm_compute in X; injection X as <-; right; left; reflexivity].
    + destruct I.
Qed.
(** The main file read in a directory that has no such files: nothing is read, so the condition is needed. *)
Example C99_elsewhere : run 3 (lit "/home/me") (place (lit "/w")) (bal_of (lit "/w")) = Ok [lit "Account  has balance "].
Proof. vm_compute. reflexivity. Qed.
(** In the root directory an include of the directory itself ends the program, elsewhere it is ignored. *)
Example C99_root :
  ~ file_path (lit "/")
  /\ read_into_journal 1 (lit "/") (fun _ => None) [Some (lit "include ." ++ nl)] journal_new = Panic PUnwrap
  /\ read_into_journal 1 (lit "/w") (fun _ => None) [Some (lit "include ." ++ nl)] journal_new = Ok journal_new.
Proof.
  split; [|split; vm_compute; reflexivity]. intros (d & n & E & N & _). change (lit "/") with [47%N] in E. destruct d as [|c [|c' d]]; cbn in E; [|discriminate|discriminate].
  injection E as E. subst n. apply N. reflexivity.
Qed.
