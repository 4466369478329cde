(** Files that include each other in a circle. *)
From Coq Require Import String List NArith ZArith Bool Lia.
From Verif Require Import Base Journal Xact Parser Report Options Lib.
From Verif Require Import SpecText SpecJournal SpecReading SpecCommand SpecCycle.
From Verif Require Import BaseFacts ReadingFacts CommandProofs.
Import ListNotations.
Open Scope nat_scope.

Lemma loop_file_read depth cwd fs before l arg q after j :
  decodable before -> inside before = false -> include_line l arg -> hd_error l = Some 105%N -> names_file cwd arg q -> file_path q ->
  read_into_journal depth cwd fs (before ++ Some l :: after) j
  = let* j1 := read_into_journal depth cwd fs before j in
    let* j2 := match depth with O => Diverge | S d => match fs q with None => Ok j1 | Some src => read_into_journal d cwd fs src j1 end end in
    read_into_journal depth cwd fs after j2.
Proof.
  intros D I Hl Hd Nf Fp. apply (included_file _ fs) in Nf; [|exact Fp]. rewrite read_app by assumption.
  destruct (read_into_journal depth cwd fs before j) as [j1| |]; cbn [bind]; try reflexivity.
  unfold read_into_journal at 1. cbn [parse_lines]. rewrite (include_step _ _ _ _ Hl Hd).
  destruct depth as [|d]; cbn [include_file]; [reflexivity|]. rewrite Nf. cbn [bind].
  destruct (fs q) as [src|]; [|reflexivity]. unfold read_into_journal. destruct (parse_lines _ Top j1 src); reflexivity.
Qed.

Lemma circle_never cwd fs loop : circular cwd fs loop ->
  forall depth p src j j', loop p -> fs p = Some src -> read_into_journal depth cwd fs src j <> Ok j'.
Proof.
  intros C depth. induction depth as [|d IH]; intros p src j j' Lp Fp H;
    destruct (C p Lp) as (before & q & Lq & l & arg & after & E & D & I & Hl & Hd & Nf & Fq);
    rewrite Fp in E; injection E as ->; rewrite (loop_file_read _ _ _ _ _ _ _ _ _ D I Hl Hd Nf Fq) in H;
    apply bind_ok in H as (j1 & _ & H); apply bind_ok in H as (j2 & H & _); [discriminate H|].
  destruct (C q Lq) as (b2 & q2 & _ & l2 & a2 & af2 & E & _). rewrite E in H. exact (IH q _ j1 j2 Lq E H).
Qed.
Lemma circle_diverges cwd fs loop : circular_quiet cwd fs loop ->
  forall depth p src j, reachable_journal j -> loop p -> fs p = Some src -> read_into_journal depth cwd fs src j = Diverge.
Proof.
  intros C depth. induction depth as [|d IH]; intros p src j R Lp Fp;
    destruct (C p Lp) as (before & q & Lq & (l & arg & after & E & D & I & Hl & Hd & Nf & Fq) & Q);
    rewrite Fp in E; injection E as ->; rewrite (loop_file_read _ _ _ _ _ _ _ _ _ D I Hl Hd Nf Fq).
  - specialize (Q 0 j). destruct (read_into_journal 0 cwd fs before j) as [j1|pn|]; [reflexivity| |reflexivity]. destruct (Q pn R eq_refl).
  - specialize (Q (S d) j). destruct (read_into_journal (S d) cwd fs before j) as [j1|pn|] eqn:E1; [|destruct (Q pn R eq_refl)|reflexivity]. cbn [bind].
    destruct (C q Lq) as (b2 & q2 & _ & (l2 & a2 & af2 & E & _) & _). rewrite E.
    rewrite (IH q _ j1 (rj_read _ _ _ _ _ _ R E1) Lq E). reflexivity.
Qed.

Lemma circle_run cwd fs loop : circular cwd fs loop ->
  forall depth args cmds files f out, args_mean args cmds files -> In f files -> loop f -> run depth cwd fs args <> Ok out.
Proof.
  intros C depth args cmds files f out A I Lf H. unfold run in H. rewrite (proj2 (arguments_meaning _ _ _) A) in H. cbn [bind] in H.
  unfold execute_command in H. apply bind_ok in H as (verb & _ & H). apply bind_ok in H as (j & H & _). clear verb out A.
  unfold read_journal_files in H. revert H. generalize journal_new. induction files as [|g files IH]; intros j0 H; [destruct I|].
  cbn [fold_outcome] in H. apply bind_ok in H as (j1 & H1 & H). destruct I as [->|I]; [|exact (IH I _ H)].
  unfold parse_file in H1. destruct (fs f) as [src|] eqn:E; [|discriminate H1]. exact (circle_never cwd fs loop C _ _ _ _ _ Lf E H1).
Qed.
