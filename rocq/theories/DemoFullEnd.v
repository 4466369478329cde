(** Full files for the examples about reports. *)
From Coq Require Import String List NArith ZArith Bool Lia.
From Verif Require Import Base Decimal Dates Amount Account Journal Parser Options Lib.
From Verif Require Import SpecDecimal SpecAmount SpecScan SpecWhole SpecCommand SpecFull SpecEnd SpecFullEnd.
From Verif Require Import BaseFacts DemoJournal DemoScan DemoWhole DemoFull.
Import ListNotations.
Open Scope list_scope.
Open Scope nat_scope.

Definition full_args : list str := [lit "balance"; lit "-f"; main_file; lit "-f"; old_file].
Lemma full_args_mean verb : hd_error verb <> Some 45%N -> verb <> [] -> args_mean (verb :: tl full_args) [verb] [main_file; old_file].
Proof.
  intros V N. apply am_word; [exact V|]. apply (am_files 1 [main_file] [lit "-f"; old_file]); [reflexivity|]. apply (am_files 1 [old_file] []); [reflexivity|]. apply am_nil.
Qed.
Lemma full_files : Forall2 (ffile_says 1 (lit "/home") full_fs) [main_file; old_file] [[fb; fa; fc; fb]; [fb]].
Proof.
  constructor; [|constructor; [|constructor]]; eexists _, _; (split; [reflexivity|]).
  - split; [exact full_lines_of|exact full_said].
  - split; [apply (lines_check [demo_header; fpost4] fpost5); reflexivity|apply last_written].
Qed.
Lemma full_files_ok : Forall xact_ok [fb; fa; fc; fb; fb].
Proof. constructor; [apply fb_ok|]. constructor; [apply fa_ok|]. constructor; [apply fc_ok|]. constructor; [apply fb_ok|]. constructor; [apply fb_ok|constructor]. Qed.
Lemma full_files_lots : lots_ok (j_pool journal_new) [fb; fa; fc; fb; fb].
Proof. apply lots_check_ok. vm_compute. reflexivity. Qed.
Definition full_fit_check (scale : nat) (ws : list fxact) : bool :=
  (scale <=? 28) && forallb (fun w => forallb (fun v => (wa_decimals (wv_amount v) <=? scale) && (worth_decimals v <=? scale)) (values_of (fx_posts w))) ws
  && (sumZ (map (fun e => Z.abs (snd e)) (full_entries ws)) <? 2 ^ 96 * 10 ^ Z.of_nat (28 - scale))%Z.
Lemma full_fit_ok scale ws : full_fit_check scale ws = true -> full_sums_fit ws.
Proof.
  unfold full_fit_check. rewrite !andb_true_iff. intros [[A B] C]. exists scale. split; [apply Nat.leb_le, A|]. split; [|apply Z.ltb_lt, C].
  rewrite forallb_forall in B. apply Forall_forall. intros w Hw. specialize (B w Hw). rewrite forallb_forall in B.
  split; [|right]; apply Forall_forall; intros v Hv; specialize (B v Hv); apply andb_true_iff in B; destruct B as [B1 B2]; apply Nat.leb_le; assumption.
Qed.
Lemma full_files_fit : full_sums_fit [fb; fa; fc; fb; fb].
Proof. apply (full_fit_ok 2). vm_compute. reflexivity. Qed.
