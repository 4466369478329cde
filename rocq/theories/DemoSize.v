(** Files each of which includes the next one twice. *)
From Coq Require Import String List NArith ZArith Bool Lia Relations.
From Verif Require Import Base Decimal Dates Amount Balance Scanner History Pool Account Journal Xact Parser.
From Verif Require Import SpecDecimal SpecText SpecReading SpecScan SpecDates SpecAccount SpecJournal SpecWhole SpecFull SpecOutline SpecSize.
From Verif Require Import BaseFacts ReadingFacts LinesProofs OutlineProofs FullProofs MoreProofs SizeProofs DemoReading DemoScan DemoWhole DemoFull.
Import ListNotations.
Open Scope list_scope.
Open Scope nat_scope.

Definition name_of (n : nat) : str := 47%N :: repeat 97%N (S n).
Definition tower_lines (n : nat) : list str :=
  match n with 0 => [demo_header; fpost4; fpost5] | S n => [plain_include (name_of n); plain_include (name_of n)] end.
Definition tower_text (n : nat) : str := concat (tower_lines n).
(** File number [n], for [n] up to [k], includes file number [n - 1] twice; file 0 has one transaction. *)
Definition tower (k : nat) : filesystem := fun p =>
  if str_eqb p (name_of (length p - 2)) && (length p - 2 <=? k) then Some (text_source (tower_text (length p - 2))) else None.

Lemma name_length n : length (name_of n) - 2 = n.
Proof. unfold name_of. cbn [length]. rewrite repeat_length. lia. Qed.
Lemma tower_file k n : n <= k -> tower k (name_of n) = Some (text_source (tower_text n)).
Proof. intros L. unfold tower. rewrite name_length, str_eqb_refl. cbn [andb]. apply Nat.leb_le in L. rewrite L. reflexivity. Qed.
Lemma tower_only k : only_files (tower k) (map name_of (seq 0 (S k))).
Proof.
  intros p H. unfold tower in H. destruct (str_eqb p (name_of (length p - 2)) && (length p - 2 <=? k)) eqn:E; [|congruence]. apply andb_prop in E as [E L].
  apply str_eqb_eq in E. apply Nat.leb_le in L. rewrite E. apply in_map, in_seq. lia.
Qed.
Lemma name_chars n c : In c (name_of n) -> c = 47%N \/ c = 97%N.
Proof. intros [<-|I]; [left; reflexivity|right]. exact (repeat_spec _ _ _ I). Qed.
Lemma name_word n : word (name_of n).
Proof. split; [discriminate|]. apply forallb_forall. intros c I. destruct (name_chars n c I) as [-> | ->]; reflexivity. Qed.
Lemma name_path n : file_path (name_of n).
Proof.
  exists [], (repeat 97%N (S n)). split; [reflexivity|]. split; [discriminate|]. split; [discriminate|]. intros I. apply repeat_spec in I. discriminate.
Qed.
Lemma name_named cwd n : names_file cwd (name_of n) (name_of n).
Proof. eapply nf_absolute; [reflexivity|left; reflexivity]. Qed.
Lemma tower_lines_of n : lines_of (tower_text n) (tower_lines n).
Proof.
  destruct n as [|n]; [apply (lines_check [demo_header; fpost4] fpost5); reflexivity|]. split; [reflexivity|left].
  assert (O : one_line (plain_include (name_of n))).
  { exists (lit "include " ++ name_of n). split; [unfold plain_include; rewrite <- app_assoc; reflexivity|]. intros I. apply in_app_or in I as [I|I].
    - vm_compute in I. intuition discriminate.
    - destruct (name_chars n _ I); discriminate. }
  repeat constructor; exact O.
Qed.
Lemma tower_length n : length (text_source (tower_text n)) = match n with 0 => 3 | S _ => 2 end.
Proof. rewrite (proj2 (text_lines_iff _ _) (tower_lines_of n)), map_length. destruct n; reflexivity. Qed.
Lemma tower_lines_in k : lines_in (tower k) (map name_of (seq 0 (S k))) = 2 * k + 3.
Proof.
  unfold lines_in. rewrite map_map.
  rewrite (map_ext_in _ (fun n => match n with 0 => 3 | S _ => 2 end)).
  2:{ intros n I. apply in_seq in I. rewrite tower_file by lia. apply tower_length. }
  cbn [seq map]. change (list_sum (3 :: map (fun n => match n with 0 => 3 | S _ => 2 end) (seq 1 k))) with (3 + list_sum (map (fun n => match n with 0 => 3 | S _ => 2 end) (seq 1 k))).
  assert (H : forall m, list_sum (map (fun n => match n with 0 => 3 | S _ => 2 end) (seq (S m) k)) = 2 * k).
  { induction k as [|k IH]; intros m; [reflexivity|]. cbn [seq map]. specialize (IH (S m)). unfold list_sum in *. cbn [fold_right]. lia. }
  rewrite H. lia.
Qed.
Lemma tower_says k cwd : forall n, n <= k -> says cwd (tower k) n (tower_lines n) (repeat fb (2 ^ n)).
Proof.
  induction n as [|n IH]; intros L.
  - apply (says_last _ _ 0 [demo_header] [[fpost4]; [fpost5]]); [apply fheader_written; constructor|]. repeat constructor; [apply writes_f4|apply writes_f5].
  - assert (E : repeat fb (2 ^ S n) = repeat fb (2 ^ n) ++ repeat fb (2 ^ n) ++ []).
    { rewrite app_nil_r, <- repeat_app. f_equal. cbn [Nat.pow]. lia. }
    rewrite E. clear E. cbn [tower_lines].
    apply (says_include _ _ n _ (name_of n) (name_of n) (tower_text n) (tower_lines n)); [apply plain_include_line, name_word|reflexivity|apply name_named|apply name_path|apply tower_file; lia|apply tower_lines_of|apply IH; lia|].
    apply (says_include _ _ n _ (name_of n) (name_of n) (tower_text n) (tower_lines n)); [apply plain_include_line, name_word|reflexivity|apply name_named|apply name_path|apply tower_file; lia|apply tower_lines_of|apply IH; lia|].
    constructor.
Qed.
Lemma repeat_ok n : Forall xact_ok (repeat fb n).
Proof. induction n; cbn [repeat]; constructor; [exact fb_ok|assumption]. Qed.
Lemma repeat_lots pl n : lots_ok pl (repeat fb n).
Proof.
  intros w v u I V [Cv|(y & r & _ & Q & _)] _; apply repeat_spec in I; subst w.
  - destruct V as [<-|[]]. exfalso. apply Cv. reflexivity.
  - exfalso. inversion Q as [|? ? _ Q']; subst. inversion Q' as [|? ? X _]; subst. apply X. reflexivity.
Qed.
Theorem tower_read k : exists j, read_into_journal k [] (tower k) (text_source (tower_text k)) journal_new = Ok j /\ length (j_xacts j) = 2 ^ k.
Proof.
  destruct (full_journal_accepted k [] (tower k) (tower_text k) (tower_lines k) (repeat fb (2 ^ k)) journal_new (tower_lines_of k) (tower_says k [] k (le_n k)) (repeat_ok _) (repeat_lots _ _) rj_new)
    as (j & new & rss & E & X & F & _). exists j. split; [exact E|]. rewrite X. cbn [journal_new j_xacts app]. rewrite <- (Forall2_len _ _ _ F), repeat_length. reflexivity.
Qed.
Lemma tower_smaller k cwd p q : includes cwd (tower k) p q -> length q < length p.
Proof.
  intros (src & l & arg & F & I & H & N). unfold tower in F. destruct (str_eqb p (name_of (length p - 2)) && (length p - 2 <=? k)) eqn:E; [|discriminate].
  apply andb_prop in E as [E _]. apply str_eqb_eq in E. remember (length p - 2) as n. injection F as <-. subst p.
  rewrite (proj2 (text_lines_iff _ _) (tower_lines_of n)) in I. apply in_map_iff in I as (l' & X & I). injection X as ->.
  destruct n as [|n].
  - exfalso. destruct I as [<-|[<-|[<-|[]]]]; pose proof (proj1 (include_line_arg _ _ H)) as W; vm_compute in W; discriminate.
  - assert (X : l = plain_include (name_of n)) by (destruct I as [<-|[<-|[]]]; reflexivity). subst l.
    pose proof (proj2 (include_line_arg _ _ H)) as W. rewrite (proj2 (include_line_arg _ _ (plain_include_line _ (name_word n)))) in W. subst arg.
    rewrite (names_file_once _ _ _ _ N (name_named cwd n)). unfold name_of. cbn [length]. rewrite !repeat_length. lia.
Qed.
Lemma tower_acyclic k cwd : acyclic cwd (tower k).
Proof.
  intros p H. assert (X : forall a b, clos_trans _ (includes cwd (tower k)) a b -> length b < length a).
  { induction 1 as [a b S|a b c _ IH1 _ IH2]; [exact (tower_smaller _ _ _ _ S)|lia]. }
  specialize (X _ _ H). lia.
Qed.
