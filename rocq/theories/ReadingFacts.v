(** Facts about reading line by line. *)
From Coq Require Import String List NArith ZArith Bool Lia Relations ZifyBool ZifyNat ZifyN.
From Verif Require Import Base BaseFacts Decimal Dates Amount Balance Scanner History Pool Account Journal Xact Parser.
From Verif Require Import SpecText SpecReading.
Import ListNotations.
Open Scope nat_scope.

(** ** The line functions without matches on characters *)
Definition fin (j : journal) (xi : nat) : outcome next := let* j' := finalize j xi in Ok (Continue Top j').
Lemma xact_line_eq j xi c r :
  xact_line j xi (c :: r) =
  if (c =? 32)%N then
    match trim_start (c :: r) with
    | [] => fin j xi
    | d :: s => if (d =? 59)%N then let* j' := parse_trailing_note j xi (59%N :: s) in Ok (Continue (InXact xi) j')
                else let* j' := parse_post j xi (d :: s) in Ok (Continue (InXact xi) j')
    end
  else if (c =? 13)%N || (c =? 10)%N then fin j xi else Panic PExplicit.
Proof.
  unfold xact_line.
  assert (E : match trim_start (c :: r) with
     | [] => let* j' := finalize j xi in Ok (Continue Top j')
     | 59%N :: s => let* j' := parse_trailing_note j xi (59%N :: s) in Ok (Continue (InXact xi) j')
     | input => let* j' := parse_post j xi input in Ok (Continue (InXact xi) j')
     end = match trim_start (c :: r) with
    | [] => fin j xi
    | d :: s => if (d =? 59)%N then let* j' := parse_trailing_note j xi (59%N :: s) in Ok (Continue (InXact xi) j')
                else let* j' := parse_post j xi (d :: s) in Ok (Continue (InXact xi) j')
    end).
  { destruct (trim_start (c :: r)) as [|d s]; [reflexivity|]. destruct d as [|p]; [reflexivity|].
    do 6 (destruct p as [p|p|]; try reflexivity). }
  rewrite <- E. clear E.
  destruct c as [|p]; [reflexivity|]. do 6 (destruct p as [p|p|]; try reflexivity).
Qed.

Definition price_line_on (j : journal) (line : str) : outcome journal :=
  let* p := parse_price_directive (j_pool j) line in Ok (set_pool j p).
Lemma general_eq inc j line :
  general_directive inc j line =
  match fst (take_word line) with
  | [] => Panic PExplicit
  | c :: d => if (c =? 97)%N then Panic PTodo
              else if (c =? 105)%N then
                if str_eqb (c :: d) (lit "include") then
                  match fst (take_word (snd (take_word line))) with [] => Panic PUnwrap | a :: arg => inc (a :: arg) j end
                else if str_eqb (c :: d) (lit "import") then Panic PTodo
                else price_line_on j line
              else Panic PTodo
  end.
Proof.
  unfold general_directive. destruct (take_word line) as [dir rest]. cbn [fst snd]. destruct dir as [|c d]; [reflexivity|].
  assert (A : match fst (take_word rest) with [] => Panic PUnwrap | argument => inc argument j end
            = match fst (take_word rest) with [] => Panic PUnwrap | a :: arg => inc (a :: arg) j end) by (destruct (fst (take_word rest)); reflexivity).
  destruct c as [|p]; [reflexivity|]. do 7 (destruct p as [p|p|]; try reflexivity); rewrite A; reflexivity.
Qed.

(** ** Words *)
Lemma drop_while_split p s : exists a, s = a ++ drop_while p s /\ forallb p a = true
  /\ match drop_while p s with [] => True | c :: _ => p c = false end.
Proof.
  induction s as [|c s (a & E & F & H)]; cbn [drop_while]; [exists []; auto|].
  destruct (p c) eqn:Pc; [|exists []; auto].
  exists (c :: a). cbn. rewrite Pc, <- E. auto.
Qed.
Lemma drop_while_app p a s : forallb p a = true -> drop_while p (a ++ s) = drop_while p s.
Proof. induction a as [|c a IH]; cbn; [reflexivity|]. intros H. apply andb_prop in H as [-> H]. auto. Qed.
Lemma drop_while_none p c s : p c = false -> drop_while p (c :: s) = c :: s.
Proof. cbn. intros ->. reflexivity. Qed.
Lemma find_char_split p s :
  match find_char p s with
  | Some i => exists c r, s = firstn i s ++ c :: r /\ skipn i s = c :: r /\ p c = true /\ forallb (fun c => negb (p c)) (firstn i s) = true
  | None => forallb (fun c => negb (p c)) s = true
  end.
Proof.
  induction s as [|c s IH]; cbn [find_char]; [reflexivity|]. destruct (p c) eqn:Pc; [exists c, s; auto|].
  destruct (find_char p s) as [i|]; cbn [option_map].
  - destruct IH as (d & r & E & K & Pd & F). exists d, r. cbn. rewrite <- E, Pc. auto.
  - cbn. rewrite Pc. exact IH.
Qed.
Lemma find_char_app p a c r : forallb (fun c => negb (p c)) a = true -> p c = true -> find_char p (a ++ c :: r) = Some (length a).
Proof.
  induction a as [|x a IH]; cbn; intros H Pc; [rewrite Pc; reflexivity|]. apply andb_prop in H as [H1 H2].
  apply negb_true_iff in H1. rewrite H1, IH by assumption. reflexivity.
Qed.
Lemma find_char_none p a : forallb (fun c => negb (p c)) a = true -> find_char p a = None.
Proof.
  induction a as [|x a IH]; cbn; intros H; [reflexivity|]. apply andb_prop in H as [H1 H2].
  apply negb_true_iff in H1. rewrite H1, IH by assumption. reflexivity.
Qed.
Lemma firstn_app_exact {A} (a r : list A) : firstn (length a) (a ++ r) = a.
Proof. rewrite firstn_app, firstn_all, Nat.sub_diag, firstn_O, app_nil_r. reflexivity. Qed.
Lemma skipn_app_exact {A} (a r : list A) : skipn (length a) (a ++ r) = r.
Proof. rewrite skipn_app, skipn_all, Nat.sub_diag. reflexivity. Qed.

Lemma take_word_inv s w r : take_word s = (w, r) ->
  exists ws, s = ws ++ w ++ r /\ spaces ws /\ forallb (fun c => negb (is_ws c)) w = true
    /\ (r = [] \/ exists c r', r = c :: r' /\ is_ws c = true).
Proof.
  unfold take_word, trim_start. destruct (drop_while_split is_ws s) as (ws & E & F & _).
  set (t := drop_while is_ws s) in *. pose proof (find_char_split is_ws t) as K. destruct (find_char is_ws t) as [i|].
  - destruct K as (c & r' & E' & Sk & Pc & Fw). intros [= <- <-]. exists ws. rewrite Sk, <- E'. split; [exact E|]. split; [exact F|].
    split; [exact Fw|]. right. eauto.
  - intros [= <- <-]. exists ws. rewrite app_nil_r. auto.
Qed.
Lemma take_word_app ws w r : spaces ws -> word w -> (r = [] \/ exists c r', r = c :: r' /\ is_ws c = true) ->
  take_word (ws ++ w ++ r) = (w, r).
Proof.
  intros Fs [Nw Fw] Hr. unfold take_word, trim_start. rewrite drop_while_app by exact Fs.
  destruct w as [|c w]; [congruence|]. cbn [app] in *. pose proof Fw as Fw'. cbn [forallb] in Fw'. apply andb_prop in Fw' as [Hc _]. apply negb_true_iff in Hc.
  rewrite drop_while_none by exact Hc. destruct Hr as [->|(d & r' & -> & Hd)].
  - rewrite app_nil_r. rewrite find_char_none by exact Fw. reflexivity.
  - change (c :: w ++ d :: r') with ((c :: w) ++ d :: r'). rewrite find_char_app by assumption. rewrite firstn_app_exact, skipn_app_exact. reflexivity.
Qed.

(** ** Reading part of a source *)
Fixpoint prefix (inc : str -> journal -> outcome journal) (m : mode) (j : journal) (lines : source) : outcome next :=
  match lines with
  | [] => Ok (Continue m j)
  | l :: lines' => let* n := step inc m j l in
                   match n with Continue m' j' => prefix inc m' j' lines' | Stop j' => Ok (Stop j') end
  end.
Lemma parse_app inc s1 s2 : forall m j,
  parse_lines inc m j (s1 ++ s2)
  = let* n := prefix inc m j s1 in match n with Continue m' j' => parse_lines inc m' j' s2 | Stop j' => Ok j' end.
Proof.
  induction s1 as [|l s1 IH]; intros m j; cbn [app parse_lines prefix bind]; [reflexivity|].
  destruct (step inc m j l) as [[m' j'|j']| |]; cbn [bind]; auto.
Qed.
Lemma prefix_app inc s1 s2 : forall m j,
  prefix inc m j (s1 ++ s2)
  = let* n := prefix inc m j s1 in match n with Continue m' j' => prefix inc m' j' s2 | Stop j' => Ok (Stop j') end.
Proof.
  induction s1 as [|l s1 IH]; intros m j; cbn [app prefix bind]; [reflexivity|].
  destruct (step inc m j l) as [[m' j'|j']| |]; cbn [bind]; auto.
Qed.

Definition in_xact (m : mode) : bool := match m with Top => false | InXact _ => true end.
Lemma blank_trim l : blank l = true <-> trim_start l = [].
Proof.
  unfold blank, trim_start. induction l as [|c l IH]; cbn; [tauto|]. destruct (is_ws c); cbn; [exact IH|]. split; discriminate.
Qed.
Lemma step_mode inc m j l m' j' : step inc m j l = Ok (Continue m' j') -> in_xact m' = next_inside (in_xact m) l.
Proof.
  intros H. destruct m as [|xi], l as [l|]; cbn [step in_xact next_inside] in *; try discriminate.
  - unfold top_line in H. destruct (_ || _) eqn:E.
    { injection H as <- <-. apply orb_prop in E as [E|E]; apply str_eqb_eq in E; subst l; reflexivity. }
    clear E. destruct l as [|c r]; [discriminate|]. destruct (_ || _) eqn:E1.
    { injection H as <- <-. cbn. unfold is_digit. lia. }
    clear E1. destruct (c =? 45)%N eqn:E2; [injection H as <- <-; cbn; unfold is_digit; lia|].
    destruct (is_digit c); [|destruct (_ || _); [discriminate|]]; destruct (bind_ok _ _ _ H) as (v & _ & H'); injection H' as <- <-; reflexivity.
  - destruct l as [|c r]; [discriminate|]. rewrite xact_line_eq in H.
    assert (Fi : fin j xi = Ok (Continue m' j') -> in_xact m' = false).
    { unfold fin. intros F. destruct (bind_ok _ _ _ F) as (v & _ & F'). injection F' as <- <-. reflexivity. }
    destruct (c =? 32)%N.
    + cbn [andb]. destruct (trim_start (c :: r)) as [|d s] eqn:E.
      * apply blank_trim in E. rewrite E. exact (Fi H).
      * assert (blank (c :: r) = false) as ->.
        { destruct (blank (c :: r)) eqn:B; [|reflexivity]. apply blank_trim in B. congruence. }
        destruct (d =? 59)%N; destruct (bind_ok _ _ _ H) as (v & _ & H'); injection H' as <- <-; reflexivity.
    + cbn [andb]. destruct (_ || _); [exact (Fi H)|discriminate].
  - destruct (bind_ok _ _ _ H) as (v & _ & H'). injection H' as <- <-. reflexivity.
Qed.
Lemma prefix_mode inc s : forall m j m' j', prefix inc m j s = Ok (Continue m' j') -> in_xact m' = fold_left next_inside s (in_xact m).
Proof.
  induction s as [|l s IH]; intros m j m' j' H; cbn in *; [injection H as <- <-; reflexivity|].
  destruct (step inc m j l) as [[m1 j1|j1]| |] eqn:E; cbn in H; try discriminate. apply step_mode in E. rewrite <- E. eapply IH, H.
Qed.
Lemma step_no_stop inc m j l j' : l <> None -> step inc m j l <> Ok (Stop j').
Proof.
  intros N H. destruct l as [l|]; [|congruence]. destruct m as [|xi]; cbn [step] in H.
  - unfold top_line in H. destruct (_ || _); [discriminate|]. destruct l as [|c r]; [discriminate|]. destruct (_ || _); [discriminate|].
    destruct (c =? 45)%N; [discriminate|]. destruct (is_digit c); [|destruct (_ || _); [discriminate|]]; destruct (bind_ok _ _ _ H) as (v & _ & H'); discriminate.
  - destruct l as [|c r]; [discriminate|]. rewrite xact_line_eq in H. unfold fin in H.
    destruct (c =? 32)%N; [destruct (trim_start (c :: r)) as [|d s]; [|destruct (d =? 59)%N]|destruct (_ || _); [|discriminate]];
      destruct (bind_ok _ _ _ H) as (v & _ & H'); discriminate.
Qed.
Lemma prefix_no_stop inc s : decodable s -> forall m j j', prefix inc m j s <> Ok (Stop j').
Proof.
  induction 1 as [|l s Hl _ IH]; intros m j j' H; cbn in H; [discriminate|].
  destruct (step inc m j l) as [[m1 j1|j1]| |] eqn:E; cbn in H; try discriminate; [eapply IH, H|].
  eapply step_no_stop; eassumption.
Qed.

(** ** Composition *)
Lemma read_app depth cwd fs s1 s2 j :
  decodable s1 -> inside s1 = false ->
  read_into_journal depth cwd fs (s1 ++ s2) j
  = let* j' := read_into_journal depth cwd fs s1 j in read_into_journal depth cwd fs s2 j'.
Proof.
  intros D I. unfold read_into_journal. set (inc := include_file depth cwd fs). rewrite parse_app.
  pose proof (parse_app inc s1 [] Top j) as E. rewrite app_nil_r in E. rewrite E. clear E.
  destruct (prefix inc Top j s1) as [[m' j'|j']| |] eqn:P; cbn [bind]; try reflexivity.
  - apply prefix_mode in P. cbn in P. fold (inside s1) in P. rewrite I in P. destruct m'; [|discriminate]. reflexivity.
  - destruct (prefix_no_stop _ _ D _ _ _ P).
Qed.
(** A blank line in between lets the first source end anywhere. *)
Lemma read_app_blank depth cwd fs s1 s2 j l :
  decodable s1 -> empty_line l ->
  read_into_journal depth cwd fs (s1 ++ l :: s2) j
  = let* j' := read_into_journal depth cwd fs s1 j in read_into_journal depth cwd fs s2 j'.
Proof.
  intros D El. unfold read_into_journal. set (inc := include_file depth cwd fs). rewrite parse_app.
  pose proof (parse_app inc s1 [] Top j) as E. rewrite app_nil_r in E. rewrite E. clear E.
  destruct (prefix inc Top j s1) as [[m' j'|j']| |] eqn:P; cbn [bind]; try reflexivity.
  - assert (St : step inc m' j' l = match m' with Top => Ok (Continue Top j') | InXact xi => fin j' xi end).
    { destruct El as [->| ->]; destruct m'; reflexivity. }
    cbn [parse_lines]. rewrite St. destruct m'; cbn [bind]; [reflexivity|]. unfold fin. destruct (finalize j' xi); reflexivity.
  - destruct (prefix_no_stop _ _ D _ _ _ P).
Qed.

(** ** Inert lines *)
Lemma inert_step inc j l : inert l -> step inc Top j l = Ok (Continue Top j).
Proof.
  intros (t & -> & [->|[->|(c & r & -> & Hc)]]); [reflexivity|reflexivity|]. cbn [step]. unfold top_line.
  destruct (_ || _); [reflexivity|]. vm_compute in Hc. repeat (destruct Hc as [<-|Hc]; [reflexivity|]). destruct Hc.
Qed.
Lemma inert_prefix inc j ins : Forall inert ins -> prefix inc Top j ins = Ok (Continue Top j).
Proof. induction 1 as [|l ins Hl _ IH]; cbn [prefix]; [reflexivity|]. rewrite inert_step by exact Hl. exact IH. Qed.
Lemma inert_lines depth cwd fs s1 ins s2 j :
  inside s1 = false -> Forall inert ins ->
  read_into_journal depth cwd fs (s1 ++ ins ++ s2) j = read_into_journal depth cwd fs (s1 ++ s2) j.
Proof.
  intros I F. unfold read_into_journal. set (inc := include_file depth cwd fs). rewrite !parse_app.
  destruct (prefix inc Top j s1) as [[m' j'|j']| |] eqn:P; cbn [bind]; try reflexivity.
  apply prefix_mode in P. cbn in P. fold (inside s1) in P. rewrite I in P. destruct m'; [|discriminate].
  rewrite parse_app, inert_prefix by exact F. reflexivity.
Qed.
(** Before an empty line, and at the end, empty lines can be inserted even inside a transaction. *)
Lemma empty_before_empty depth cwd fs s1 ins s2 j :
  Forall empty_line ins -> (s2 = [] \/ exists l r, s2 = l :: r /\ empty_line l) ->
  read_into_journal depth cwd fs (s1 ++ ins ++ s2) j = read_into_journal depth cwd fs (s1 ++ s2) j.
Proof.
  intros F H. unfold read_into_journal. set (inc := include_file depth cwd fs). rewrite !parse_app.
  destruct (prefix inc Top j s1) as [[m' j'|j']| |]; cbn [bind]; try reflexivity.
  assert (Em : forall l, empty_line l -> inert l).
  { intros l [->| ->]; eexists; (split; [reflexivity|]); auto. }
  destruct m' as [|xi].
  { rewrite parse_app, inert_prefix; [reflexivity|]. eapply Forall_impl; [|exact F]. exact Em. }
  destruct F as [|l ins Hl F]; [reflexivity|]. cbn [app parse_lines].
  assert (St : forall l, empty_line l -> step inc (InXact xi) j' l = fin j' xi) by (intros k [->| ->]; reflexivity).
  rewrite St by exact Hl. unfold fin. 
  assert (G : forall j1, parse_lines inc Top j1 (ins ++ s2) = match s2 with [] => Ok j1 | _ :: r => parse_lines inc Top j1 r end).
  { intros j1. rewrite parse_app, inert_prefix; [|eapply Forall_impl; [|exact F]; exact Em]. cbn [bind].
    destruct H as [->|(k & r & -> & Hk)]; [reflexivity|]. cbn [parse_lines]. rewrite inert_step by (apply Em, Hk). reflexivity. }
  destruct H as [->|(k & r & -> & Hk)]; cbn [parse_lines].
  - destruct (finalize j' xi); cbn [bind]; auto.
  - rewrite St by exact Hk. unfold fin. destruct (finalize j' xi) as [j1| |]; cbn [bind]; auto.
Qed.

(** ** Texts *)
Lemma split_lines_acc_app t1 t2 acc :
  split_lines_acc acc (t1 ++ 10%N :: t2) = split_lines_acc acc (t1 ++ [10%N]) ++ split_lines_acc [] t2.
Proof.
  revert acc; induction t1 as [|c t1 IH]; intros acc; cbn [app split_lines_acc].
  - rewrite N.eqb_refl. reflexivity.
  - destruct (c =? 10)%N; [cbn; f_equal|]; apply IH.
Qed.
Lemma split_lines_app t1 t2 : complete_lines t1 -> split_lines (t1 ++ t2) = split_lines t1 ++ split_lines t2.
Proof.
  intros [->|(r & ->)]; [reflexivity|]. unfold split_lines. rewrite <- app_assoc. cbn [app]. apply split_lines_acc_app.
Qed.
Lemma text_source_app t1 t2 : complete_lines t1 -> text_source (t1 ++ t2) = text_source t1 ++ text_source t2.
Proof. intros H. unfold text_source. rewrite split_lines_app by exact H. apply map_app. Qed.
Lemma text_decodable t : decodable (text_source t).
Proof. unfold decodable, text_source. apply Forall_map, Forall_forall. discriminate. Qed.

(** ** More nesting changes nothing once the result is there *)
Definition below {A} (o o' : outcome A) : Prop := o <> Diverge -> o' = o.
Lemma below_refl {A} (o : outcome A) : below o o.
Proof. intros _. reflexivity. Qed.
Lemma below_bind {A B} (o o' : outcome A) (k k' : A -> outcome B) :
  below o o' -> (forall a, below (k a) (k' a)) -> below (bind o k) (bind o' k').
Proof.
  intros H K N. destruct o as [a|p|]; cbn in *; [| |congruence].
  - rewrite H by discriminate. cbn. apply K, N.
  - rewrite H by discriminate. reflexivity.
Qed.
Definition inc_below (inc inc' : str -> journal -> outcome journal) : Prop := forall arg j, below (inc arg j) (inc' arg j).
Lemma general_below inc inc' j l : inc_below inc inc' -> below (general_directive inc j l) (general_directive inc' j l).
Proof.
  intros H. rewrite !general_eq. destruct (fst (take_word l)) as [|c d]; [apply below_refl|].
  destruct (c =? 97)%N; [apply below_refl|]. destruct (c =? 105)%N; [|apply below_refl].
  destruct (str_eqb _ _); [|destruct (str_eqb _ _); apply below_refl].
  destruct (fst _); [apply below_refl|]. apply H.
Qed.
Lemma step_below inc inc' m j l : inc_below inc inc' -> below (step inc m j l) (step inc' m j l).
Proof.
  intros H. destruct m, l as [l|]; cbn [step]; try apply below_refl. unfold top_line.
  destruct (_ || _); [apply below_refl|]. destruct l as [|c r]; [apply below_refl|]. destruct (_ || _); [apply below_refl|].
  destruct (c =? 45)%N; [apply below_refl|]. destruct (is_digit c); [apply below_refl|]. destruct (_ || _); [apply below_refl|].
  apply below_bind; [apply general_below, H|]. intros. apply below_refl.
Qed.
Lemma parse_below inc inc' s : inc_below inc inc' -> forall m j, below (parse_lines inc m j s) (parse_lines inc' m j s).
Proof.
  intros H. induction s as [|l s IH]; intros m j; cbn [parse_lines]; [apply below_refl|].
  apply below_bind; [apply step_below, H|]. intros [m' j'|j']; [apply IH|apply below_refl].
Qed.
Lemma include_below d cwd fs : inc_below (include_file d cwd fs) (include_file (S d) cwd fs).
Proof.
  induction d as [|d IH]; intros arg j; [intros N; cbn in N; congruence|]. cbn [include_file].
  destruct (included cwd fs arg) as [[src|]| |]; cbn [bind]; try apply below_refl.
  apply (parse_below (include_file d cwd fs) (include_file (S d) cwd fs)). exact IH.
Qed.
Lemma read_below d cwd fs s j : below (read_into_journal d cwd fs s j) (read_into_journal (S d) cwd fs s j).
Proof. apply parse_below, include_below. Qed.

(** ** Include lines *)
Lemma word_include : word (lit "include").
Proof. split; [discriminate|reflexivity]. Qed.
Lemma include_line_arg l arg : include_line l arg ->
  fst (take_word l) = lit "include" /\ fst (take_word (snd (take_word l))) = arg.
Proof.
  intros (ws0 & ws1 & rest & -> & S0 & N1 & S1 & W & Hr).
  rewrite (take_word_app ws0 (lit "include") (ws1 ++ arg ++ rest) S0 word_include).
  - cbn [fst snd]. split; [reflexivity|]. rewrite take_word_app by assumption. reflexivity.
  - right. destruct ws1 as [|c ws1]; [congruence|]. cbn in S1. unfold spaces in S1. cbn in S1. apply andb_prop in S1 as [S1 _]. cbn. eauto.
Qed.
Lemma include_general inc j l arg : include_line l arg -> general_directive inc j l = inc arg j.
Proof.
  intros H. rewrite general_eq. destruct (include_line_arg l arg H) as [E1 E2]. rewrite E1, E2.
  destruct H as (_ & _ & _ & _ & _ & _ & _ & [N _] & _). destruct arg; [congruence|]. reflexivity.
Qed.
(** Include lines as they are normally written. *)
Definition plain_include (arg : str) : str := lit "include " ++ arg ++ [10%N].
Lemma plain_include_line arg : word arg -> include_line (plain_include arg) arg.
Proof.
  intros W. exists [], [32%N], [10%N]. split; [reflexivity|]. split; [reflexivity|]. split; [discriminate|].
  split; [reflexivity|]. split; [exact W|]. right. exists 10%N, []. auto.
Qed.
Lemma include_step inc j l arg : include_line l arg ->
  hd_error l = Some 105%N ->
  step inc Top j (Some l) = let* j' := inc arg j in Ok (Continue Top j').
Proof.
  intros H Hd. cbn [step]. destruct l as [|c r]; [discriminate|]. injection Hd as ->. unfold top_line.
  cbn [str_eqb]. change ((105 =? 13)%N) with false. change ((105 =? 10)%N) with false. cbn [andb orb].
  change ((105 =? 59) || (105 =? 35) || (105 =? 42) || (105 =? 124))%N with false. cbv iota.
  change (105 =? 45)%N with false. change (is_digit 105) with false. change ((105 =? 32) || (105 =? 9))%N with false. cbv iota.
  rewrite (include_general _ _ _ _ H). reflexivity.
Qed.

(** ** Which file is included *)
Lemma in_heads c : In c (lit "/\~") <-> c = 47%N \/ c = 92%N \/ c = 126%N.
Proof. change (lit "/\~") with [47%N; 92%N; 126%N]. cbn [In]. intuition. Qed.
Lemma resolve_absolute cwd c r : In c (lit "/\~") -> resolve cwd (c :: r) = c :: r.
Proof. rewrite in_heads. intros [->|[->| ->]]; reflexivity. Qed.
Lemma resolve_relative cwd arg : (forall c r, arg = c :: r -> ~ In c (lit "/\~")) -> resolve cwd arg = push_path cwd arg.
Proof.
  destruct arg as [|c r]; [reflexivity|]. intros H. specialize (H c r eq_refl). rewrite in_heads in H. unfold resolve.
  repeat match goal with |- match ?x with _ => _ end = _ => destruct x; try reflexivity end; exfalso; apply H; auto.
Qed.
Lemma push_cases dir name : (dir = [] /\ push_path dir name = name) \/ (exists d, dir = d ++ lit "/" /\ push_path dir name = dir ++ name)
  \/ (dir <> [] /\ (forall d, dir <> d ++ lit "/") /\ push_path dir name = dir ++ lit "/" ++ name).
Proof.
  destruct dir as [|c d] using rev_ind; [left; auto|]. clear IHd. right. unfold push_path. rewrite rev_app_distr. cbn [rev app].
  destruct (N.eq_dec c 47) as [->|N]; [left; exists d; auto|]. right. split; [destruct d; discriminate|]. split.
  - intros d' E. apply app_inj_tail in E. destruct E as [_ E]. exact (N E).
  - repeat match goal with |- match ?x with _ => _ end = _ => destruct x; try reflexivity end. congruence.
Qed.
Lemma names_resolve cwd arg p : names_file cwd arg p <-> p = resolve cwd arg.
Proof.
  split.
  - intros [c r -> Hc|H Ne N|d H E|H ->].
    + symmetry. apply resolve_absolute, Hc.
    + rewrite (resolve_relative _ _ H). destruct (push_cases cwd arg) as [[E _]|[(d & E & _)|(_ & _ & ->)]]; [contradiction|elim (N d E)|reflexivity].
    + rewrite (resolve_relative _ _ H). destruct (push_cases cwd arg) as [[E' _]|[(d' & E' & ->)|(_ & N & _)]]; [rewrite E in E'; destruct d; discriminate|reflexivity|elim (N d E)].
    + rewrite (resolve_relative _ _ H). reflexivity.
  - intros ->. assert (D : (exists c r, arg = c :: r /\ In c (lit "/\~")) \/ (forall c r, arg = c :: r -> ~ In c (lit "/\~"))).
    { destruct arg as [|c r]; [right; discriminate|]. destruct (in_dec N.eq_dec c (lit "/\~")) as [I|I]; [left; eauto|]. right. intros c' r' E. congruence. }
    destruct D as [(c & r & -> & I)|D].
    + rewrite (resolve_absolute _ _ _ I). eapply nf_absolute; [reflexivity|exact I].
    + rewrite (resolve_relative _ _ D). destruct (push_cases cwd arg) as [[E ->]|[(d & E & ->)|(Ne & N & ->)]].
      * apply nf_nowhere; assumption.
      * eapply nf_root; eassumption.
      * apply nf_relative; assumption.
Qed.
Lemma path_parts_app d n : path_parts (d ++ 47%N :: n) = path_parts d ++ path_parts n.
Proof.
  induction d as [|c d IH]; [reflexivity|]. cbn [app path_parts]. rewrite IH. destruct (c =? 47)%N; [reflexivity|].
  destruct (path_parts d) as [|q qs] eqn:E; [|reflexivity]. destruct d as [|x d]; cbn in E; [discriminate|]. destruct (x =? 47)%N; [discriminate|]. destruct (path_parts d); discriminate.
Qed.
Lemma path_parts_one n : ~ In 47%N n -> path_parts n = [n].
Proof.
  induction n as [|c n IH]; [reflexivity|]. intros H. cbn [path_parts]. rewrite IH by (intros X; apply H; right; exact X).
  replace (c =? 47)%N with false; [reflexivity|]. symmetry. apply N.eqb_neq. intros ->. apply H. left. reflexivity.
Qed.
Lemma path_parts_head p : exists q qs, path_parts p = q :: qs /\ (q = [] -> p = [] \/ hd_error p = Some 47%N).
Proof.
  destruct p as [|c p]; [exists [], []; split; [reflexivity|left; reflexivity]|]. cbn [path_parts]. destruct (c =? 47)%N eqn:E.
  - apply N.eqb_eq in E. subst c. eexists _, _. split; [reflexivity|]. intros _. right. reflexivity.
  - destruct (path_parts p); eexists _, _; (split; [reflexivity|discriminate]).
Qed.
Lemma included_file cwd fs arg p : names_file cwd arg p -> file_path p -> included cwd fs arg = Ok (fs p).
Proof.
  rewrite names_resolve. intros -> (dir & name & E & Ne & Nd & Ns). unfold included. change (lit "/" ++ name) with (47%N :: name) in E. rewrite E.
  unfold path_components. rewrite path_parts_app, (path_parts_one _ Ns). destruct (path_parts_head dir) as (q & qs & -> & Hq). cbn [app].
  rewrite filter_app. cbn [filter].
  assert (X : negb (is_empty name) && negb (str_eqb name (lit ".")) = true).
  { destruct name; [congruence|]. cbn [is_empty negb andb]. apply negb_true_iff. apply str_eqb_neq, Nd. }
  rewrite X. destruct q as [|c q]; cbn [is_empty].
  - cbn [app]. assert (H : exists t, dir ++ 47%N :: name = 47%N :: t).
    { destruct (Hq eq_refl) as [->|Hd]; [eexists; reflexivity|]. destruct dir as [|x d]; [discriminate|]. injection Hd as ->. eexists. reflexivity. }
    destruct H as (t & ->). destruct (filter _ qs) as [|a [|b l]]; reflexivity.
  - cbn [app]. destruct (filter _ qs) as [|a l]; reflexivity.
Qed.
Lemma included_some cwd fs arg src : included cwd fs arg = Ok (Some src) -> fs (resolve cwd arg) = Some src.
Proof.
  unfold included. destruct (path_components _) as [|a [|b l]]; [discriminate| |congruence].
  repeat match goal with |- match ?x with _ => _ end = _ -> _ => destruct x; try discriminate end; congruence.
Qed.
Lemma included_ends cwd fs arg : included cwd fs arg <> Diverge.
Proof.
  unfold included. destruct (path_components _) as [|a [|b l]]; try discriminate.
  repeat match goal with |- match ?x with _ => _ end <> _ => destruct x; try discriminate end.
Qed.
Lemma included_ext cwd fs fs' arg : fs (resolve cwd arg) = fs' (resolve cwd arg) -> included cwd fs arg = included cwd fs' arg.
Proof. unfold included. intros ->. reflexivity. Qed.

(** ** Including is reading in place *)
Lemma include_inline d cwd fs s1 s2 j l arg path contents e :
  inside s1 = false -> include_line l arg -> hd_error l = Some 105%N -> names_file cwd arg path -> file_path path -> fs path = Some contents -> decodable contents ->
  empty_line e ->
  below (read_into_journal (S d) cwd fs (s1 ++ Some l :: s2) j) (read_into_journal (S d) cwd fs (s1 ++ contents ++ e :: s2) j)
  /\ below (read_into_journal d cwd fs (s1 ++ contents ++ e :: s2) j) (read_into_journal (S d) cwd fs (s1 ++ Some l :: s2) j).
Proof.
  intros I Hl Hd Nf Fp Fs D He. apply (included_file _ fs) in Nf; [|exact Fp]. rewrite Fs in Nf. unfold read_into_journal.
  assert (P : forall d s2 j, parse_lines (include_file d cwd fs) Top j (contents ++ e :: s2)
                        = let* j' := parse_lines (include_file d cwd fs) Top j contents in parse_lines (include_file d cwd fs) Top j' s2).
  { intros d0 s j0. exact (read_app_blank d0 cwd fs contents s j0 e D He). }
  assert (PL : forall j, parse_lines (include_file (S d) cwd fs) Top j (Some l :: s2)
     = let* j' := parse_lines (include_file d cwd fs) Top j contents in parse_lines (include_file (S d) cwd fs) Top j' s2).
  { intros j0. cbn [parse_lines]. rewrite (include_step _ _ _ _ Hl Hd). cbn [include_file]. rewrite Nf. cbn [bind].
    destruct (parse_lines (include_file d cwd fs) Top j0 contents); reflexivity. }
  assert (Top1 : forall dd n, prefix (include_file dd cwd fs) Top j s1 = Ok n -> match n with Continue m _ => m = Top | Stop _ => True end).
  { intros dd [m j'|j'] E; [|exact Logic.I]. apply prefix_mode in E. cbn in E. fold (inside s1) in E. rewrite I in E. destruct m; [reflexivity|discriminate]. }
  split.
  - rewrite !parse_app. destruct (prefix (include_file (S d) cwd fs) Top j s1) as [[m j'|j']| |] eqn:E; cbn [bind]; try apply below_refl.
    apply Top1 in E. cbn in E. subst m. rewrite PL, P. apply below_bind; [apply parse_below, include_below|]. intros. apply below_refl.
  - intros N. pose proof (read_below d cwd fs (s1 ++ contents ++ e :: s2) j N) as RB. unfold read_into_journal in RB.
    rewrite <- RB. rewrite !parse_app in *.
    destruct (prefix (include_file d cwd fs) Top j s1) as [n| |] eqn:E0; cbn [bind] in N; [| |congruence].
    + assert (E1 : prefix (include_file (S d) cwd fs) Top j s1 = Ok n).
      { assert (G : forall s m j n, prefix (include_file d cwd fs) m j s = Ok n -> prefix (include_file (S d) cwd fs) m j s = Ok n).
        { clear. induction s as [|l s IH]; intros m j n H; cbn [prefix] in *; [exact H|].
          destruct (step (include_file d cwd fs) m j l) as [[m1 j1|j1]| |] eqn:E; cbn [bind] in H; try discriminate;
            (rewrite (step_below _ _ m j l (include_below d cwd fs)); rewrite E; [|discriminate]); cbn [bind]; auto. }
        apply G, E0. }
      rewrite E1 in *. cbn [bind] in *. pose proof (Top1 _ _ E1) as T. destruct n as [m j'|j']; [subst m|reflexivity].
      rewrite PL, P. rewrite P in N.
      destruct (parse_lines (include_file d cwd fs) Top j' contents) as [j1| |] eqn:E2; cbn [bind] in *; [| |congruence].
      * assert (parse_lines (include_file (S d) cwd fs) Top j' contents = Ok j1) as ->; [|reflexivity].
        rewrite <- E2. apply (parse_below _ _ contents (include_below d cwd fs)). rewrite E2. discriminate.
      * assert (parse_lines (include_file (S d) cwd fs) Top j' contents = Panic p) as ->; [|reflexivity].
        rewrite <- E2. apply (parse_below _ _ contents (include_below d cwd fs)). rewrite E2. discriminate.
    + assert (G : forall s m j p, prefix (include_file d cwd fs) m j s = Panic p -> prefix (include_file (S d) cwd fs) m j s = Panic p).
      { clear. induction s as [|l s IH]; intros m j p H; cbn [prefix] in *; [discriminate|].
        destruct (step (include_file d cwd fs) m j l) as [[m1 j1|j1]| |] eqn:E; cbn [bind] in H; try discriminate;
          (rewrite (step_below _ _ m j l (include_below d cwd fs)); rewrite E; [|discriminate]); cbn [bind]; auto. }
      rewrite (G _ _ _ _ E0). reflexivity.
Qed.
Lemma include_missing d cwd fs s1 s2 j l arg p :
  inside s1 = false -> include_line l arg -> hd_error l = Some 105%N -> names_file cwd arg p -> file_path p -> fs p = None ->
  read_into_journal (S d) cwd fs (s1 ++ Some l :: s2) j = read_into_journal (S d) cwd fs (s1 ++ s2) j.
Proof.
  intros I Hl Hd Nf Fp Fs. apply (included_file _ fs) in Nf; [|exact Fp]. rewrite Fs in Nf. unfold read_into_journal. rewrite !parse_app.
  destruct (prefix (include_file (S d) cwd fs) Top j s1) as [[m j'|j']| |] eqn:E; cbn [bind]; try reflexivity.
  apply prefix_mode in E. cbn in E. fold (inside s1) in E. rewrite I in E. destruct m; [|discriminate].
  cbn [parse_lines]. rewrite (include_step _ _ _ _ Hl Hd). cbn [include_file]. rewrite Nf. reflexivity.
Qed.

(** A name that starts with a tilde or a backslash and has no directory is ignored even if there is such a file. *)
Lemma include_bare d cwd fs s1 s2 j l c r :
  inside s1 = false -> include_line l (c :: r) -> hd_error l = Some 105%N -> In c (lit "\~") -> ~ In 47%N r ->
  read_into_journal (S d) cwd fs (s1 ++ Some l :: s2) j = read_into_journal (S d) cwd fs (s1 ++ s2) j.
Proof.
  intros I Hl Hd Hc Hr. assert (Nf : included cwd fs (c :: r) = Ok None).
  { assert (Hc' : c = 92%N \/ c = 126%N). { change (lit "\~") with [92%N; 126%N] in Hc. destruct Hc as [<-|[<-|[]]]; auto. }
    unfold included. rewrite resolve_absolute by (apply in_heads; tauto). unfold path_components. rewrite path_parts_one.
    - destruct Hc' as [-> | ->]; reflexivity.
    - intros [H|H]; [destruct Hc'; subst; discriminate|exact (Hr H)]. }
  unfold read_into_journal. rewrite !parse_app.
  destruct (prefix (include_file (S d) cwd fs) Top j s1) as [[m j'|j']| |] eqn:E; cbn [bind]; try reflexivity.
  apply prefix_mode in E. cbn in E. fold (inside s1) in E. rewrite I in E. destruct m; [|discriminate].
  cbn [parse_lines]. rewrite (include_step _ _ _ _ Hl Hd). cbn [include_file]. rewrite Nf. reflexivity.
Qed.
(** Including the root directory panics. *)
Lemma include_root d cwd fs s1 s2 j j' l :
  inside s1 = false -> include_line l (lit "/") -> hd_error l = Some 105%N -> decodable s1 -> read_into_journal (S d) cwd fs s1 j = Ok j' ->
  read_into_journal (S d) cwd fs (s1 ++ Some l :: s2) j = Panic PUnwrap.
Proof.
  intros I Hl Hd D R. rewrite read_app by assumption. rewrite R. unfold read_into_journal. cbn [bind parse_lines]. rewrite (include_step _ _ _ _ Hl Hd). reflexivity.
Qed.

(** ** Undecodable lines *)
Lemma undecodable_top depth cwd fs s1 s2 j :
  decodable s1 -> inside s1 = false ->
  read_into_journal depth cwd fs (s1 ++ None :: s2) j = read_into_journal depth cwd fs s1 j.
Proof.
  intros D I. rewrite read_app by assumption. unfold read_into_journal at 2. cbn [parse_lines step bind].
  destruct (read_into_journal depth cwd fs s1 j); reflexivity.
Qed.
Lemma undecodable_inside depth cwd fs s1 s2 j :
  decodable s1 -> inside s1 = true ->
  read_into_journal depth cwd fs (s1 ++ None :: s2) j = read_into_journal depth cwd fs (s1 ++ Some [10%N] :: s2) j.
Proof.
  intros D I. unfold read_into_journal. rewrite !parse_app. destruct (prefix _ Top j s1) as [[m j'|j']| |] eqn:E; cbn [bind]; try reflexivity.
  apply prefix_mode in E. cbn in E. fold (inside s1) in E. rewrite I in E. destruct m; [discriminate|]. reflexivity.
Qed.
