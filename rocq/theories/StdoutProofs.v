(** The printed text can be read back. *)
From Coq Require Import String List NArith ZArith Bool Lia.
From Verif Require Import Base Journal Parser Options Lib Stdout SpecStdout.
From Verif Require Import SpecReading BaseFacts.
From Verif Require ReadingFacts.
Import ListNotations.
Open Scope N_scope.

(** ** Hexadecimal numbers *)
Definition hex_value (c : N) : N := if c <? 58 then c - 48 else c - 87.
Definition hex_char (c : N) : bool := ((48 <=? c) && (c <=? 57)) || ((97 <=? c) && (c <=? 102)).
Lemma hex_digit_value d : d < 16 -> hex_value (hex_digit d) = d /\ hex_char (hex_digit d) = true.
Proof.
  intros H. assert (K : forall k, (k < 16)%nat -> hex_value (hex_digit (N.of_nat k)) = N.of_nat k /\ hex_char (hex_digit (N.of_nat k)) = true).
  { intros k Hk. do 16 (destruct k as [|k]; [split; reflexivity|]). lia. }
  rewrite <- (N2Nat.id d). apply K. lia.
Qed.
Definition unhex (s : str) : N := fold_left (fun n c => 16 * n + hex_value c) s 0.
Lemma hex_spec fuel : forall n, N.log2 n < N.of_nat fuel -> unhex (hex fuel n) = n /\ forallb hex_char (hex fuel n) = true.
Proof.
  induction fuel as [|k IH]; intros n H; [lia|]. cbn [hex]. assert (M : n mod 16 < 16) by (apply N.mod_lt; discriminate).
  destruct (hex_digit_value _ M) as [V C]. unfold unhex. rewrite fold_left_app, forallb_app. cbn [fold_left forallb]. rewrite V, C.
  destruct (N.ltb_spec n 16) as [L|L].
  - cbn. rewrite N.mod_small by exact L. split; [lia|reflexivity].
  - assert (K : N.log2 (n / 16) < N.of_nat k).
    { change 16 with (2 ^ 4). rewrite <- N.shiftr_div_pow2, N.log2_shiftr. assert (4 <= N.log2 n) by (change 4 with (N.log2 16); apply N.log2_le_mono, L). lia. }
    destruct (IH _ K) as [E F]. unfold unhex in E. rewrite E, F. split; [|reflexivity]. rewrite <- N.div_mod by discriminate. reflexivity.
Qed.
Lemma hex_of_spec n : unhex (hex_of n) = n /\ forallb hex_char (hex_of n) = true.
Proof. apply hex_spec. lia. Qed.
Lemma span_unique {A} (p : A -> bool) x x' c c' r r' : forallb p x = true -> forallb p x' = true -> p c = false -> p c' = false ->
  x ++ c :: r = x' ++ c' :: r' -> x = x' /\ c = c' /\ r = r'.
Proof.
  revert x'. induction x as [|a x IH]; intros [|b x'] F F' C C' E; cbn in *.
  - injection E as -> ->. auto.
  - injection E as -> _. rewrite C in F'. discriminate.
  - injection E as <- _. rewrite C' in F. discriminate.
  - injection E as -> E. apply andb_prop in F as [_ F], F' as [_ F']. destruct (IH x' F F' C C' E) as (-> & -> & ->). auto.
Qed.

(** ** Characters: no code is the beginning of another one *)
Section Plain.
Context (plain : N -> bool).
Inductive code : N -> str -> Prop :=
| co_short c d : In (c, d) [(0, 48); (9, 116); (13, 114); (10, 110); (92, 92); (34, 34)] -> code c [92; d]
| co_plain c : c <> 92 -> c <> 34 -> 32 <= c -> c <> 127 -> code c [c]
| co_hex c : code c ([92; 117; 123] ++ hex_of c ++ [125]).
Lemma debug_char_code c : code c (debug_char plain c).
Proof.
  unfold debug_char. repeat match goal with |- code _ (if ?c =? ?k then _ else _) => destruct (N.eqb_spec c k); [subst; apply co_short; cbn; tauto|] end.
  destruct (N.ltb_spec c 128).
  - destruct (N.leb_spec 32 c), (N.ltb_spec c 127); cbn [andb]; try exact (co_hex c). apply co_plain; try assumption. lia.
  - destruct (plain c); [apply co_plain; try assumption; lia|exact (co_hex c)].
Qed.
Lemma code_first c t : code c t -> exists d r, t = d :: r /\ d <> 34 /\ (32 <= d).
Proof. intros [x d H|x A B C D|x]; eexists _, _; (split; [reflexivity|]); split; try lia; try discriminate; assumption. Qed.
Lemma code_unique c c' t t' r r' : code c t -> code c' t' -> t ++ r = t' ++ r' -> c = c' /\ r = r'.
Proof.
  intros H H'. destruct H as [c d H|c A B C D|c], H' as [c' d' H'|c' A' B' C' D'|c']; cbn [app]; intros E.
  - injection E as -> ->. split; [|reflexivity]. cbn in H, H'. intuition congruence.
  - injection E as <- _. contradiction.
  - injection E as -> _. cbn in H. intuition congruence.
  - injection E as -> _. contradiction.
  - injection E as -> ->. auto.
  - injection E as -> _. contradiction.
  - injection E as <- _. cbn in H'. intuition congruence.
  - injection E as <- _. contradiction.
  - injection E as E. rewrite <- !app_assoc in E. cbn [app] in E. destruct (hex_of_spec c) as [V F], (hex_of_spec c') as [V' F'].
    apply (span_unique hex_char) in E; [|assumption|assumption|reflexivity|reflexivity]. destruct E as (E & _ & ->). split; [|reflexivity]. rewrite <- V, <- V', E. reflexivity.
Qed.
Lemma text_unique s : forall s' r r', flat_map (debug_char plain) s ++ 34 :: r = flat_map (debug_char plain) s' ++ 34 :: r' -> s = s' /\ r = r'.
Proof.
  induction s as [|c s IH]; intros [|c' s'] r r' E; cbn [flat_map app] in E.
  - injection E as ->. auto.
  - destruct (code_first _ _ (debug_char_code c')) as (d & x & Ed & N & _). rewrite Ed in E. cbn in E. injection E as <- _. contradiction.
  - destruct (code_first _ _ (debug_char_code c)) as (d & x & Ed & N & _). rewrite Ed in E. cbn in E. injection E as -> _. contradiction.
  - rewrite <- !app_assoc in E. destruct (code_unique _ _ _ _ _ _ (debug_char_code c) (debug_char_code c') E) as [-> E']. destruct (IH _ _ _ E') as [-> ->]. auto.
Qed.
Lemma str_unique s s' r r' : debug_str plain s ++ r = debug_str plain s' ++ r' -> s = s' /\ r = r'.
Proof.
  unfold debug_str. cbn [app]. intros E. injection E as E. rewrite <- !app_assoc in E. cbn [app] in E. apply text_unique, E.
Qed.
Lemma items_unique l : forall l' r r', debug_items plain l ++ 93 :: r = debug_items plain l' ++ 93 :: r' -> l = l' /\ r = r'.
Proof.
  assert (Q : forall s (l : list str), exists x, debug_items plain (s :: l) = 34 :: x).
  { intros s [|t m]; cbn [debug_items]; unfold debug_str; cbn [app]; eexists; reflexivity. }
  assert (S : forall s (l : list str), debug_items plain (s :: l) = debug_str plain s ++ match l with [] => [] | _ => [44; 32] ++ debug_items plain l end).
  { intros s [|t m]; cbn [debug_items]; [rewrite app_nil_r; reflexivity|reflexivity]. }
  induction l as [|s l IH]; intros [|s' l'] r r' E.
  - injection E as ->. auto.
  - destruct (Q s' l') as [x Ex]. rewrite Ex in E. discriminate.
  - destruct (Q s l) as [x Ex]. rewrite Ex in E. discriminate.
  - rewrite !S, <- !app_assoc in E. apply str_unique in E as [-> E]. destruct l as [|t l], l' as [|t' l'].
    + injection E as ->. auto.
    + discriminate.
    + discriminate.
    + cbn [app] in E. injection E as E. destruct (IH (t' :: l') r r' E) as [Hl ->]. rewrite Hl. auto.
Qed.
Lemma list_unique l l' r r' : debug_list plain l ++ r = debug_list plain l' ++ r' -> l = l' /\ r = r'.
Proof.
  unfold debug_list. change (lit "[") with [91]. change (lit "]") with [93]. cbn [app]. intros E. injection E as E. rewrite <- !app_assoc in E. cbn [app] in E. apply items_unique, E.
Qed.

(** ** One line *)
Ltac vis := repeat (constructor; [split; [lia|discriminate]|]); try constructor.
Lemma hex_visible s : forallb hex_char s = true -> Forall visible s.
Proof.
  intros H. apply Forall_forall. intros c I. rewrite forallb_forall in H. specialize (H c I). unfold hex_char in H. apply orb_prop in H as [H|H]; apply andb_prop in H as [A B]; apply N.leb_le in A, B; unfold visible; lia.
Qed.
Lemma code_visible c t : code c t -> Forall visible t.
Proof.
  intros [x d H|x A B C D|x].
  - repeat constructor; try (unfold visible; lia). all: cbn in H; unfold visible; intuition (try congruence); match goal with H : (_, _) = (_, _) |- _ => injection H as _ <-; try lia end.
  - repeat constructor; assumption.
  - cbn [app]. repeat (constructor; [split; [lia|discriminate]|]). apply Forall_app. split; [apply hex_visible, hex_of_spec|]. vis.
Qed.
Lemma str_visible s : Forall visible (debug_str plain s).
Proof.
  unfold debug_str. cbn [app]. constructor; [split; [lia|discriminate]|]. apply Forall_app. split; [|vis].
  induction s as [|c s IH]; [constructor|]. cbn [flat_map]. apply Forall_app. split; [eapply code_visible, debug_char_code|exact IH].
Qed.
Lemma list_visible l : Forall visible (debug_list plain l).
Proof.
  unfold debug_list. change (lit "[") with [91]. change (lit "]") with [93]. cbn [app]. constructor; [split; [lia|discriminate]|]. apply Forall_app. split; [|vis].
  induction l as [|s [|t l] IH]; [constructor|apply str_visible|]. cbn [debug_items] in *. apply Forall_app. split; [apply str_visible|]. change (lit ", ") with [44; 32]. cbn [app]. repeat (constructor; [split; [lia|discriminate]|]). exact IH.
Qed.

(** ** Ordinary text is printed as it is *)
Lemma ordinary_char c : ordinary c -> debug_char plain c = [c].
Proof.
  intros (A & B & C & D). unfold debug_char.
  repeat match goal with |- (if ?c =? ?k then _ else _) = _ => destruct (N.eqb_spec c k); [lia|] end.
  destruct (N.ltb_spec c 128); [|lia]. destruct (N.leb_spec 32 c), (N.ltb_spec c 127); try lia. reflexivity.
Qed.
Lemma ordinary_str s : Forall ordinary s -> debug_str plain s = [34] ++ s ++ [34].
Proof. intros F. unfold debug_str. f_equal. f_equal. induction F as [|c s H F IH]; [reflexivity|]. cbn [flat_map]. rewrite IH, ordinary_char by exact H. reflexivity. Qed.
Lemma ordinary_list l : Forall (Forall ordinary) l -> debug_list plain l = in_quotes l.
Proof.
  intros F. unfold debug_list, in_quotes. f_equal. f_equal. induction F as [|s l H F IH]; [reflexivity|]. destruct l as [|t l]; cbn [debug_items separated map] in *; rewrite ordinary_str by exact H; [reflexivity|].
  f_equal. f_equal. exact IH.
Qed.

(** ** The program *)
Context (invalid : str).
Definition asked (args : list str) : str := lit "Hello, Ledger-rs!" ++ [10] ++ lit "You requested " ++ debug_list plain args ++ [10].
Definition message : str := lit "Error: " ++ invalid ++ [10].
Definition messages (n : nat) : str := concat (repeat message n).
Definition answered (o : outcome (list str)) : str := match o with Ok out => debug_list plain out ++ [10] | _ => [] end.
Lemma prints_eq depth cwd fs a args : main_prints plain invalid depth cwd fs (a :: args) =
  (asked (a :: args) ++ messages (run_errors depth cwd fs (a :: args)) ++ answered (run depth cwd fs (a :: args)), let* _ := run depth cwd fs (a :: args) in Ok tt).
Proof.
  unfold main_prints, asked, answered, messages, message, println. rewrite <- (app_assoc (lit "Error: ")). repeat rewrite <- app_assoc.
  destruct (run depth cwd fs (a :: args)); cbn [bind]; repeat rewrite <- app_assoc; rewrite ?app_nil_r; reflexivity.
Qed.
Lemma prints_none depth cwd fs : main_prints plain invalid depth cwd fs [] = (asked [], Panic PExplicit).
Proof. unfold main_prints, asked, println. repeat rewrite <- app_assoc. reflexivity. Qed.
Lemma asked_unique args args' r r' : asked args ++ r = asked args' ++ r' -> args = args' /\ r = r'.
Proof.
  unfold asked. intros E. repeat rewrite <- app_assoc in E. apply app_inv_head in E. apply app_inv_head in E. apply app_inv_head in E.
  apply list_unique in E as [-> E]. apply app_inv_head in E. auto.
Qed.
Lemma messages_unique n n' o o' : messages n ++ answered o = messages n' ++ answered o' -> n = n' /\ answered o = answered o'.
Proof.
  assert (W : forall k o r, answered o <> messages (S k) ++ r).
  { intros k [l|p|] r; cbn; discriminate. }
  revert n'. induction n as [|n IH]; intros [|n'] E.
  - auto.
  - apply W in E as [].
  - symmetry in E. apply W in E as [].
  - unfold messages in E. cbn [repeat concat] in E. rewrite <- !app_assoc in E. apply app_inv_head in E. apply IH in E as [-> E]. auto.
Qed.
Theorem prints_determined depth cwd fs args depth' cwd' fs' args' :
  fst (main_prints plain invalid depth cwd fs args) = fst (main_prints plain invalid depth' cwd' fs' args') ->
  args = args' /\ (args <> [] -> run_errors depth cwd fs args = run_errors depth' cwd' fs' args'
    /\ forall out, run depth cwd fs args = Ok out <-> run depth' cwd' fs' args' = Ok out).
Proof.
  assert (P : forall d c f a, exists n o, fst (main_prints plain invalid d c f a) = asked a ++ messages n ++ answered o /\ (a <> [] -> n = run_errors d c f a /\ o = run d c f a)).
  { intros d c f [|x a]; [rewrite prints_none; exists 0%nat, Diverge; cbn; split; [reflexivity|congruence]|]. rewrite prints_eq. eexists _, _. split; [reflexivity|]. auto. }
  destruct (P depth cwd fs args) as (n & o & -> & H), (P depth' cwd' fs' args') as (n' & o' & -> & H'). intros E. apply asked_unique in E as [<- E]. split; [reflexivity|].
  intros N. destruct (H N) as [<- <-], (H' N) as [<- <-]. clear -E. apply messages_unique in E as [<- E]. split; [reflexivity|]. intros out. unfold answered in E.
  destruct o as [l| |], o' as [l'| |]; try (split; discriminate); try (unfold debug_list in E; cbn in E; discriminate).
  apply list_unique in E as [-> _]. reflexivity.
Qed.
Theorem prints_lines depth cwd fs args : exists a r,
  fst (main_prints plain invalid depth cwd fs args) = lit "Hello, Ledger-rs!" ++ [10] ++ lit "You requested " ++ a ++ [10]
    ++ concat (map (fun l => l ++ [10]) (repeat (lit "Error: " ++ invalid) (match args with [] => 0%nat | _ => run_errors depth cwd fs args end) ++ r))
  /\ Forall visible a /\ Forall (Forall visible) r /\ (length r <= 1)%nat
  /\ (length r = 1%nat <-> snd (main_prints plain invalid depth cwd fs args) = Ok tt).
Proof.
  destruct args as [|x args].
  - rewrite prints_none. exists (debug_list plain []), []. cbn [fst snd]. split; [reflexivity|]. split; [apply list_visible|]. split; [constructor|]. split; [cbn; lia|]. split; discriminate.
  - rewrite prints_eq. cbn [fst snd]. unfold asked, answered.
    assert (M : forall n r, concat (map (fun l => l ++ [10]) (repeat (lit "Error: " ++ invalid) n ++ r)) = messages n ++ concat (map (fun l => l ++ [10]) r)).
    { intros n r. rewrite map_app, concat_app. f_equal. unfold messages, message. induction n as [|n IH]; [reflexivity|]. cbn [repeat map concat]. rewrite IH. reflexivity. }
    destruct (run depth cwd fs (x :: args)) as [out|p|].
    + exists (debug_list plain (x :: args)), [debug_list plain out]. rewrite M. cbn [map concat bind]. repeat rewrite <- app_assoc. rewrite app_nil_r. split; [reflexivity|].
      split; [apply list_visible|]. split; [constructor; [apply list_visible|constructor]|]. split; [cbn; lia|]. split; reflexivity.
    + exists (debug_list plain (x :: args)), []. rewrite M. repeat rewrite <- app_assoc. split; [reflexivity|]. split; [apply list_visible|]. split; [constructor|]. split; [cbn; lia|]. split; discriminate.
    + exists (debug_list plain (x :: args)), []. rewrite M. repeat rewrite <- app_assoc. split; [reflexivity|]. split; [apply list_visible|]. split; [constructor|]. split; [cbn; lia|]. split; discriminate.
Qed.
Theorem prints_ordinary depth cwd fs args out : args <> [] -> run depth cwd fs args = Ok out -> run_errors depth cwd fs args = 0%nat -> Forall (Forall ordinary) args -> Forall (Forall ordinary) out ->
  main_prints plain invalid depth cwd fs args = (lit "Hello, Ledger-rs!" ++ [10] ++ lit "You requested " ++ in_quotes args ++ [10] ++ in_quotes out ++ [10], Ok tt).
Proof.
  intros N R Z A O. destruct args as [|x args]; [contradiction|]. rewrite prints_eq, R, Z. unfold asked, answered, messages. cbn [repeat concat]. rewrite !ordinary_list by assumption. repeat rewrite <- app_assoc. reflexivity.
Qed.
End Plain.

(** ** When messages are printed *)
Lemma word_empty s : fst (take_word s) = [] -> forall c r, s = c :: r -> is_ws c = true.
Proof. intros H c r ->. destruct (is_ws c) eqn:E; [reflexivity|]. unfold take_word, trim_start in H. cbn [drop_while] in H. rewrite E in H. cbn [find_char] in H. rewrite E in H. destruct (find_char is_ws r); discriminate. Qed.
(** Include lines are read by [inc], other lines do not use it. *)
Lemma top_argument line : match include_argument line with
  | Some arg => forall inc j, top_line inc j line = let* j' := inc arg j in Ok (Continue Top j')
  | None => forall inc inc' j, top_line inc j line = top_line inc' j line
  end.
Proof.
  unfold include_argument, top_line. destruct line as [|c l]; [reflexivity|]. set (line := c :: l).
  destruct (str_eqb line [13; 10] || str_eqb line [10]); cbn [orb]; [intros; reflexivity|].
  destruct ((c =? 59) || (c =? 35) || (c =? 42) || (c =? 124)); cbn [orb]; [intros; reflexivity|].
  destruct (c =? 45); cbn [orb]; [intros; reflexivity|]. destruct (is_digit c); cbn [orb]; [intros; reflexivity|].
  destruct ((c =? 32) || (c =? 9)); cbn [orb]; [intros; reflexivity|].
  assert (G := fun inc j => ReadingFacts.general_eq inc j line). destruct (take_word line) as [d r]. cbn [fst snd] in G. destruct (str_eqb d (lit "include")) eqn:E.
  - apply str_eqb_eq in E as ->. cbn in G. destruct (fst (take_word r)) as [|a s]; intros; rewrite !G; reflexivity.
  - intros inc inc' j. rewrite !G. destruct d as [|e d]; [reflexivity|]. rewrite E. reflexivity.
Qed.
Definition other_where_bad (fs fs' : filesystem) : Prop := forall p, fs' p = fs p \/ exists s, fs p = Some s /\ ~ decodable s.
Lemma lines_silent inc inc' ie src : (forall a j j', inc a j = Ok j' -> ie a j = 0%nat -> inc' a j = Ok j') ->
  forall m j j', parse_lines inc m j src = Ok j' -> lines_errors inc ie m j src = 0%nat -> decodable src /\ parse_lines inc' m j src = Ok j'.
Proof.
  intros HI. induction src as [|l src IH]; intros m j j' H Z; [split; [constructor|exact H]|].
  cbn [parse_lines lines_errors] in *. apply Nat.eq_add_0 in Z as [Z1 Z2]. destruct l as [line|]; [|discriminate].
  destruct (step inc m j (Some line)) as [n| |] eqn:S; cbn [bind] in H; try discriminate.
  assert (S' : step inc' m j (Some line) = Ok n).
  { destruct m as [|xi]; cbn [step] in *; [|exact S]. pose proof (top_argument line) as T. destruct (include_argument line) as [a|].
    - rewrite T in S |- *. destruct (inc a j) as [j1| |] eqn:I; cbn [bind] in S; try discriminate. rewrite (HI _ _ _ I Z1). exact S.
    - rewrite <- (T inc inc'). exact S. }
  rewrite S'. cbn [bind]. destruct n as [m1 j1|j1].
  - destruct (IH _ _ _ H Z2) as [D P]. split; [constructor; [discriminate|exact D]|exact P].
  - exfalso. destruct m as [|xi]; cbn [step] in S.
    + unfold top_line in S. repeat match type of S with (if ?b then _ else _) = _ => destruct b | match ?x with _ => _ end = _ => destruct x end; try discriminate;
        unfold bind in S; match type of S with match ?x with _ => _ end = _ => destruct x; discriminate end.
    + unfold xact_line in S. clear -S. repeat match type of S with match ?x with _ => _ end = _ => destruct x end; try discriminate;
        unfold bind in S; match type of S with match ?x with _ => _ end = _ => destruct x; discriminate end.
Qed.
Lemma include_silent depth cwd fs fs' : other_where_bad fs fs' -> forall a j j', include_file depth cwd fs a j = Ok j' -> include_errors depth cwd fs a j = 0%nat -> include_file depth cwd fs' a j = Ok j'.
Proof.
  intros B. induction depth as [|d IH]; intros a j j' H Z; [discriminate|]. cbn [include_file include_errors] in *.
  assert (I : included cwd fs' a = included cwd fs a \/ exists s, included cwd fs a = Ok (Some s) /\ ~ decodable s).
  { unfold included. destruct (path_components (resolve cwd a)) as [|x [|y l]].
    - left; reflexivity.
    - destruct (resolve cwd a) as [|c p] eqn:R; [left; reflexivity|]. destruct (N.eq_dec c 47) as [->|N].
      + destruct (B (47 :: p)) as [E|(s & E & F)]; [left; rewrite E; reflexivity|right; exists s; rewrite E; auto].
      + left. destruct c as [|c]; [reflexivity|]. repeat (destruct c as [c|c|]; try reflexivity). congruence.
    - destruct (B (resolve cwd a)) as [E|(s & E & F)]; [left; rewrite E; reflexivity|right; exists s; rewrite E; auto]. }
  destruct I as [->|(s & I & F)].
  - destruct (included cwd fs a) as [[src|]|p|]; cbn [bind] in *; try exact H. eapply lines_silent; [exact IH|exact H|exact Z].
  - rewrite I in H, Z. cbn [bind] in H. exfalso. apply F. eapply lines_silent; [exact IH|exact H|exact Z].
Qed.
Theorem read_silent depth cwd fs fs' src j j' : read_into_journal depth cwd fs src j = Ok j' -> read_errors depth cwd fs src j = 0%nat -> other_where_bad fs fs' ->
  decodable src /\ read_into_journal depth cwd fs' src j = Ok j'.
Proof. intros H Z B. eapply lines_silent; [|exact H|exact Z]. apply include_silent, B. Qed.
Lemma lines_decodable inc ie src : (forall a j, ie a j = 0%nat) -> decodable src -> forall m j, lines_errors inc ie m j src = 0%nat.
Proof.
  intros I D. induction D as [|l src N D IH]; intros m j; [reflexivity|]. cbn [lines_errors]. destruct l as [line|]; [|congruence].
  destruct (step inc m j (Some line)) as [[m1 j1|j1]| |]; rewrite ?IH; destruct m; try reflexivity; destruct (include_argument line); rewrite ?I; reflexivity.
Qed.
Lemma include_decodable depth cwd fs : (forall p s, fs p = Some s -> decodable s) -> forall a j, include_errors depth cwd fs a j = 0%nat.
Proof.
  intros D. induction depth as [|d IH]; intros a j; [reflexivity|]. cbn [include_errors]. destruct (included cwd fs a) as [[src|]|p|] eqn:E; try reflexivity.
  apply lines_decodable; [exact IH|]. unfold included in E. repeat match type of E with match ?x with _ => _ end = _ => destruct x end; try discriminate; injection E as E; eapply D, E.
Qed.
Theorem read_decodable depth cwd fs src j : (forall p s, fs p = Some s -> decodable s) -> decodable src -> read_errors depth cwd fs src j = 0%nat.
Proof. intros D S. apply lines_decodable; [apply include_decodable, D|exact S]. Qed.
Lemma files_decodable depth cwd fs files : (forall p s, fs p = Some s -> decodable s) -> forall j, files_errors depth cwd fs files j = 0%nat.
Proof.
  intros D. induction files as [|f files IH]; intros j; [reflexivity|]. cbn [files_errors]. destruct (fs f) as [src|] eqn:E; [|reflexivity].
  rewrite read_decodable by eauto. destruct (parse_file depth cwd fs f j); [apply IH|reflexivity|reflexivity].
Qed.
Theorem run_decodable depth cwd fs args : (forall p s, fs p = Some s -> decodable s) -> run_errors depth cwd fs args = 0%nat.
Proof. intros D. unfold run_errors. destruct (process_arguments args) as [[[|v cs] files]| |]; try reflexivity. apply files_decodable, D. Qed.
Lemma files_silent depth cwd fs fs' files : other_where_bad fs fs' -> forall j j', fold_outcome (fun j f => parse_file depth cwd fs f j) files j = Ok j' ->
  files_errors depth cwd fs files j = 0%nat -> fold_outcome (fun j f => parse_file depth cwd fs' f j) files j = Ok j'.
Proof.
  intros B. induction files as [|f files IH]; intros j j' H Z; [exact H|]. cbn [fold_outcome files_errors] in *. unfold parse_file in H at 1, Z. unfold parse_file at 1.
  destruct (fs f) as [src|] eqn:F; [|discriminate]. destruct (read_into_journal depth cwd fs src j) as [j1| |] eqn:R; cbn [bind] in H; try discriminate.
  apply Nat.eq_add_0 in Z as [Z1 Z2]. destruct (read_silent _ _ _ _ _ _ _ R Z1 B) as [D R'].
  destruct (B f) as [E|(s & E & N)]; [|congruence]. rewrite E, F, R'. cbn [bind]. apply IH; assumption.
Qed.
Theorem run_silent depth cwd fs fs' args out : run depth cwd fs args = Ok out -> run_errors depth cwd fs args = 0%nat -> other_where_bad fs fs' ->
  run depth cwd fs' args = Ok out.
Proof.
  unfold run, run_errors, execute_command. intros H Z B. destruct (process_arguments args) as [[[|v cs] files]| |]; cbn [bind nth_error unwrap] in *; try discriminate.
  unfold read_journal_files in *. destruct (fold_outcome (fun j f => parse_file depth cwd fs f j) files journal_new) as [j| |] eqn:E; cbn [bind] in H; try discriminate.
  rewrite (files_silent _ _ _ _ _ B _ _ E Z). exact H.
Qed.
(** Where a message is printed. *)
Lemma errors_app inc ie s1 s2 : forall m j, lines_errors inc ie m j (s1 ++ s2) =
  (lines_errors inc ie m j s1 + match ReadingFacts.prefix inc m j s1 with Ok (Continue m' j') => lines_errors inc ie m' j' s2 | _ => 0 end)%nat.
Proof.
  induction s1 as [|l s1 IH]; intros m j; [reflexivity|]. cbn [app lines_errors ReadingFacts.prefix]. rewrite <- Nat.add_assoc. f_equal.
  destruct (step inc m j l) as [[m' j'|j']| |]; cbn [bind]; auto.
Qed.
Lemma reached depth cwd fs src j j' : decodable src -> read_into_journal depth cwd fs src j = Ok j' -> exists m j1, ReadingFacts.prefix (include_file depth cwd fs) Top j src = Ok (Continue m j1) /\ ReadingFacts.in_xact m = inside src.
Proof.
  unfold read_into_journal. intros D H. rewrite <- (app_nil_r src), ReadingFacts.parse_app in H. destruct (ReadingFacts.prefix _ Top j src) as [[m j1|j1]| |] eqn:P; try discriminate.
  - exists m, j1. split; [reflexivity|]. exact (ReadingFacts.prefix_mode _ _ _ _ _ _ P).
  - destruct (ReadingFacts.prefix_no_stop _ _ D _ _ _ P).
Qed.
Theorem message_top depth cwd fs s1 s2 j j' : decodable s1 -> inside s1 = false -> read_into_journal depth cwd fs s1 j = Ok j' ->
  read_errors depth cwd fs (s1 ++ None :: s2) j = S (read_errors depth cwd fs s1 j).
Proof.
  intros D I H. destruct (reached _ _ _ _ _ _ D H) as (m & j1 & P & M). rewrite I in M. destruct m; [|discriminate]. unfold read_errors. rewrite errors_app, P. cbn [lines_errors step]. lia.
Qed.
Theorem message_inside depth cwd fs s1 s2 j j' : decodable s1 -> inside s1 = true -> read_into_journal depth cwd fs s1 j = Ok j' ->
  read_errors depth cwd fs (s1 ++ None :: s2) j = S (read_errors depth cwd fs (s1 ++ Some [10] :: s2) j).
Proof.
  intros D I H. destruct (reached _ _ _ _ _ _ D H) as (m & j1 & P & M). rewrite I in M. destruct m as [|xi]; [discriminate|]. unfold read_errors. rewrite !errors_app, P. cbn [lines_errors step xact_line]. lia.
Qed.
