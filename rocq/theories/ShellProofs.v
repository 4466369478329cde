(** Command strings. *)
From Coq Require Import String List NArith ZArith Bool Lia.
From Verif Require Import Base Parser Lib Shell SpecShell.
From Verif Require Import BaseFacts.
Import ListNotations.
Open Scope list_scope.
Open Scope nat_scope.

Lemma gap_spec c : is_gap c = true <-> separator c.
Proof. unfold is_gap, separator, line_feed. rewrite !orb_true_iff, !N.eqb_eq. tauto. Qed.
Lemma gap_false c : is_gap c = false <-> ~ separator c.
Proof. rewrite <- gap_spec. destruct (is_gap c); split; congruence. Qed.
Lemma escapable_spec c : is_escapable c = true <-> escapable c.
Proof. unfold is_escapable, escapable, double_quote, backslash. rewrite !orb_true_iff, !N.eqb_eq. tauto. Qed.
Lemma escapable_false c : is_escapable c = false <-> ~ escapable c.
Proof. rewrite <- escapable_spec. destruct (is_escapable c); split; congruence. Qed.

(** ** What is written is read *)
Lemma snoc_app {A} (w : list A) c v : (w ++ [c]) ++ v = w ++ c :: v.
Proof. rewrite <- app_assoc. reflexivity. Qed.
Lemma read_single q s : ~ In single_quote q -> forall w, shell_words SingleQuoted w (q ++ single_quote :: s) = shell_words Unquoted (w ++ q) s.
Proof.
  induction q as [|c q IH]; intros N w; cbn [app shell_words].
  - rewrite app_nil_r. reflexivity.
  - destruct (N.eqb_spec c 39) as [->|_]; [destruct N; left; reflexivity|]. rewrite IH, snoc_app; [reflexivity|]. intros X. apply N. right. exact X.
Qed.
Lemma read_double q u s : double_quoted q u -> forall w, shell_words DoubleQuoted w (q ++ double_quote :: s) = shell_words Unquoted (w ++ u) s.
Proof.
  induction 1 as [|c t v A B H IH|c t v E H IH|t v H IH|c t v E L H IH]; intros w; cbn [app].
  - cbn [shell_words]. rewrite app_nil_r. reflexivity.
  - cbn [shell_words]. apply N.eqb_neq in A, B. unfold double_quote, backslash in A, B. rewrite A, B, IH, snoc_app. reflexivity.
  - cbn [shell_words]. change (backslash =? 34)%N with false. change (backslash =? 92)%N with true. cbv iota.
    assert (c <> 10%N) as X%N.eqb_neq by (destruct E as [->|[->|[->| ->]]]; discriminate). apply escapable_spec in E. rewrite X, E, IH, snoc_app. reflexivity.
  - cbn [shell_words]. change (backslash =? 34)%N with false. change (backslash =? 92)%N with true. change (line_feed =? 10)%N with true. cbv iota. apply IH.
  - cbn [shell_words]. change (backslash =? 34)%N with false. change (backslash =? 92)%N with true. cbv iota.
    apply escapable_false in E. apply N.eqb_neq in L. unfold line_feed in L. rewrite L, E, IH, <- app_assoc. reflexivity.
Qed.
Lemma plain_first c : plain_char c -> (c =? 39)%N = false /\ (c =? 34)%N = false /\ (c =? 92)%N = false /\ is_gap c = false.
Proof. intros (A & B & C & D). rewrite !N.eqb_neq, gap_false. auto. Qed.
Lemma read_piece t v s : spells t v -> forall w, shell_words Unquoted w (t ++ s) = shell_words Unquoted (w ++ v) s.
Proof.
  induction 1 as [|c t v P H IH|c t v L H IH|t v H IH|q t v N H IH|q u t v D H IH]; intros w; cbn [app].
  - rewrite app_nil_r. reflexivity.
  - apply plain_first in P as (A & B & C & D). cbn [shell_words]. rewrite A, B, C, D, IH, snoc_app. reflexivity.
  - apply N.eqb_neq in L. unfold line_feed in L. cbn [shell_words]. change (backslash =? 39)%N with false. change (backslash =? 34)%N with false. change (backslash =? 92)%N with true.
    cbv iota. rewrite L, IH, snoc_app. reflexivity.
  - cbn [shell_words]. change (backslash =? 39)%N with false. change (backslash =? 34)%N with false. change (backslash =? 92)%N with true. cbv iota. apply IH.
  - rewrite <- app_assoc. cbn [shell_words]. change (single_quote =? 39)%N with true. cbv iota. rewrite <- app_comm_cons, read_single by exact N. rewrite IH, app_assoc. reflexivity.
  - rewrite <- app_assoc. cbn [shell_words]. change (double_quote =? 39)%N with false. change (double_quote =? 34)%N with true. cbv iota.
    rewrite <- app_comm_cons, (read_double _ _ _ D). rewrite IH, app_assoc. reflexivity.
Qed.
Lemma read_comment t s : ~ In line_feed t -> shell_words Comment [] (t ++ line_feed :: s) = shell_words Delimiter [] s.
Proof.
  induction t as [|c t IH]; intros N; cbn [app shell_words]; [reflexivity|]. destruct (N.eqb_spec c 10) as [->|_]; [destruct N; left; reflexivity|].
  apply IH. intros X. apply N. right. exact X.
Qed.
Lemma read_comment_end t : ~ In line_feed t -> shell_words Comment [] t = Ok [].
Proof.
  induction t as [|c t IH]; intros N; cbn [app shell_words]; [reflexivity|]. destruct (N.eqb_spec c 10) as [->|_]; [destruct N; left; reflexivity|].
  apply IH. intros X. apply N. right. exact X.
Qed.
Lemma read_gap g s : gap g -> shell_words Delimiter [] (g ++ s) = shell_words Delimiter [] s.
Proof.
  induction 1 as [|c g S H IH|g H IH|t g N H IH]; cbn [app].
  - reflexivity.
  - cbn [shell_words]. assert (((c =? 39)%N = false /\ (c =? 34)%N = false /\ (c =? 92)%N = false)) as (A & B & C) by (destruct S as [->|[->| ->]]; repeat split).
    apply gap_spec in S. rewrite A, B, C, S. exact IH.
  - cbn [shell_words]. exact IH.
  - rewrite <- app_assoc. cbn [shell_words]. change (hash =? 39)%N with false. change (hash =? 34)%N with false. change (hash =? 92)%N with false.
    change (is_gap hash) with false. change (hash =? 35)%N with true. cbv iota. rewrite <- app_comm_cons, read_comment by exact N. exact IH.
Qed.
Lemma no_lone_backslash v : ~ spells [backslash] v.
Proof. intros H. inversion H as [|c t u (_ & _ & X & _) _| | | |]. apply X. reflexivity. Qed.
Lemma read_word t v s : writes_word t v -> shell_words Delimiter [] (t ++ s) = shell_words Unquoted v s.
Proof.
  intros (S & Ne & Nh & Nl). rewrite <- (app_nil_l v), <- (read_piece t v s S []). destruct t as [|c t]; [congruence|]. cbn [app shell_words].
  destruct (c =? 39)%N; [reflexivity|]. destruct (c =? 34)%N; [reflexivity|]. destruct (N.eqb_spec c 92) as [->|_].
  - destruct (t ++ s) as [|d r] eqn:E; [reflexivity|]. cbn [shell_words]. destruct (N.eqb_spec d 10) as [->|_]; [|reflexivity].
    destruct t as [|d' t]; [destruct (no_lone_backslash _ S)|]. injection E as -> _. destruct (Nl t). reflexivity.
  - destruct (is_gap c) eqn:G.
    + exfalso. apply gap_spec in G. inversion S as [|? ? ? P _| | | |]; subst; try (destruct G as [X|[X|X]]; discriminate X). apply P, G.
    + destruct (N.eqb_spec c 35) as [->|_]; [destruct Nh|]; reflexivity.
Qed.
Lemma command_read s ws : command_words s ws -> shell_split s = Ok ws.
Proof.
  unfold shell_split. induction 1 as [g G|g t G N|g t v G W|g t v G W|g t v c s ws G W S H IH].
  - rewrite <- (app_nil_r g), read_gap by exact G. reflexivity.
  - rewrite read_gap by exact G. cbn [shell_words]. change (hash =? 39)%N with false. change (hash =? 34)%N with false. change (hash =? 92)%N with false.
    change (is_gap hash) with false. change (hash =? 35)%N with true. cbv iota. apply read_comment_end, N.
  - rewrite read_gap by exact G. rewrite <- (app_nil_r t), (read_word t v) by exact W. reflexivity.
  - rewrite read_gap by exact G. destruct W as [W|[-> ->]]; [|reflexivity]. rewrite (read_word t v) by exact W. reflexivity.
  - rewrite read_gap by exact G. rewrite (read_word t v) by exact W. cbn [shell_words].
    assert (((c =? 39)%N = false /\ (c =? 34)%N = false /\ (c =? 92)%N = false)) as (A & B & C) by (destruct S as [->|[->| ->]]; repeat split).
    apply gap_spec in S. rewrite A, B, C, S, IH. reflexivity.
Qed.

(** ** What is read is written *)
Lemma words_gap g s ws : gap g -> command_words s ws -> command_words (g ++ s) ws.
Proof.
  assert (X : forall g g', gap g -> gap g' -> gap (g ++ g')).
  { induction 1 as [|c h S H IH|h H IH|t h N H IH]; intros G; cbn [app]; auto using gap_sep, gap_line. rewrite <- app_assoc. apply gap_comment; auto. }
  intros G H. destruct H as [h Gh|h t Gh N|h t v Gh W|h t v Gh W|h t v c s ws Gh W S H]; rewrite ?app_assoc.
  - apply cw_end. auto.
  - apply cw_comment; auto.
  - apply cw_last; auto.
  - rewrite <- (app_assoc (g ++ h)). apply cw_backslash; auto.
  - rewrite <- (app_assoc (g ++ h)). apply cw_word; auto.
Qed.
Lemma spells_app t v t' v' : spells t v -> spells t' v' -> spells (t ++ t') (v ++ v').
Proof.
  induction 1 as [|c t v P H IH|c t v L H IH|t v H IH|q t v N H IH|q u t v D H IH]; intros S; cbn [app].
  - exact S.
  - apply sp_char; auto.
  - apply sp_escape; auto.
  - apply sp_line; auto.
  - rewrite <- !app_assoc, <- app_comm_cons. apply sp_single; auto.
  - rewrite <- !app_assoc, <- app_comm_cons. apply sp_double; auto.
Qed.
(** The rest of a word and of the text after [w] has been read. *)
Definition rest (w s : str) (ws : list str) : Prop :=
  exists t v, spells t v
  /\ (s = t /\ ws = [w ++ v]
      \/ s = t ++ [backslash] /\ ws = [(w ++ v) ++ [backslash]]
      \/ exists c s' ws', s = t ++ c :: s' /\ separator c /\ command_words s' ws' /\ ws = (w ++ v) :: ws').
Lemma rest_more t v w s ws : spells t v -> rest (w ++ v) s ws -> rest w (t ++ s) ws.
Proof.
  intros S (t' & v' & S' & D). exists (t ++ t'), (v ++ v'). split; [apply spells_app; assumption|]. rewrite <- !app_assoc in D.
  destruct D as [(-> & ->)|[(-> & ->)|(c & s' & ws' & -> & Sc & H & ->)]].
  - left. split; reflexivity.
  - right. left. rewrite <- !app_assoc. split; reflexivity.
  - right. right. exists c, s', ws'. rewrite <- app_assoc. auto.
Qed.
Lemma rest_word t v s ws : writes_word t v -> rest v s ws -> command_words (t ++ s) ws.
Proof.
  intros (S & Ne & Nh & Nl) R. apply (rest_more t v [] s ws S) in R. destruct R as (t' & v' & S' & D).
  (* the piece read is a word: it begins like [t] *)
  assert (X : forall r, t' ++ r = t ++ s -> t' <> [] -> writes_word t' v' ).
  { intros r E Ne'. split; [exact S'|]. split; [exact Ne'|]. destruct t as [|c t]; [congruence|]. destruct t' as [|c' t']; [congruence|]. injection E as -> E.
    split; [exact Nh|]. intros r' Er. injection Er as -> ->. destruct t as [|d t]; [destruct (no_lone_backslash _ S)|].
    cbn in E. injection E as <- _. apply (Nl t). reflexivity. }
  rewrite <- (app_nil_l (t ++ s)). destruct D as [(E & ->)|[(E & ->)|(c & s' & ws' & E & Sc & H & ->)]].
  - rewrite E. apply cw_last; [constructor|]. apply (X []); [rewrite app_nil_r; congruence|]. rewrite <- E. destruct t; [congruence|discriminate].
  - rewrite E. cbn [app]. apply (cw_backslash [] t'); [constructor|]. destruct t' as [|c' t']; [right; inversion S'; subst; auto|left].
    apply (X [backslash]); [congruence|discriminate].
  - rewrite E. apply (cw_word [] t'); [constructor| |exact Sc|exact H]. apply (X (c :: s')); [congruence|]. intros ->. cbn in E. destruct t as [|d t]; [congruence|]. injection E as <- E.
    inversion S as [|? ? ? P _| | | |]; subst; try (destruct Sc as [Q|[Q|Q]]; discriminate Q). apply P, Sc.
Qed.
Definition meaning (st : shell_state) (w s : str) (ws : list str) : Prop :=
  match st with
  | Delimiter => w = [] -> command_words s ws
  | Backslash => w = [] -> command_words (backslash :: s) ws
  | Unquoted => rest w s ws
  | UnquotedBackslash => rest w (backslash :: s) ws
  | SingleQuoted => exists q s', s = q ++ single_quote :: s' /\ ~ In single_quote q /\ rest (w ++ q) s' ws
  | DoubleQuoted => exists q u s', double_quoted q u /\ s = q ++ double_quote :: s' /\ rest (w ++ u) s' ws
  | DoubleQuotedBackslash => exists q u s', double_quoted q u /\ backslash :: s = q ++ double_quote :: s' /\ rest (w ++ u) s' ws
  | Comment => w = [] -> forall t, ~ In line_feed t -> command_words (hash :: t ++ s) ws
  end.
Lemma sp_one c : plain_char c -> spells [c] [c].
Proof. intros P. apply sp_char; [exact P|constructor]. Qed.
Lemma quoted_word q u : spells q u -> (exists c r, q = c :: r /\ (c = single_quote \/ c = double_quote)) -> writes_word q u.
Proof. intros S (c & r & -> & [-> | ->]); (split; [exact S|]); (split; [discriminate|]); (split; [discriminate|]); intros r'; discriminate. Qed.
Lemma words_meaning s : forall st w ws, shell_words st w s = Ok ws -> meaning st w s ws.
Proof.
  induction s as [|c s IH]; intros st w ws H.
  - destruct st; cbn [shell_words] in H; try discriminate H; injection H as <-; cbn [meaning].
    + intros _. apply cw_end, gap_nil.
    + intros ->. apply (cw_backslash [] []); [constructor|right; auto].
    + exists [], []. split; [constructor|]. left. rewrite app_nil_r. auto.
    + exists [], []. split; [constructor|]. right. left. rewrite app_nil_r. auto.
    + intros _ t N. rewrite app_nil_r. apply (cw_comment [] t); [constructor|exact N].
  - destruct st; cbn [shell_words] in H; cbn [meaning].
    + intros ->. destruct (N.eqb_spec c 39) as [->|A].
      { apply IH in H as (q & s' & -> & N & R). cbn [app] in R.
        replace (39%N :: q ++ single_quote :: s') with ((single_quote :: q ++ single_quote :: []) ++ s') by (cbn [app]; rewrite <- app_assoc; reflexivity).
        apply (rest_word _ q); [|exact R]. apply quoted_word; [|eauto]. rewrite <- (app_nil_r q) at 2. apply sp_single; [exact N|constructor]. }
      destruct (N.eqb_spec c 34) as [->|B].
      { apply IH in H as (q & u & s' & D & -> & R). cbn [app] in R.
        replace (34%N :: q ++ double_quote :: s') with ((double_quote :: q ++ double_quote :: []) ++ s') by (cbn [app]; rewrite <- app_assoc; reflexivity).
        apply (rest_word _ u); [|exact R]. apply quoted_word; [|eauto]. rewrite <- (app_nil_r u). apply sp_double; [exact D|constructor]. }
      destruct (N.eqb_spec c 92) as [->|C]; [apply IH in H; apply H; reflexivity|].
      destruct (is_gap c) eqn:G. { apply gap_spec in G. apply IH in H. apply (words_gap [c]); [apply gap_sep; [exact G|constructor]|]. apply H. reflexivity. }
      destruct (N.eqb_spec c 35) as [->|E]. { apply IH in H. apply (H eq_refl []). intros []. }
      apply IH in H. cbn [app] in H. apply gap_false in G. apply (rest_word [c] [c]); [|exact H].
      split; [apply sp_one; repeat split; assumption|]. split; [discriminate|]. split; [intros X; injection X as X; apply E; exact X|]. intros r X. injection X as -> _. apply C. reflexivity.
    + intros ->. destruct (N.eqb_spec c 10) as [->|L]; apply IH in H.
      * apply (words_gap [backslash; line_feed]); [apply gap_line, gap_nil|]. apply H. reflexivity.
      * cbn [app] in H. apply (rest_word [backslash; c] [c]); [|exact H].
        split; [apply sp_escape; [exact L|constructor]|]. split; [discriminate|]. split; [discriminate|]. intros r X. injection X as -> _. apply L. reflexivity.
    + destruct (N.eqb_spec c 39) as [->|A].
      { apply IH in H as (q & s' & -> & N & R).
        replace (39%N :: q ++ single_quote :: s') with ((single_quote :: q ++ single_quote :: []) ++ s') by (cbn [app]; rewrite <- app_assoc; reflexivity).
        apply (rest_more _ q); [|exact R]. rewrite <- (app_nil_r q) at 2. apply sp_single; [exact N|constructor]. }
      destruct (N.eqb_spec c 34) as [->|B].
      { apply IH in H as (q & u & s' & D & -> & R).
        replace (34%N :: q ++ double_quote :: s') with ((double_quote :: q ++ double_quote :: []) ++ s') by (cbn [app]; rewrite <- app_assoc; reflexivity).
        apply (rest_more _ u); [|exact R]. rewrite <- (app_nil_r u). apply sp_double; [exact D|constructor]. }
      destruct (N.eqb_spec c 92) as [->|C]; [apply IH in H; exact H|].
      destruct (is_gap c) eqn:G.
      { unfold cons_word in H. inv_bind H. injection H as <-. apply IH in EQ. apply gap_spec in G. exists [], []. split; [constructor|]. right. right.
        exists c, s, v. rewrite app_nil_r. auto. }
      apply IH in H. apply gap_false in G. apply (rest_more [c] [c]); [apply sp_one; repeat split; assumption|exact H].
    + destruct (N.eqb_spec c 10) as [->|L]; apply IH in H.
      * apply (rest_more [backslash; line_feed] []); [apply sp_line, sp_nil|]. rewrite app_nil_r. exact H.
      * apply (rest_more [backslash; c] [c]); [apply sp_escape; [exact L|constructor]|exact H].
    + destruct (N.eqb_spec c 39) as [->|L]; apply IH in H.
      * exists [], s. split; [reflexivity|]. split; [intros []|]. rewrite app_nil_r. exact H.
      * destruct H as (q & s' & -> & N & R). exists (c :: q), s'. split; [reflexivity|]. split; [intros [X|X]; [apply L; exact X|exact (N X)]|]. rewrite <- snoc_app. exact R.
    + destruct (N.eqb_spec c 34) as [->|B]. { apply IH in H. exists [], [], s. split; [constructor|]. split; [reflexivity|]. rewrite app_nil_r. exact H. }
      destruct (N.eqb_spec c 92) as [->|C]. { apply IH in H. exact H. }
      apply IH in H as (q & u & s' & D & -> & R). exists (c :: q), (c :: u), s'. split; [apply dq_char; assumption|]. split; [reflexivity|]. rewrite <- snoc_app. exact R.
    + destruct (N.eqb_spec c 10) as [->|L].
      { apply IH in H as (q & u & s' & D & -> & R). exists (backslash :: line_feed :: q), u, s'. split; [apply dq_line, D|]. split; [reflexivity|exact R]. }
      destruct (is_escapable c) eqn:E; apply IH in H as (q & u & s' & D & -> & R).
      * apply escapable_spec in E. exists (backslash :: c :: q), (c :: u), s'. split; [apply dq_escape; assumption|]. split; [reflexivity|]. rewrite <- snoc_app. exact R.
      * apply escapable_false in E. exists (backslash :: c :: q), (backslash :: c :: u), s'. split; [apply dq_other; assumption|]. split; [reflexivity|]. rewrite <- app_assoc in R. exact R.
    + intros -> t N. destruct (N.eqb_spec c 10) as [->|L]; apply IH in H.
      * replace (hash :: t ++ 10%N :: s) with ((hash :: t ++ line_feed :: []) ++ s) by (cbn [app]; rewrite <- app_assoc; reflexivity).
        apply words_gap; [apply gap_comment; [exact N|constructor]|]. apply H. reflexivity.
      * specialize (H eq_refl (t ++ [c])). rewrite <- app_assoc in H. apply H. intros X. apply in_app_or in X as [X|[X|[]]]; [exact (N X)|apply L; exact X].
Qed.
Lemma split_meaning s ws : shell_split s = Ok ws <-> command_words s ws.
Proof. split; [|apply command_read]. intros H. apply (words_meaning s Delimiter [] ws H). reflexivity. Qed.
Lemma words_no_diverge s : forall st w, (exists ws, shell_words st w s = Ok ws) \/ shell_words st w s = Panic PUnwrap.
Proof.
  induction s as [|c s IH]; intros st w; [destruct st; cbn; eauto|].
  destruct st; cbn [shell_words]; repeat (match goal with |- context [if ?b then _ else _] => destruct b end); try apply IH.
  destruct (IH Delimiter []) as [(ws & ->)| ->]; cbn; eauto.
Qed.
Lemma run_command_meaning depth cwd fs s :
  (forall args, command_words s args -> run_command depth cwd fs s = run depth cwd fs args)
  /\ ((forall args, ~ command_words s args) -> run_command depth cwd fs s = Panic PUnwrap).
Proof.
  unfold run_command. split.
  - intros args H. apply split_meaning in H. rewrite H. reflexivity.
  - intros N. destruct (words_no_diverge s Delimiter []) as [(ws & E)|E]; fold (shell_split s) in E; [destruct (N ws); apply split_meaning, E|]. rewrite E. reflexivity.
Qed.
Lemma words_unique s ws ws' : command_words s ws -> command_words s ws' -> ws = ws'.
Proof. rewrite <- !split_meaning. congruence. Qed.

(** ** Quoting *)
Lemma spells_quote w : spells (quote w) w.
Proof.
  unfold quote. set (f := fun c => if (c =? single_quote)%N then _ else _).
  assert (X : forall w q, ~ In single_quote q -> spells (single_quote :: q ++ flat_map f w ++ [single_quote]) (q ++ w)).
  2: { apply (X w []). intros []. }
  clear w. induction w as [|c w IH]; intros q N; cbn [flat_map app].
  - apply sp_single; [exact N|constructor].
  - unfold f at 1. destruct (N.eqb_spec c single_quote) as [->|E].
    + cbn [app]. apply sp_single; [exact N|]. change (single_quote :: w) with ([single_quote] ++ w).
      apply (sp_double [single_quote] [single_quote]); [apply dq_char; [discriminate|discriminate|constructor]|]. apply (IH []). intros [].
    + replace (q ++ ([c] ++ flat_map f w) ++ [single_quote]) with ((q ++ [c]) ++ flat_map f w ++ [single_quote]) by (rewrite <- !app_assoc; reflexivity).
      replace (q ++ c :: w) with ((q ++ [c]) ++ w) by apply snoc_app. apply IH. intros Y. apply in_app_or in Y as [Y|[Y|[]]]; [exact (N Y)|apply E; exact Y].
Qed.
Lemma quoted_words ws : command_words (quote_all ws) ws.
Proof.
  induction ws as [|w ws IH]; cbn [quote_all]; [apply cw_end, gap_nil|]. apply (cw_word [] (quote w) w); [constructor| |left; reflexivity|exact IH].
  apply quoted_word; [apply spells_quote|]. unfold quote. eauto.
Qed.
Lemma simple_writes w : simple_word w -> writes_word w w.
Proof.
  intros (Ne & P & Nh). split; [|split; [exact Ne|split; [exact Nh|]]].
  - clear -P. induction P; constructor; assumption.
  - intros r ->. inversion P as [|? ? (_ & _ & X & _) _]; subst. apply X. reflexivity.
Qed.
Lemma simple_words ws : Forall simple_word ws -> command_words (spaced ws) ws.
Proof.
  induction 1 as [|w ws S F IH]; cbn [spaced]; [apply cw_end, gap_nil|]. apply simple_writes in S. destruct ws as [|w' ws].
  - apply (cw_last [] w); [constructor|exact S].
  - apply (cw_word [] w); [constructor|exact S|left; reflexivity|exact IH].
Qed.
Lemma run_quoted depth cwd fs args : run_command depth cwd fs (quote_all args) = run depth cwd fs args.
Proof. apply run_command_meaning, quoted_words. Qed.
Lemma run_simple depth cwd fs args : Forall simple_word args -> run_command depth cwd fs (spaced args) = run depth cwd fs args.
Proof. intros H. apply run_command_meaning, simple_words, H. Qed.
