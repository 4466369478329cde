(** Specification vocabulary for command strings: how words are written in the Unix shell. *)
From Coq Require Import String List NArith Bool.
From Verif Require Import Base.
Import ListNotations.

Definition backslash : char := 92%N.
Definition single_quote : char := 39%N.
Definition double_quote : char := 34%N.
Definition line_feed : char := 10%N.
Definition hash : char := 35%N.
Definition separator (c : char) : Prop := c = 32%N \/ c = 9%N \/ c = line_feed.

(** The text between double quotes and what it stands for: a backslash protects [$], [`], the double quote
    and the backslash, disappears with a line feed, and stands for itself otherwise. *)
Definition escapable (c : char) : Prop := c = 36%N \/ c = 96%N \/ c = double_quote \/ c = backslash.
Inductive double_quoted : str -> str -> Prop :=
| dq_nil : double_quoted [] []
| dq_char c t v : c <> double_quote -> c <> backslash -> double_quoted t v -> double_quoted (c :: t) (c :: v)
| dq_escape c t v : escapable c -> double_quoted t v -> double_quoted (backslash :: c :: t) (c :: v)
| dq_line t v : double_quoted t v -> double_quoted (backslash :: line_feed :: t) v
| dq_other c t v : ~ escapable c -> c <> line_feed -> double_quoted t v ->
    double_quoted (backslash :: c :: t) (backslash :: c :: v).

(** A piece of a word: plain characters, characters after a backslash, quoted text. *)
Definition plain_char (c : char) : Prop := c <> single_quote /\ c <> double_quote /\ c <> backslash /\ ~ separator c.
Inductive spells : str -> str -> Prop :=
| sp_nil : spells [] []
| sp_char c t v : plain_char c -> spells t v -> spells (c :: t) (c :: v)
| sp_escape c t v : c <> line_feed -> spells t v -> spells (backslash :: c :: t) (c :: v)
| sp_line t v : spells t v -> spells (backslash :: line_feed :: t) v
| sp_single q t v : ~ In single_quote q -> spells t v -> spells (single_quote :: q ++ single_quote :: t) (q ++ v)
| sp_double q u t v : double_quoted q u -> spells t v -> spells (double_quote :: q ++ double_quote :: t) (u ++ v).

(** What may stand before a word: separators, comments, and line feeds after a backslash. *)
Inductive gap : str -> Prop :=
| gap_nil : gap []
| gap_sep c g : separator c -> gap g -> gap (c :: g)
| gap_line g : gap g -> gap (backslash :: line_feed :: g)
| gap_comment t g : ~ In line_feed t -> gap g -> gap (hash :: t ++ line_feed :: g).

(** A word: it does not look like a gap. *)
Definition writes_word (t v : str) : Prop :=
  spells t v /\ t <> [] /\ hd_error t <> Some hash /\ (forall r, t <> backslash :: line_feed :: r).

(** The words of a command string.  A backslash at the very end stands for itself. *)
Inductive command_words : str -> list str -> Prop :=
| cw_end g : gap g -> command_words g []
| cw_comment g t : gap g -> ~ In line_feed t -> command_words (g ++ hash :: t) []
| cw_last g t v : gap g -> writes_word t v -> command_words (g ++ t) [v]
| cw_backslash g t v : gap g -> writes_word t v \/ t = [] /\ v = [] -> command_words (g ++ t ++ [backslash]) [v ++ [backslash]]
| cw_word g t v c s ws : gap g -> writes_word t v -> separator c -> command_words s ws ->
    command_words (g ++ t ++ c :: s) (v :: ws).

(** One way to write any words: each between single quotes, where a single quote is written as the five
    characters '"'"' . *)
Definition quote (w : str) : str :=
  single_quote :: flat_map (fun c => if (c =? single_quote)%N then [single_quote; double_quote; single_quote; double_quote; single_quote] else [c]) w
  ++ [single_quote].
Fixpoint quote_all (ws : list str) : str :=
  match ws with
  | [] => []
  | w :: ws' => quote w ++ 32%N :: quote_all ws'
  end.
(** Words without any special character can stand for themselves. *)
Definition simple_word (w : str) : Prop := w <> [] /\ Forall plain_char w /\ hd_error w <> Some hash.
Fixpoint spaced (ws : list str) : str :=
  match ws with
  | [] => []
  | [w] => w
  | w :: ws' => w ++ 32%N :: spaced ws'
  end.
