(** Specification vocabulary for the layout of lines: line ends, trailing white space, indentation. *)
From Coq Require Import String List NArith ZArith Bool.
From Verif Require Import Base SpecText SpecReading.
Import ListNotations.
Open Scope nat_scope.

(** The characters with the Unicode property White_Space. *)
Definition white_space : list N :=
  [9; 10; 11; 12; 13; 32; 133; 160; 5760; 8192; 8193; 8194; 8195; 8196; 8197; 8198; 8199; 8200; 8201; 8202; 8232; 8233; 8239; 8287; 12288]%N.

(** The same text with Windows line ends. *)
Definition crlf (t : str) : str := flat_map (fun c => if (c =? 10)%N then [13%N; 10%N] else [c]) t.

(** The first word of a line is not an abbreviated or misspelt [include]: such lines are read as prices. *)
Definition no_price (l : str) : Prop :=
  forall w x r, l = w ++ x ++ r -> spaces w -> word x -> (r = [] \/ exists c r', r = c :: r' /\ is_ws c = true) ->
    hd 0%N x = 105%N -> x = lit "include" \/ x = lit "import".

(** What may follow the last character of interest in a line: tabs, spaces, carriage return, line feed. *)
Definition tail_char (c : N) : Prop := c = 9%N \/ c = 10%N \/ c = 13%N \/ c = 32%N.
Definition tail (w : str) : Prop := w <> [] /\ Forall tail_char w.

(** The part of a line that spaces can follow without being taken for a separator: a header with a space, a
    posting whose account is already followed by two spaces, a note, and every line that is neither
    a header nor indented. *)
Inductive settled : str -> Prop :=
| st_header c r : is_digit c = true -> In 32%N r -> settled (c :: r)
| st_posting w a b : spaces w -> heads_word a -> settled (32%N :: w ++ a ++ 32%N :: 32%N :: b)
| st_note w b : spaces w -> settled (32%N :: w ++ 59%N :: b)
| st_other c r : is_digit c = false -> c <> 32%N -> settled (c :: r)
with heads_word : str -> Prop :=
| hw c a : is_ws c = false -> heads_word (c :: a).

(** A text that can be converted: no carriage return yet, and no line read as a price. *)
Definition convertible (t : str) : Prop :=
  ~ In 13%N t /\ forall a l b, t = a ++ l ++ nl ++ b -> complete_lines a -> ~ In 10%N l -> no_price l.
(** The same files, some of them with Windows line ends. *)
Definition files_converted (files files' : str -> option str) : Prop :=
  forall p, files' p = files p \/ exists t, files p = Some t /\ convertible t /\ files' p = Some (crlf t).
