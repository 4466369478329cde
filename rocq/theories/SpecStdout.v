(** Specification vocabulary for the printed text. *)
From Coq Require Import String List NArith ZArith Bool.
From Verif Require Import Base.
Import ListNotations.
Open Scope N_scope.

(** A character that is not one of the ASCII control characters, so neither a line end nor a tab. *)
Definition visible (c : N) : Prop := 32 <= c /\ c <> 127.
(** A visible ASCII character other than the double quote and the backslash. *)
Definition ordinary (c : N) : Prop := 32 <= c /\ c < 127 /\ c <> 34 /\ c <> 92.
Fixpoint separated (sep : str) (l : list str) : str :=
  match l with [] => [] | [s] => s | s :: l' => s ++ sep ++ separated sep l' end.
(** Texts in quotes, with commas between them and brackets around them. *)
Definition in_quotes (l : list str) : str := lit "[" ++ separated (lit ", ") (map (fun s => [34] ++ s ++ [34]) l) ++ lit "]".
