(** Text, outcomes and the few standard-library string functions of Rust the code uses.

    Text is a list of Unicode scalar values (Rust [char]); Rust strings are UTF-8, so every
    [&str] is such a list.  A byte offset obtained from [find]/[char_indices] and used to slice
    the same string is modelled by the list position; literal byte offsets use [drop_bytes]. *)
From Coq Require Import String Ascii List NArith ZArith Bool Lia.
Import ListNotations.

(** A Rust [char] / [&str]. *)
Notation char := N (only parsing).
Definition str := list N.

(** ASCII literals as text, for readable definitions and examples. *)
Definition lit (s : string) : str := map N_of_ascii (list_ascii_of_string s).
Arguments lit s%string_scope.

(** Why a run stopped abnormally.  [PUnwrap]: [unwrap]/[expect] on [None]/[Err];
    [PExplicit]: [panic!] or a failed assertion; [PTodo]: [todo!]; [PSlice]: slice out of
    range or inside a character; [PArith]: decimal overflow or division by zero;
    [PNull]: a null or unknown raw pointer is dereferenced (undefined behaviour);
    [PIo]: [File::open(..).expect] failed. *)
Inductive panic := PUnwrap | PExplicit | PTodo | PSlice | PArith | PNull | PIo.

(** Result of running a piece of code: a value, an abort, or (only with exhausted fuel, which
    stands for unbounded recursion) no result. *)
Inductive outcome (A : Type) : Type :=
| Ok (a : A)
| Panic (p : panic)
| Diverge.
Arguments Ok {A} a.
Arguments Panic {A} p.
Arguments Diverge {A}.

Definition bind {A B} (m : outcome A) (k : A -> outcome B) : outcome B :=
  match m with Ok a => k a | Panic p => Panic p | Diverge => Diverge end.
Notation "'let*' x ':=' m 'in' k" := (bind m (fun x => k))
  (at level 200, x pattern, m at level 100, k at level 200, right associativity).

(** [Option::unwrap] / [expect]. *)
Definition unwrap {A} (o : option A) : outcome A :=
  match o with Some a => Ok a | None => Panic PUnwrap end.

(** A loop that threads a state through a list and may stop early. *)
Fixpoint fold_outcome {A S} (f : S -> A -> outcome S) (l : list A) (s : S) : outcome S :=
  match l with
  | [] => Ok s
  | a :: l' => let* s' := f s a in fold_outcome f l' s'
  end.

(** ** Characters *)
Open Scope N_scope.

(** [char::is_whitespace]: the Unicode White_Space property. *)
Definition is_ws (c : char) : bool :=
  ((9 <=? c) && (c <=? 13)) || (c =? 32) || (c =? 133) || (c =? 160) || (c =? 5760)
  || ((8192 <=? c) && (c <=? 8202)) || (c =? 8232) || (c =? 8233) || (c =? 8239)
  || (c =? 8287) || (c =? 12288).

(** [char::is_digit(10)]: ASCII digits only. *)
Definition is_digit (c : char) : bool := (48 <=? c) && (c <=? 57).

(** [char::len_utf8]. *)
Definition utf8_len (c : char) : nat :=
  if c <? 128 then 1%nat else if c <? 2048 then 2%nat else if c <? 65536 then 3%nat else 4%nat.

(** ** Strings *)

Fixpoint str_eqb (a b : str) : bool :=
  match a, b with
  | [], [] => true
  | x :: a', y :: b' => (x =? y) && str_eqb a' b'
  | _, _ => false
  end.

(** [Ord for str]: UTF-8 bytewise order, which is the lexicographic order of code points. *)
Fixpoint str_leb (a b : str) : bool :=
  match a, b with
  | [], _ => true
  | _ :: _, [] => false
  | x :: a', y :: b' => if x <? y then true else if x =? y then str_leb a' b' else false
  end.

Definition is_empty {A} (s : list A) : bool := match s with [] => true | _ => false end.

(** [str::trim_start], [trim_end], [trim]. *)
Fixpoint drop_while (p : char -> bool) (s : str) : str :=
  match s with
  | [] => []
  | c :: s' => if p c then drop_while p s' else s
  end.
Definition trim_start (s : str) : str := drop_while is_ws s.
Definition trim_end (s : str) : str := rev (drop_while is_ws (rev s)).
Definition trim (s : str) : str := trim_end (trim_start s).

(** [str::find] with a character predicate: position of the first match. *)
Fixpoint find_char (p : char -> bool) (s : str) : option nat :=
  match s with
  | [] => None
  | c :: s' => if p c then Some 0%nat else option_map S (find_char p s')
  end.

Fixpoint starts_with (pat s : str) : bool :=
  match pat, s with
  | [], _ => true
  | _ :: _, [] => false
  | x :: pat', y :: s' => (x =? y) && starts_with pat' s'
  end.

(** [str::find] with a string pattern. *)
Fixpoint find_sub (pat s : str) : option nat :=
  if starts_with pat s then Some 0%nat
  else match s with
       | [] => None
       | _ :: s' => option_map S (find_sub pat s')
       end.

(** [&s[n..]] with a literal byte offset: panics past the end or inside a character. *)
Fixpoint drop_bytes (n : nat) (s : str) : outcome str :=
  match n with
  | O => Ok s
  | _ => match s with
         | [] => Panic PSlice
         | c :: s' => if (utf8_len c <=? n)%nat then drop_bytes (n - utf8_len c) s'
                      else Panic PSlice
         end
  end.

(** [str::split_whitespace], first two items only (all the code uses). *)
Definition take_word (s : str) : str * str :=
  let s := trim_start s in
  match find_char is_ws s with
  | Some i => (firstn i s, skipn i s)
  | None => (s, [])
  end.

(** [BufRead::read_line] applied until the end: lines including their line feed. *)
Fixpoint split_lines_acc (acc : str) (s : str) : list str :=
  match s with
  | [] => match acc with [] => [] | _ => [rev acc] end
  | c :: s' => if c =? 10 then rev (c :: acc) :: split_lines_acc [] s'
               else split_lines_acc (c :: acc) s'
  end.
Definition split_lines (s : str) : list str := split_lines_acc [] s.

(** ** Sorting by a text key (stable insertion sort).

    Stands for [sort]/[sort_unstable_by_key] on keys that are pairwise different. *)
Fixpoint insert_key {A} (x : str * A) (l : list (str * A)) : list (str * A) :=
  match l with
  | [] => [x]
  | y :: l' => if str_leb (fst x) (fst y) then x :: l else y :: insert_key x l'
  end.
Fixpoint sort_key {A} (l : list (str * A)) : list (str * A) :=
  match l with
  | [] => []
  | x :: l' => insert_key x (sort_key l')
  end.

(** ** Association lists keyed by text (stand for [HashMap<String, _>]) *)
Fixpoint lookup {A} (k : str) (m : list (str * A)) : option A :=
  match m with
  | [] => None
  | (k', a) :: m' => if str_eqb k k' then Some a else lookup k m'
  end.
(** [HashMap::insert]: replaces the value in place or adds an entry. *)
Fixpoint insert {A} (k : str) (a : A) (m : list (str * A)) : list (str * A) :=
  match m with
  | [] => [(k, a)]
  | (k', a') :: m' => if str_eqb k k' then (k', a) :: m' else (k', a') :: insert k a m'
  end.

(** Replace position [n] of a list. *)
Fixpoint update_nth {A} (n : nat) (f : A -> A) (l : list A) : list A :=
  match n, l with
  | _, [] => []
  | O, x :: l' => f x :: l'
  | S n', x :: l' => x :: update_nth n' f l'
  end.
