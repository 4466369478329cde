(** Code that nothing calls: the two directive iterators, the lookup of options, the valuation of commodities,
    [next_element] and the conversions between quantities and integers. *)
From Coq Require Import String List NArith ZArith Bool.
From Verif Require Import Base Decimal Amount Pool Journal Scanner Parser.
Import ListNotations.
Open Scope list_scope.

(** ** directives.rs:8-14, xact.rs:87-98 [Xact::default] *)
Inductive directive := DComment | DPrice | DXact (x : xact).
Definition xact_default : xact := mkXact None None [] None [].

(** ** reader.rs:22-61 [DirectiveIter]: what is left to read, and the buffer that [read_line] appends to. *)
Record diter := mkDiter { di_rest : source; di_buffer : str }.
Definition diter_new (src : source) : diter := mkDiter src [].
Definition diter_next (it : diter) : outcome (option directive * diter) :=
  match di_rest it with
  | [] => Ok (None, it)
  | None :: _ => Panic PExplicit
  | Some l :: r => Ok (Some DComment, mkDiter r (di_buffer it ++ l))
  end.
(** reader.rs:15-19 [create_str_reader] *)
Definition create_str_reader (t : str) : diter := diter_new (text_source t).

(** ** iterator.rs:12-36 [SimpleParserIter]: a [u8] counter.  [checks]: the build has overflow checks. *)
Definition siter_new : N := 0%N.
Definition siter_next (checks : bool) (counter : N) : outcome (option directive * N) :=
  if (counter =? 255)%N && checks then Panic PArith
  else let c := ((counter + 1) mod 256)%N in
       if (100 <? c)%N then Ok (None, c) else Ok (Some (DXact xact_default), c).

(** ** value.rs:15-30 [exchange_commodities] *)
Definition exchange_commodities (commodities : str) (pool : pool) : outcome unit :=
  if negb (existsb (N.eqb 44) commodities) && negb (existsb (N.eqb 61) commodities)
  then let '(_, _) := pool_find_or_create pool commodities None in Panic PTodo
  else Panic PTodo.

(** ** option.rs:12-20 *)
Inductive kind := UNKNOWN | FUNCTION | OPTION | PRECOMMAND | COMMAND | DIRECTIVE | FORMAT.
(** option.rs:175-200 [session_lookup_option]: every branch is a [todo!]. *)
Definition session_lookup_option (option : char) : outcome unit := Panic PTodo.
(** option.rs:160-173 [session_lookup] *)
Definition session_lookup (k : kind) (name : str) : outcome unit :=
  let* option := unwrap (hd_error name) in
  match k with
  | OPTION => session_lookup_option option
  | _ => Panic PTodo
  end.
(** option.rs:119-127 [find_option] *)
Definition find_option (letter : char) : outcome unit :=
  let* _ := session_lookup OPTION [letter; 95%N] in Panic PTodo.
(** option.rs:130-144 [lookup_option_global] *)
Definition lookup_option_global (k : kind) (letter : char) : outcome unit :=
  let* _ := match k with PRECOMMAND => Ok tt | _ => Panic PTodo end in Panic PTodo.
(** option.rs:146-158 [process_option] *)
Definition process_option (whence : str) (value : option str) : outcome unit := Ok tt.
(** option.rs:203-265 [lookup_report] *)
Definition lookup_report (k : kind) (name : str) : outcome unit :=
  let* letter := unwrap (hd_error name) in
  let* _ := match k with
            | COMMAND =>
                if (letter =? 97)%N then (if str_eqb name (lit "accounts") then Panic PTodo else Ok tt)
                else if (letter =? 98)%N then Panic PTodo
                else if (letter =? 112)%N then Ok tt
                else Panic PTodo
            | _ => Panic PTodo
            end in
  Panic PTodo.
(** option.rs:267-296 [lookup_option_report]: every branch is a [todo!]. *)
Definition lookup_option_report (letter : char) : outcome unit := Panic PTodo.

(** ** scanner.rs:452-461 [next_element] *)
Definition next_element (input : str) : option str :=
  match find_char (fun c => (c =? 32)%N || (c =? 9)%N) input with
  | Some i => Some (firstn i input)
  | None => None
  end.

(** ** amount.rs:235-259, 174-178: [From<i32>], [From<&str>] and [Into<i32>] of [Quantity], [From<i32>] of
    [Amount].  [Decimal::to_i32] truncates and fails out of range. *)
Definition quantity_from_i32 (z : Z) : dec := d_of_int z.
Definition amount_from_i32 (z : Z) : amount := mkAmt (d_of_int z) None.
Definition quantity_from_str (s : str) : outcome dec := unwrap (d_from_str s).
Definition quantity_into_i32 (d : dec) : outcome Z :=
  let z := Z.quot (d_signed d) (p10 (d_s d)) in
  if ((- 2 ^ 31 <=? z) && (z <? 2 ^ 31))%Z then Ok z else Panic PUnwrap.
