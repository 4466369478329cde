(** Model of parser.rs. *)
From Coq Require Import String List NArith ZArith Bool Lia.
From Verif Require Import Base Decimal Dates Amount Balance Scanner History Pool Account Journal Xact.
Import ListNotations.

Definition set_pool (j : journal) (p : pool) : journal := mkJournal (j_master j) p (j_xacts j).
Definition set_master (j : journal) (a : account) : journal := mkJournal a (j_pool j) (j_xacts j).
Definition set_xacts (j : journal) (xs : list xact) : journal := mkJournal (j_master j) (j_pool j) xs.

(** parser.rs:71-84 [parse_amount_parts]: the commodity is created even if the quantity is not
    readable. *)
Definition parse_amount_parts (p : pool) (quantity commodity : str) : pool * option amount :=
  let '(p1, c) := pool_find_or_create p commodity None in
  (p1, option_map (fun q => mkAmt q c) (d_from_str quantity)).

(** parser.rs:63-66 [parse_amount] *)
Definition parse_amount (p : pool) (s : str) : outcome (pool * option amount) :=
  let* (q, c, _) := scan_amount s in Ok (parse_amount_parts p q c).

(** parser.rs:477-502 [parse_cost] *)
Definition parse_cost (p : pool) (t : post_tokens) (amt : option amount)
  : outcome (pool * option amount) :=
  match amt with
  | None => Ok (p, None)
  | Some a =>
      if is_empty (t_cost_quantity t) then Ok (p, None)
      else
        let '(p1, cost) := parse_amount_parts p (t_cost_quantity t) (t_cost_symbol t) in
        match cost with
        | None => Ok (p1, None)
        | Some c => if t_is_per_unit t then let* c' := amt_mul c a in Ok (p1, Some c')
                    else Ok (p1, Some c)
        end
  end.

(** Append a posting to transaction [xi] (xact.rs:79-83 [add_post]). *)
Definition add_post (xs : list xact) (xi : nat) (p : post) : list xact :=
  update_nth xi (fun x => set_posts x (x_posts x ++ [p])) xs.

(** parser.rs:415-475 [parse_post] *)
Definition parse_post (j : journal) (xi : nat) (input : str) : outcome journal :=
  let* t := scan_post input in
  let* (master1, acct) := register_account (j_master j) (t_account t) in
  let '(p1, amt) := parse_amount_parts (j_pool j) (t_quantity t) (t_symbol t) in
  let* (p2, ann) := annotation_parse p1 (t_price_date t) (t_price_quantity t) (t_price_commodity t) in
  let '(p3, _) := pool_find_or_create p2 (t_symbol t) (Some ann) in
  let* (p4, cost) := parse_cost p3 t amt in
  match nth_error (j_xacts j) xi with
  | None => Panic PNull
  | Some x =>
      let xs := add_post (j_xacts j) xi (mkPost acct amt cost None) in
      let* master2 := push_post master1 acct (xi, length (x_posts x)) in
      Ok (mkJournal master2 p4 xs)
  end.

(** xact.rs:74-76 and post.rs:50-52 [add_note]: the previous note is replaced. *)
Definition xact_add_note (x : xact) (note : str) : xact :=
  mkXact (x_date x) (x_aux_date x) (x_payee x) (Some note) (x_posts x).
Definition post_add_note (p : post) (note : str) : post :=
  mkPost (po_account p) (po_amount p) (po_cost p) (Some note).

(** parser.rs:383-410 [parse_trailing_note]; [line] is the trimmed line, starting with ';'. *)
Definition parse_trailing_note (j : journal) (xi : nat) (line : str) : outcome journal :=
  let note := trim (skipn 1 line) in
  if is_empty note then Ok j
  else Ok (set_xacts j
             (update_nth xi
                (fun x => match x_posts x with
                          | [] => xact_add_note x note
                          | _ => set_posts x (update_nth (length (x_posts x) - 1)
                                                (fun p => post_add_note p note) (x_posts x))
                          end) (j_xacts j))).

(** parser.rs:258-266 [create_xact]: the new transaction is the last one of the journal. *)
Definition create_xact (j : journal) (line : str) : outcome journal :=
  let* (d, aux, payee, note) := tokenize_xact_header line in
  let* x := xact_create d aux payee note in
  Ok (set_xacts j (j_xacts j ++ [x])).

(** An input file: the results of the successive [read_line] calls, [None] for a line that cannot
    be decoded (an [Err] of [read_line]). *)
Definition source := list (option str).
Definition text_source (s : str) : source := map Some (split_lines s).

(** Where the parser is: between directives, or inside transaction number [xi]. *)
Inductive mode := Top | InXact (xi : nat).

(** What a line does: the new mode and journal, or the end of this source. *)
Inductive next := Continue (m : mode) (j : journal) | Stop (j : journal).

(** parser.rs:283-321: one line inside a transaction. *)
Definition xact_line (j : journal) (xi : nat) (line : str) : outcome next :=
  match line with
  | 32%N :: _ =>
      match trim_start line with
      | [] => let* j' := finalize j xi in Ok (Continue Top j')
      | 59%N :: r => let* j' := parse_trailing_note j xi (59%N :: r) in
                     Ok (Continue (InXact xi) j')
      | input => let* j' := parse_post j xi input in Ok (Continue (InXact xi) j')
      end
  | 13%N :: _ | 10%N :: _ => let* j' := finalize j xi in Ok (Continue Top j')
  | [] => Panic PTodo
  | _ => Panic PExplicit
  end.

(** parser.rs:200-249 [general_directive] and 164-192: [inc] reads an included file
    (parser.rs:335-377). *)
Definition general_directive (inc : str -> journal -> outcome journal) (j : journal) (line : str)
  : outcome journal :=
  let '(directive, rest) := take_word line in
  match directive with
  | [] => Panic PExplicit
  | 97%N :: _ => Panic PTodo                                      (* 'a' *)
  | 105%N :: _ =>                                                 (* 'i' *)
      if str_eqb directive (lit "include") then
        match fst (take_word rest) with
        | [] => Panic PUnwrap
        | argument => inc argument j
        end
      else if str_eqb directive (lit "import") then Panic PTodo
      else let* p := parse_price_directive (j_pool j) line in Ok (set_pool j p)
  | _ => Panic PTodo
  end.

(** parser.rs:139-196 [read_next_directive]: one line between directives. *)
Definition top_line (inc : str -> journal -> outcome journal) (j : journal) (line : str)
  : outcome next :=
  if str_eqb line [13%N; 10%N] || str_eqb line [10%N] then Ok (Continue Top j)
  else match line with
       | [] => Panic PUnwrap
       | c :: _ =>
           if (c =? 59)%N || (c =? 35)%N || (c =? 42)%N || (c =? 124)%N   (* ; # * | *)
           then Ok (Continue Top j)
           else if (c =? 45)%N then Ok (Continue Top j)                    (* '-' *)
           else if is_digit c then
             let* j' := create_xact j line in
             Ok (Continue (InXact (length (j_xacts j))) j')
           else if (c =? 32)%N || (c =? 9)%N then Panic PTodo
           else let* j' := general_directive inc j line in Ok (Continue Top j')
       end.

(** parser.rs:108-137 [parse] and 268-331 [xact_directive]: the two nested reading loops as one
    loop over the lines with a mode.  An undecodable line ends the transaction being read, or
    the whole source when between directives. *)
Definition step (inc : str -> journal -> outcome journal) (m : mode) (j : journal)
           (line : option str) : outcome next :=
  match m, line with
  | Top, None => Ok (Stop j)
  | InXact xi, None => let* j' := finalize j xi in Ok (Continue Top j')
  | Top, Some l => top_line inc j l
  | InXact xi, Some l => xact_line j xi l
  end.

Fixpoint parse_lines (inc : str -> journal -> outcome journal) (m : mode) (j : journal)
         (lines : source) : outcome journal :=
  match lines with
  | [] => match m with
          | Top => Ok j
          | InXact xi => finalize j xi
          end
  | l :: lines' =>
      let* n := step inc m j l in
      match n with
      | Continue m' j' => parse_lines inc m' j' lines'
      | Stop j' => Ok j'
      end
  end.

(** The files that exist, by path. *)
Definition filesystem := str -> option source.

(** [PathBuf::push] of a relative path. *)
Definition push_path (dir name : str) : str :=
  match rev dir with
  | [] => name
  | 47%N :: _ => dir ++ name
  | _ => dir ++ 47%N :: name
  end.
(** parser.rs:337-360: how an include argument is turned into a path. *)
Definition resolve (cwd arg : str) : str :=
  match arg with
  | 47%N :: _ | 92%N :: _ | 126%N :: _ => arg
  | _ => push_path cwd arg
  end.
(** [Path::components] but for the root: empty parts and ["."] are skipped, except for ["."] in front. *)
Fixpoint path_parts (p : str) : list str :=
  match p with
  | [] => [[]]
  | c :: p' => if (c =? 47)%N then [] :: path_parts p'
               else match path_parts p' with
                    | q :: qs => (c :: q) :: qs
                    | [] => [[c]]
                    end
  end.
Definition path_components (p : str) : list str :=
  match path_parts p with
  | [] => []
  | q :: qs => (if is_empty q then [] else [q]) ++ filter (fun q => negb (is_empty q) && negb (str_eqb q (lit "."))) qs
  end.
(** parser.rs:362-366: [filename.parent().unwrap()] panics for the root; the parent of a single relative
    component is [""], which does not exist. *)
Definition included (cwd : str) (fs : filesystem) (arg : str) : outcome (option source) :=
  let p := resolve cwd arg in
  match path_components p with
  | [] => Panic PUnwrap
  | [_] => match p with 47%N :: _ => Ok (fs p) | _ => Ok None end
  | _ => Ok (fs p)
  end.

(** parser.rs:335-377 [include_directive] with lib.rs:144-147 [parse_file]: a path that is not an
    existing file is ignored.  [depth] bounds the nesting of includes. *)
Fixpoint include_file (depth : nat) (cwd : str) (fs : filesystem) (arg : str) (j : journal)
  : outcome journal :=
  match depth with
  | O => Diverge
  | S d => let* file := included cwd fs arg in
           match file with
           | None => Ok j
           | Some src => parse_lines (include_file d cwd fs) Top j src
           end
  end.

(** parser.rs:42-46 [read_into_journal] *)
Definition read_into_journal (depth : nat) (cwd : str) (fs : filesystem) (src : source)
           (j : journal) : outcome journal :=
  parse_lines (include_file depth cwd fs) Top j src.

(** journal.rs:99-104 [Journal::read]: the journal and the returned number. *)
Definition journal_read (depth : nat) (cwd : str) (fs : filesystem) (src : source) (j : journal)
  : outcome (journal * nat) :=
  let* j' := read_into_journal depth cwd fs src j in Ok (j', length (j_xacts j')).

(** lib.rs:144-147 [parse_file]: a missing file panics here. *)
Definition parse_file (depth : nat) (cwd : str) (fs : filesystem) (file : str) (j : journal)
  : outcome journal :=
  match fs file with
  | None => Panic PIo
  | Some src => read_into_journal depth cwd fs src j
  end.

(** lib.rs:153-156 [parse_text] *)
Definition parse_text (depth : nat) (cwd : str) (fs : filesystem) (text : str) (j : journal)
  : outcome journal := read_into_journal depth cwd fs (text_source text) j.
