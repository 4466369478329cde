(** C27, C28, C36, C37, C39, C45: reading line by line. *)
From Coq Require Import String List NArith ZArith Bool Lia.
From Verif Require Import Base Decimal Dates Amount Balance Scanner History Pool Account Journal Xact Parser Lib.
From Verif Require Import SpecText SpecReading ReadingFacts TerminationFacts ReadingProofs DemoJournal DemoReading.
From Verif Require ModelTests.
Import ListNotations.
Open Scope list_scope.
Open Scope nat_scope.

(** ** C27: comments and empty lines are inert *)
(** Proved at every point that is not inside a transaction (for a reader of lines: after the empty
    line that ends it).  Missing: comments directly after the last posting, see
    [C27_after_posting_refuted]. *)
Theorem C27_inert_lines_partial :
  forall depth cwd fs src1 ins src2 j,
  inside src1 = false -> Forall inert ins ->
  read_into_journal depth cwd fs (src1 ++ ins ++ src2) j = read_into_journal depth cwd fs (src1 ++ src2) j.
Proof. exact inert_lines. Qed.
Print Assumptions C27_inert_lines_partial.

Theorem C27_inert_text_partial :
  forall depth cwd fs t1 c t2 j,
  complete_lines t1 -> complete_lines c -> inside (text_source t1) = false -> Forall inert (text_source c) ->
  parse_text depth cwd fs (t1 ++ c ++ t2) j = parse_text depth cwd fs (t1 ++ t2) j.
Proof. exact comment_text. Qed.
Print Assumptions C27_inert_text_partial.

(** Empty lines can also be added where a transaction ends. *)
Theorem C27_empty_lines :
  forall depth cwd fs src1 ins src2 j,
  Forall empty_line ins -> (src2 = [] \/ exists l r, src2 = l :: r /\ empty_line l) ->
  read_into_journal depth cwd fs (src1 ++ ins ++ src2) j = read_into_journal depth cwd fs (src1 ++ src2) j.
Proof. exact empty_before_empty. Qed.
Print Assumptions C27_empty_lines.

(** A comment between the last posting and the empty line after it is not inert. *)
Theorem C27_after_posting_refuted :
  ~ (forall depth cwd fs t1 c t2 j,
       complete_lines t1 -> complete_lines c -> Forall inert (text_source c) -> (exists r, t2 = nl ++ r) ->
       parse_text depth cwd fs (t1 ++ c ++ t2) j = parse_text depth cwd fs (t1 ++ t2) j).
Proof. exact comment_refuted. Qed.
Print Assumptions C27_after_posting_refuted.

Example C27_case :
  complete_lines (xact_text ++ nl) /\ inside (text_source (xact_text ++ nl)) = false /\ Forall inert (text_source comments)
  /\ length (split_lines comments) = 6
  /\ parse_text 3 [] ModelTests.no_files ((xact_text ++ nl) ++ comments ++ xact_text) journal_new
     = parse_text 3 [] ModelTests.no_files ((xact_text ++ nl) ++ xact_text) journal_new
  /\ option_map (fun j => length (j_xacts j))
       (match parse_text 3 [] ModelTests.no_files ((xact_text ++ nl) ++ xact_text) journal_new with Ok j => Some j | _ => None end) = Some 2
  /\ inside (text_source xact_text) = true.
Proof.
  split; [right; exists xact_text; reflexivity|]. split; [vm_compute; reflexivity|]. split; [exact comments_inert|].
  repeat split; vm_compute; reflexivity.
Qed.

(** ** C28: reading is compositional *)
Theorem C28_lines :
  forall depth cwd fs src1 src2 j,
  decodable src1 -> inside src1 = false ->
  read_into_journal depth cwd fs (src1 ++ src2) j
  = let* j' := read_into_journal depth cwd fs src1 j in read_into_journal depth cwd fs src2 j'.
Proof. exact read_app. Qed.
Print Assumptions C28_lines.

Theorem C28_texts :
  forall depth cwd fs t1 t2 j,
  complete_lines t1 -> inside (text_source t1) = false ->
  parse_text depth cwd fs (t1 ++ t2) j
  = let* j' := parse_text depth cwd fs t1 j in parse_text depth cwd fs t2 j'.
Proof. exact compose_text. Qed.
Print Assumptions C28_texts.

(** With an empty line between them, the texts compose wherever the first one ends. *)
Theorem C28_texts_blank_line :
  forall depth cwd fs t1 t2 j,
  complete_lines t1 ->
  parse_text depth cwd fs (t1 ++ nl ++ t2) j
  = let* j' := parse_text depth cwd fs t1 j in parse_text depth cwd fs t2 j'.
Proof. exact compose_text_blank. Qed.
Print Assumptions C28_texts_blank_line.

Example C28_case :
  complete_lines (text1 ++ nl) /\ inside (text_source (text1 ++ nl)) = false
  /\ read_on ((text1 ++ nl) ++ text2) journal_new = Ok j2 /\ read_on (text1 ++ nl) journal_new = Ok j1 /\ read_on text2 j1 = Ok j2
  /\ length (j_xacts j1) = 2 /\ length (j_xacts j2) = 3.
Proof. split; [right; exists text1; reflexivity|]. repeat split; vm_compute; reflexivity. Qed.

(** ** C36: include *)
(** An include line acts like the lines of the included file followed by an empty line, for results
    other than running out of nesting depth.  Missing: a missing file is not an error, see
    [C36_missing_refuted]; for files with undecodable lines see C39. *)
Theorem C36_include_inlined_partial :
  forall depth cwd fs src1 src2 j l arg path contents e,
  inside src1 = false -> include_line l arg -> hd_error l = Some 105%N ->
  names_file cwd arg path -> file_path path -> fs path = Some contents -> decodable contents -> empty_line e ->
  let with_include := src1 ++ Some l :: src2 in
  let inlined := src1 ++ contents ++ e :: src2 in
  (read_into_journal (S depth) cwd fs with_include j <> Diverge ->
   read_into_journal (S depth) cwd fs inlined j = read_into_journal (S depth) cwd fs with_include j)
  /\ (read_into_journal depth cwd fs inlined j <> Diverge ->
      read_into_journal (S depth) cwd fs with_include j = read_into_journal depth cwd fs inlined j).
Proof. exact include_inline. Qed.
Print Assumptions C36_include_inlined_partial.

(** An include line that names no existing file is ignored. *)
Theorem C36_missing_ignored :
  forall depth cwd fs src1 src2 j l arg path,
  inside src1 = false -> include_line l arg -> hd_error l = Some 105%N -> names_file cwd arg path -> file_path path -> fs path = None ->
  read_into_journal (S depth) cwd fs (src1 ++ Some l :: src2) j = read_into_journal (S depth) cwd fs (src1 ++ src2) j.
Proof. exact include_missing. Qed.
Print Assumptions C36_missing_ignored.

Theorem C36_missing_refuted :
  ~ (forall depth cwd fs s1 s2 arg path l j,
       inside s1 = false -> include_line l arg -> hd_error l = Some 105%N -> names_file cwd arg path -> file_path path -> fs path = None ->
       forall j', read_into_journal depth cwd fs (s1 ++ Some l :: s2) j <> Ok j').
Proof. exact include_missing_refuted. Qed.
Print Assumptions C36_missing_refuted.

(** Without a directory an existing file is not read if its name starts with a tilde or a backslash. *)
Theorem C36_bare_name_refuted :
  ~ (forall depth cwd fs src1 src2 j l arg path contents e,
       inside src1 = false -> include_line l arg -> hd_error l = Some 105%N ->
       names_file cwd arg path -> fs path = Some contents -> decodable contents -> empty_line e ->
       read_into_journal depth cwd fs (src1 ++ contents ++ e :: src2) j <> Diverge ->
       read_into_journal (S depth) cwd fs (src1 ++ Some l :: src2) j = read_into_journal depth cwd fs (src1 ++ contents ++ e :: src2) j).
Proof. exact tilde_refuted. Qed.
Print Assumptions C36_bare_name_refuted.
Theorem C36_bare_name_ignored :
  forall depth cwd fs src1 src2 j l c r,
  inside src1 = false -> include_line l (c :: r) -> hd_error l = Some 105%N -> In c (lit "\~") -> ~ In 47%N r ->
  read_into_journal (S depth) cwd fs (src1 ++ Some l :: src2) j = read_into_journal (S depth) cwd fs (src1 ++ src2) j.
Proof. exact include_bare. Qed.
Print Assumptions C36_bare_name_ignored.
Theorem C36_root_panics :
  forall depth cwd fs src1 src2 j j' l,
  inside src1 = false -> include_line l (lit "/") -> hd_error l = Some 105%N -> decodable src1 -> read_into_journal (S depth) cwd fs src1 j = Ok j' ->
  read_into_journal (S depth) cwd fs (src1 ++ Some l :: src2) j = Panic PUnwrap.
Proof. exact include_root. Qed.
Print Assumptions C36_root_panics.
Example C36_bare_case :
  include_line (plain_include tilde) tilde /\ names_file (lit "/w") tilde tilde /\ tilde_fs tilde = Some (text_source xact_text)
  /\ read_into_journal 1 (lit "/w") tilde_fs [Some (plain_include tilde)] journal_new = Ok journal_new
  /\ include_line (plain_include (lit "/")) (lit "/") /\ read_into_journal 1 (lit "/w") tilde_fs [Some (plain_include (lit "/"))] journal_new = Panic PUnwrap.
Proof.
  split; [apply plain_include_line, tilde_word|]. split; [apply names_resolve; reflexivity|]. split; [reflexivity|]. split; [vm_compute; reflexivity|].
  split; [apply plain_include_line; split; [discriminate|reflexivity]|]. vm_compute. reflexivity.
Qed.

Example C36_case :
  include_line include_food (lit "food.ledger") /\ hd_error include_food = Some 105%N
  /\ names_file (lit "/w") (lit "food.ledger") inc_path /\ file_path inc_path /\ demo_fs inc_path = Some (text_source xact_text)
  /\ read_into_journal 1 (lit "/w") demo_fs (text_source comments ++ Some include_food :: text_source text2) journal_new
     = read_into_journal 1 (lit "/w") demo_fs (text_source comments ++ text_source xact_text ++ Some nl :: text_source text2) journal_new
  /\ option_map (fun j => length (j_xacts j))
       (match read_into_journal 1 (lit "/w") demo_fs (text_source comments ++ Some include_food :: text_source text2) journal_new
        with Ok j => Some j | _ => None end) = Some 2.
Proof.
  split; [exact (plain_include_line _ food_word)|]. split; [reflexivity|]. split; [exact inc_named|]. split; [exact inc_file_path|].
  split; [reflexivity|]. split; vm_compute; reflexivity.
Qed.

(** ** C37: notes *)
(** A comment line inside a transaction sets the note of the transaction if it has no posting yet,
    and of its last posting otherwise, and changes nothing else.  Missing: it replaces an earlier
    note, see [C37_earlier_note_refuted]. *)
Theorem C37_note_line_partial :
  forall inc j xi x l note,
  nth_error (j_xacts j) xi = Some x -> note_line l note ->
  exists j', step inc (InXact xi) j (Some l) = Ok (Continue (InXact xi) j') /\ noted_at xi note j j'.
Proof. exact note_step. Qed.
Print Assumptions C37_note_line_partial.

(** The same for the result of reading a text that ends inside a transaction. *)
Theorem C37_note_read_partial :
  forall depth cwd fs src j j1 l note,
  decodable src -> inside src = true -> note_line l note ->
  read_into_journal depth cwd fs src j = Ok j1 ->
  exists j', read_into_journal depth cwd fs (src ++ [Some l]) j = Ok j'
    /\ noted_at (length (j_xacts j1) - 1) note j1 j'.
Proof. exact note_at_end. Qed.
Print Assumptions C37_note_read_partial.

Theorem C37_earlier_note_refuted :
  ~ (forall depth cwd fs s1 l1 n1 l2 n2 j j',
       decodable s1 -> inside s1 = true -> note_line l1 n1 -> note_line l2 n2 ->
       read_into_journal depth cwd fs (s1 ++ [Some l1] ++ [Some l2]) j = Ok j' ->
       Exists (mentions n1) (all_posts j') \/ Exists (fun x => exists n, x_note x = Some n /\ find_sub n1 n <> None) (j_xacts j')).
Proof. exact earlier_note_refuted. Qed.
Print Assumptions C37_earlier_note_refuted.

Example C37_case :
  decodable note_text /\ inside note_text = true /\ note_line note1 (lit "first note")
  /\ match read_into_journal 3 [] ModelTests.no_files (note_text ++ [Some note1]) journal_new with
     | Ok j => map po_note (all_posts j) = [None; Some (lit "first note")] /\ map x_note (j_xacts j) = [None]
     | _ => False
     end
  /\ match read_into_journal 3 [] ModelTests.no_files (firstn 1 note_text ++ [Some note1] ++ skipn 1 note_text) journal_new with
     | Ok j => map po_note (all_posts j) = [None; None] /\ map x_note (j_xacts j) = [Some (lit "first note")]
     | _ => False
     end.
Proof.
  split; [apply text_decodable|]. split; [vm_compute; reflexivity|]. split; [exact note1_line|].
  split; vm_compute; split; reflexivity.
Qed.

(** ** C39: undecodable lines *)
(** False: reading does not fail.  A message is printed, see [C39_message] in PropertiesStdout.v. *)
Theorem C39_reported_refuted :
  ~ (forall depth cwd fs s1 s2 j j', read_into_journal depth cwd fs (s1 ++ None :: s2) j <> Ok j').
Proof. exact undecodable_refuted. Qed.
Print Assumptions C39_reported_refuted.

(** What happens instead: between transactions the rest of the source is dropped ... *)
Theorem C39_rest_dropped :
  forall depth cwd fs src1 src2 j,
  decodable src1 -> inside src1 = false ->
  read_into_journal depth cwd fs (src1 ++ None :: src2) j = read_into_journal depth cwd fs src1 j.
Proof. exact undecodable_top. Qed.
Print Assumptions C39_rest_dropped.

(** ... and inside a transaction the line ends the transaction like an empty line. *)
Theorem C39_ends_transaction :
  forall depth cwd fs src1 src2 j,
  decodable src1 -> inside src1 = true ->
  read_into_journal depth cwd fs (src1 ++ None :: src2) j = read_into_journal depth cwd fs (src1 ++ Some nl :: src2) j.
Proof. exact undecodable_inside. Qed.
Print Assumptions C39_ends_transaction.

Example C39_case :
  inside (text_source (text1 ++ nl)) = false
  /\ read_into_journal 3 [] ModelTests.no_files (text_source (text1 ++ nl) ++ None :: text_source text2) journal_new = Ok j1
  /\ inside (text_source text1) = true
  /\ read_into_journal 3 [] ModelTests.no_files (text_source text1 ++ None :: text_source text2) journal_new = Ok j2.
Proof. repeat split; vm_compute; reflexivity. Qed.

(** ** C45: termination *)
(** With finitely many files and no include cycle there is a result, the same for every nesting
    depth greater than the number of files. *)
Theorem C45_reading_terminates :
  forall cwd fs files, acyclic cwd fs -> only_files fs files ->
  forall src j, exists o, o <> Diverge /\ forall depth, length files < depth -> read_into_journal depth cwd fs src j = o.
Proof. exact terminates. Qed.
Print Assumptions C45_reading_terminates.

Theorem C45_run_terminates :
  forall cwd fs files, acyclic cwd fs -> only_files fs files ->
  forall depth args, length files < depth -> run depth cwd fs args <> Diverge.
Proof. exact nd_run. Qed.
Print Assumptions C45_run_terminates.

(** A file that starts by including itself is never read to its end. *)
Theorem C45_cycle_diverges :
  forall cwd fs arg path l src1 src2,
  Forall inert src1 -> include_line l arg -> hd_error l = Some 105%N ->
  names_file cwd arg path -> file_path path -> fs path = Some (src1 ++ Some l :: src2) ->
  forall depth j, read_into_journal depth cwd fs [Some l] j = Diverge.
Proof. exact self_include_diverges. Qed.
Print Assumptions C45_cycle_diverges.

Example C45_case :
  acyclic (lit "/w") demo_fs /\ only_files demo_fs [inc_path]
  /\ option_map (fun j => length (j_xacts j))
       (match read_into_journal 2 (lit "/w") demo_fs [Some include_food] journal_new with Ok j => Some j | _ => None end) = Some 1.
Proof. split; [exact demo_acyclic|]. split; [exact demo_only|]. vm_compute. reflexivity. Qed.
Example C45_cycle_case :
  Forall inert (text_source comments) /\ names_file (lit "/w") (lit "food.ledger") inc_path /\ file_path inc_path
  /\ loop_fs inc_path = Some (text_source comments ++ Some include_food :: []).
Proof. split; [exact comments_inert|]. split; [exact inc_named|]. split; [exact inc_file_path|]. vm_compute. reflexivity. Qed.
