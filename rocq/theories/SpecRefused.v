(** Specification vocabulary: which sources are refused. *)
From Coq Require Import String List NArith ZArith Bool.
From Verif Require Import Base Dates Decimal Amount Balance Scanner Account Journal Parser.
From Verif Require Import SpecText SpecDecimal SpecAmount SpecReading SpecDates SpecAccount SpecXact SpecScan SpecOutline SpecLine SpecValue SpecContent.
Import ListNotations.
Open Scope nat_scope.

(** A text that is read as a quantity: a literal in range; underscores only after a digit, none after 28 decimals. *)
Definition quantity_text (s : str) (neg : bool) (whole frac : str) : Prop :=
  literal_of s neg whole frac
  /\ (forall a b, s = a ++ underscore_c :: b -> existsb is_digit a = true)
  /\ (number (whole ++ frac) < 2 ^ 96)%Z /\ length frac <= 28
  /\ (length frac = 28 -> forall a, s <> a ++ [underscore_c]).

(** ** Lines between transactions *)
(** A path that names the root directory. *)
Definition root_path (p : str) : Prop := exists r, p = lit "/" ++ r /\ (forall c, In c r -> In c (lit "/.")) /\ ~ contains (lit "..") p.
(** A price line that is refused: it cannot be split into its parts, or one of them is not what it should be. *)
Definition price_line_refused (l : str) : Prop :=
  price_refused l
  \/ exists date time s q t, price_read l date time s q t
     /\ (~ (exists d, denotes_date date d) \/ time <> [] /\ ~ (exists v, denotes_time time v)
         \/ ~ (exists neg whole frac, quantity_text q neg whole frac) \/ s = [] \/ t = [] \/ s = t).
Inductive line_refused (cwd : str) : str -> Prop :=
| lx_empty : line_refused cwd []
| lx_indented c r : In c [32%N; 9%N] -> line_refused cwd (c :: r)
| lx_unknown c r : ~ inert (Some (c :: r)) -> is_digit c = false -> (forall w x, c :: r = w ++ 105%N :: x -> ~ spaces w) -> line_refused cwd (c :: r)
| lx_import w r : spaces w -> (r = [] \/ exists c r', r = c :: r' /\ is_ws c = true) -> line_refused cwd (w ++ lit "import" ++ r)
| lx_include w r : spaces w -> spaces r -> line_refused cwd (w ++ lit "include" ++ r)
| lx_root l arg p : include_line l arg -> names_file cwd arg p -> root_path p -> line_refused cwd l
| lx_price l : read_as_price l -> price_line_refused l -> line_refused cwd l.

(** ** Lines of transactions *)
Definition header_refused (h : str) : Prop :=
  exists d aux payee n, header_read h d aux payee n
    /\ (~ (exists e, denotes_date d e) \/ aux <> [] /\ ~ exists e, denotes_date aux e).
Definition posting_refused (l : str) : Prop :=
  post_refused l \/ exists tok, post_read l tok /\ t_price_date tok <> [] /\ ~ exists e, denotes_date (t_price_date tok) e.

(** ** The end of a transaction *)
(** The sum of some values, added one after the other and rounded each time. *)
Inductive summed : Z -> list Z -> Z -> Prop :=
| sm_end u : summed u [] u
| sm_add u v q l r : nearest (u + v) 1 q -> summed (units q) l r -> summed u (v :: l) r.
Definition sum_in (c : comm) (ps : list post) (u : Z) : Prop := summed 0 (map aunits (in_comm c (worths ps))) u.
(** The worths are in exactly two commodities, neither sum is zero, and [x] is the one that is priced. *)
Definition two_sums (ps : list post) (x y : comm) : Prop :=
  x <> y
  /\ (forall c, In c (map a_c (worths ps)) <-> c = x \/ c = y)
  /\ (exists u, sum_in x ps u /\ u <> 0%Z) /\ (exists u, sum_in y ps u /\ u <> 0%Z)
  /\ exists top, first_amount ps top
      /\ (a_c top = x \/ a_c top <> y /\ exists r, firsts (map a_c (worths ps)) = y :: r).
(** The price of one unit is not zero. *)
Definition has_price (a c : amount) : Prop :=
  (aunits a = 0 /\ aunits c <> 0)%Z \/ (aunits a <> 0)%Z /\ exists q, nearest (aunits c * unit1) (aunits a) q /\ units q <> 0%Z.
(** A cost that is refused: in the commodity of the amount, of an amount without commodity, or a price without one. *)
Definition cost_unusable (a c : amount) : Prop := a_c a = a_c c \/ a_c a = None \/ a_c c = None /\ has_price a c.
Inductive unfinishable (ps : list post) : Prop :=
| uf_single p : ps = [p] -> unfinishable ps
| uf_two l1 p l2 q l3 : ps = l1 ++ p :: l2 ++ q :: l3 -> worth p = None -> worth q = None -> unfinishable ps
| uf_rest l1 p l2 a b : one_elided ps l1 p l2 -> In a (worths ps) -> In b (worths ps) -> a_c a <> a_c b -> unfinishable ps
| uf_cost p a c : In p ps -> po_amount p = Some a -> po_cost p = Some c -> cost_unusable a c ->
    (complete ps -> forall y, ~ two_sums ps (a_c a) y) -> unfinishable ps
| uf_implied x y p a : complete ps -> two_sums ps x y -> x = None \/ y = None -> In p ps -> po_amount p = Some a -> a_c a = x -> unfinishable ps.

(** ** Sources *)
Inductive refused (cwd : str) (fs : filesystem) : option entries -> source -> Prop :=
(* what is refused *)
| rf_line l src : line_refused cwd l -> refused cwd fs None (Some l :: src)
| rf_header c r src : is_digit c = true -> header_refused (c :: r) -> refused cwd fs None (Some (c :: r) :: src)
| rf_posting x r c src : first_mark r c -> c <> 59%N -> posting_refused r -> refused cwd fs (Some x) (Some (32%N :: r) :: src)
| rf_inside x l src : ~ In (hd 0%N l) [32%N; 13%N; 10%N] -> refused cwd fs (Some x) (Some l :: src)
| rf_end x d src : draft_told x d -> unfinishable (x_posts d) ->
    match src with
    | [] | None :: _ => True
    | Some l :: _ => hd 0%N l = 32%N /\ spaces l \/ hd 0%N l = 13%N \/ hd 0%N l = 10%N
    end -> refused cwd fs (Some x) src
(* included files *)
| rf_include l arg p f src : include_line l arg -> names_file cwd arg p -> file_path p -> fs p = Some f -> refused cwd fs None f ->
    refused cwd fs None (Some l :: src)
(* lines before *)
| rf_undecodable_xact x src : refused cwd fs None src -> refused cwd fs (Some x) (None :: src)
| rf_inert l src : inert l -> refused cwd fs None src -> refused cwd fs None (l :: src)
| rf_price l src : read_as_price l -> refused cwd fs None src -> refused cwd fs None (Some l :: src)
| rf_included l arg src : include_line l arg -> refused cwd fs None src -> refused cwd fs None (Some l :: src)
| rf_header_next c r src : is_digit c = true -> refused cwd fs (Some (c :: r, [])) src -> refused cwd fs None (Some (c :: r) :: src)
| rf_note h es r src : first_mark r 59%N -> refused cwd fs (Some (h, es ++ [Note_line r])) src -> refused cwd fs (Some (h, es)) (Some (32%N :: r) :: src)
| rf_posting_next h es r c src : first_mark r c -> c <> 59%N -> refused cwd fs (Some (h, es ++ [Posting_line r])) src ->
    refused cwd fs (Some (h, es)) (Some (32%N :: r) :: src)
| rf_blank x l src : spaces l -> hd 0%N l = 32%N -> refused cwd fs None src -> refused cwd fs (Some x) (Some l :: src)
| rf_return x l src : hd 0%N l = 13%N \/ hd 0%N l = 10%N -> refused cwd fs None src -> refused cwd fs (Some x) (Some l :: src).
