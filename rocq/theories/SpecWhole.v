(** Specification vocabulary for whole written journals: plain descriptions of transactions, how they
    are written down as lines, and when a transaction of the model is the one described. *)
From Coq Require Import String List NArith ZArith Bool.
From Verif Require Import Base Decimal Dates Amount Pool Account Journal Scanner Parser.
From Verif Require Import SpecDecimal SpecAmount SpecDates SpecAccount SpecXact SpecText SpecReading SpecScan.
Import ListNotations.
Open Scope nat_scope.

(** A posting: an account and perhaps an amount, given by its value in multiples of 10^-28, the number
    of decimals and the symbol. *)
Record wposting := mkWP { wp_account : str; wp_amount : option (Z * nat * str) }.
Record wxact := mkWX { wx_date : date; wx_aux : option date; wx_payee : str; wx_note : str; wx_posts : list wposting }.

(** How they are written. *)
Definition writes_posting (l : str) (w : wposting) : Prop :=
  exists r q s, l = 32%N :: r /\ posting_line l (mkPT (wp_account w) q s [] [] [] [] [] false)
    /\ match wp_amount w with
       | Some (u, k, s') => s' = s /\ denotes q u k
       | None => q = [] /\ s = []
       end.
Definition writes_header (l : str) (w : wxact) : Prop :=
  exists dt auxt, header_line l dt auxt (wx_payee w) (wx_note w) /\ date_written dt (wx_date w) /\ aux_written auxt (wx_aux w).
(** The line that ends a transaction: an empty line or one of white space that starts with a space. *)
Definition end_line (l : str) : Prop := l = nl \/ l = [13%N; 10%N] \/ exists r, l = 32%N :: r /\ spaces r.

Inductive writes_journal : list str -> list wxact -> Prop :=
| wj_nil : writes_journal [] []
| wj_inert l lines ws : inert (Some l) -> writes_journal lines ws -> writes_journal (l :: lines) ws
| wj_xact h ps e lines w ws : writes_header h w -> Forall2 writes_posting ps (wx_posts w) -> end_line e ->
    writes_journal lines ws -> writes_journal (h :: ps ++ e :: lines) (w :: ws)
| wj_last h ps w : writes_header h w -> Forall2 writes_posting ps (wx_posts w) ->
    writes_journal (h :: ps) [w].

(** The lines of a text: only the last line may lack its line feed. *)
Definition one_line (l : str) : Prop := exists b, l = b ++ nl /\ ~ In 10%N b.
Definition lines_of (t : str) (lines : list str) : Prop :=
  t = concat lines
  /\ (Forall one_line lines \/ exists ls l, lines = ls ++ [l] /\ Forall one_line ls /\ l <> [] /\ ~ In 10%N l).

(** The written amounts of a transaction, and what is well-formed: two or more postings, at most one of
    them without amount, one commodity, and sums of representable size. *)
Definition written_units (w : wxact) : list Z :=
  flat_map (fun p => match wp_amount p with Some (u, _, _) => [u] | None => [] end) (wx_posts w).
Definition well_formed (w : wxact) : Prop :=
  2 <= length (wx_posts w)
  /\ (forall i k, option_map wp_amount (nth_error (wx_posts w) i) = Some None ->
                  option_map wp_amount (nth_error (wx_posts w) k) = Some None -> i = k)
  /\ (exists sym, Forall (fun p => forall u k s, wp_amount p = Some (u, k, s) -> s = sym) (wx_posts w))
  /\ exists scale, scale <= 28
     /\ Forall (fun p => forall u k s, wp_amount p = Some (u, k, s) -> k <= scale) (wx_posts w)
     /\ (sumZ (map Z.abs (written_units w)) < 2 ^ 96 * 10 ^ Z.of_nat (28 - scale))%Z.

(** [x] is the transaction described by [w]; an amount left out is minus the absolute sum of the
    others, in their commodity and with no more decimals than they have. *)
Definition posting_is (w : wxact) (wp : wposting) (p : post) : Prop :=
  po_account p = components (wp_account wp) /\ po_cost p = None /\ po_note p = None
  /\ exists a, po_amount p = Some a
     /\ match wp_amount wp with
        | Some (u, k, s) => amount_is a u k s
        | None => aunits a = (- Z.abs (sumZ (written_units w)))%Z
                  /\ Forall (fun q => forall u k s, wp_amount q = Some (u, k, s) -> a_c a = commodity_of s) (wx_posts w)
                  /\ forall n, Forall (fun q => forall u k s, wp_amount q = Some (u, k, s) -> k <= n) (wx_posts w) -> d_s (a_q a) <= n
        end.
Definition xact_is (w : wxact) (x : xact) : Prop :=
  x_date x = Some (wx_date w) /\ x_aux_date x = wx_aux w /\ x_payee x = wx_payee w
  /\ x_note x = match wx_note w with [] => None | n => Some n end
  /\ Forall2 (posting_is w) (wx_posts w) (x_posts x).
