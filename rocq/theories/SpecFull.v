(** Specification vocabulary for whole journals with everything a posting can have: lots, costs, notes;
    and with include lines. *)
From Coq Require Import String List NArith ZArith Bool.
From Verif Require Import Base Decimal Dates Amount Pool Account Journal Scanner Parser.
From Verif Require Import SpecDecimal SpecAmount SpecDates SpecPool SpecAccount SpecXact SpecText SpecReading SpecScan SpecWhole.
Import ListNotations.
Open Scope nat_scope.

(** ** What is described *)

(** A number with a symbol: the value in multiples of 10^-28, the number of decimals and the symbol,
    which may be empty. *)
Record wamount := mkWA { wa_units : Z; wa_decimals : nat; wa_symbol : str }.
(** An amount, perhaps with the price and the date of its lot, and with a cost, for one unit or for all. *)
Record wvalue := mkWV { wv_amount : wamount; wv_lot : option wamount; wv_lot_date : option date; wv_cost : option (bool * wamount) }.
(** A posting with the notes on the lines after it, and a transaction with the note of its header and the
    notes on the lines after that. *)
Record fposting := mkFP { fp_account : str; fp_value : option wvalue; fp_notes : list str }.
Record fxact := mkFX { fx_date : date; fx_aux : option date; fx_payee : str; fx_note : str; fx_notes : list str; fx_posts : list fposting }.

(** ** How it is written *)
Definition means (q s : str) (a : wamount) : Prop := denotes q (wa_units a) (wa_decimals a) /\ s = wa_symbol a.
Definition writes_value (tok : post_tokens) (v : option wvalue) : Prop :=
  match v with
  | None => t_quantity tok = []
  | Some v =>
      means (t_quantity tok) (t_symbol tok) (wv_amount v)
      /\ match wv_lot v with
         | Some a => means (t_price_quantity tok) (t_price_commodity tok) a
         | None => t_price_quantity tok = []
         end
      /\ aux_written (t_price_date tok) (wv_lot_date v)
      /\ match wv_cost v with
         | Some (unit, a) => t_is_per_unit tok = unit /\ means (t_cost_quantity tok) (t_cost_symbol tok) a
         | None => t_cost_quantity tok = []
         end
  end.
Definition writes_fposting (ls : list str) (p : fposting) : Prop :=
  exists l r tok notes, ls = l :: notes /\ l = 32%N :: r /\ posting_line l tok /\ t_account tok = fp_account p
    /\ writes_value tok (fp_value p) /\ Forall2 note_line notes (fp_notes p).
Definition writes_fheader (ls : list str) (w : fxact) : Prop :=
  exists h notes dt auxt, ls = h :: notes /\ header_line h dt auxt (fx_payee w) (fx_note w)
    /\ date_written dt (fx_date w) /\ aux_written auxt (fx_aux w) /\ Forall2 note_line notes (fx_notes w).

(** [says cwd fs depth lines ws]: the lines say [ws]; included files, nested at most [depth] deep, are
    read from [fs]. *)
Inductive says (cwd : str) (fs : filesystem) : nat -> list str -> list fxact -> Prop :=
| says_nil d : says cwd fs d [] []
| says_inert d l lines ws : inert (Some l) -> says cwd fs d lines ws -> says cwd fs d (l :: lines) ws
| says_include d l arg p t lines' ws' lines ws :
    include_line l arg -> hd_error l = Some 105%N -> names_file cwd arg p -> file_path p -> fs p = Some (text_source t) -> lines_of t lines' ->
    says cwd fs d lines' ws' -> says cwd fs (S d) lines ws -> says cwd fs (S d) (l :: lines) (ws' ++ ws)
| says_xact d h pls e lines w ws :
    writes_fheader h w -> Forall2 writes_fposting pls (fx_posts w) -> end_line e ->
    says cwd fs d lines ws -> says cwd fs d (h ++ concat pls ++ e :: lines) (w :: ws)
| says_last d h pls w :
    writes_fheader h w -> Forall2 writes_fposting pls (fx_posts w) -> says cwd fs d (h ++ concat pls) [w].

(** ** When it is accepted *)

(** What a posting contributes to the sum of its transaction: the cost if it has one, else the amount. *)
Definition worth_units (v : wvalue) : Z :=
  match wv_cost v with
  | None => wa_units (wv_amount v)
  | Some (false, c) => wa_units c
  | Some (true, c) => (wa_units (wv_amount v) * wa_units c / unit1)%Z
  end.
Definition worth_decimals (v : wvalue) : nat :=
  match wv_cost v with
  | None => wa_decimals (wv_amount v)
  | Some (false, c) => wa_decimals c
  | Some (true, c) => wa_decimals (wv_amount v) + wa_decimals c
  end.
Definition worth_symbol (v : wvalue) : str :=
  match wv_cost v with None => wa_symbol (wv_amount v) | Some (_, c) => wa_symbol c end.
Definition values_of (ps : list fposting) : list wvalue :=
  flat_map (fun p => match fp_value p with Some v => [v] | None => [] end) ps.
Definition sum_of (s : str) (vs : list wvalue) : Z :=
  sumZ (map (fun v => if str_eqb (worth_symbol v) s then worth_units v else 0%Z) vs).

(** Both commodities of a cost are named and differ, and the price of one unit is below 2^96. *)
Definition cost_fits (v : wvalue) : Prop :=
  match wv_cost v with
  | None => True
  | Some (_, c) =>
      wa_symbol (wv_amount v) <> [] /\ wa_symbol c <> [] /\ wa_symbol c <> wa_symbol (wv_amount v)
      /\ (wa_units (wv_amount v) <> 0 -> 2 * Z.abs (worth_units v) < (2 ^ 97 - 1) * Z.abs (wa_units (wv_amount v)))%Z
  end.
(** The worths are in two commodities neither of which sums to zero. *)
Definition two_open (vs : list wvalue) : Prop :=
  exists x y, x <> y /\ Forall (fun v => worth_symbol v = x \/ worth_symbol v = y) vs
    /\ sum_of x vs <> 0%Z /\ sum_of y vs <> 0%Z.
(** Every posting has an amount and the worths are in [x] and [y], neither of which sums to zero; one unit of
    [x] then costs [r], in multiples of 10^-28, of [y].  [x] is the commodity of the first amount; if that is
    neither of the two, then the one that the first posting is not worth. *)
Definition priced_at (w : fxact) (x y : str) (r : Z) : Prop :=
  let vs := values_of (fx_posts w) in
  x <> y /\ Forall (fun p => fp_value p <> None) (fx_posts w)
  /\ Forall (fun v => worth_symbol v = x \/ worth_symbol v = y) vs
  /\ sum_of x vs <> 0%Z /\ sum_of y vs <> 0%Z
  /\ (exists v rest, vs = v :: rest /\ (wa_symbol (wv_amount v) = x \/ wa_symbol (wv_amount v) <> y /\ worth_symbol v = y))
  /\ (r * Z.abs (sum_of x vs) = Z.abs (sum_of y vs) * unit1)%Z.
(** The rate and what each posting in [x] costs are exact, both symbols are there, and no posting in [x] has
    a cost already. *)
Definition rate_cost (r : Z) (v : wvalue) : Z := (r * wa_units (wv_amount v) / unit1)%Z.
Definition exactly_priced (w : fxact) : Prop :=
  exists x y r scale, let vs := values_of (fx_posts w) in
  priced_at w x y r /\ x <> [] /\ y <> [] /\ representable r /\ scale <= 28
  /\ Forall (fun v => worth_decimals v <= scale) vs
  /\ Forall (fun v => wa_symbol (wv_amount v) = x ->
        wv_cost v = None /\ (rate_cost r v * unit1 = r * wa_units (wv_amount v))%Z /\ (10 ^ Z.of_nat (28 - scale) | rate_cost r v)%Z) vs
  /\ (sumZ (map (fun v => 2 * Z.abs (worth_units v) + if str_eqb (wa_symbol (wv_amount v)) x then Z.abs (rate_cost r v) else 0) vs)
       < 2 ^ 96 * 10 ^ Z.of_nat (28 - scale))%Z.
Definition xact_ok (w : fxact) : Prop :=
  let vs := values_of (fx_posts w) in
  2 <= length (fx_posts w)
  /\ (forall i k, option_map fp_value (nth_error (fx_posts w) i) = Some None ->
                  option_map fp_value (nth_error (fx_posts w) k) = Some None -> i = k)
  /\ Forall cost_fits vs
  /\ (exists scale, scale <= 28 /\ Forall (fun v => worth_decimals v <= scale) vs
        /\ (sumZ (map (fun v => Z.abs (worth_units v)) vs) < 2 ^ 96 * 10 ^ Z.of_nat (28 - scale))%Z)
  /\ ((exists sym, Forall (fun v => worth_symbol v = sym) vs)
      \/ Forall (fun p => fp_value p <> None) (fx_posts w) /\ ~ two_open vs
      \/ exactly_priced w).

(** The posting has a cost, written or implied. *)
Definition has_cost (w : fxact) (v : wvalue) : Prop :=
  wv_cost v <> None \/ exists y r, priced_at w (wa_symbol (wv_amount v)) y r.
(** The lot prices of [s] that are written in [ws] or known to the pool; multiplying one with an amount of
    [s] that has a cost gives a number below 2^96. *)
Definition lot_price_of (pl : pool) (ws : list fxact) (s : str) (u : Z) : Prop :=
  (exists a ap, lookup s (p_ann pl) = Some a /\ an_price a = Some ap /\ aunits ap = u)
  \/ exists w v lot, In w ws /\ In v (values_of (fx_posts w)) /\ wa_symbol (wv_amount v) = s /\ wv_lot v = Some lot /\ wa_units lot = u.
Definition lots_ok (pl : pool) (ws : list fxact) : Prop :=
  forall w v u, In w ws -> In v (values_of (fx_posts w)) -> has_cost w v -> lot_price_of pl ws (wa_symbol (wv_amount v)) u ->
  (2 * Z.abs (u * wa_units (wv_amount v)) < (2 ^ 97 - 1) * unit1 * unit1)%Z.

(** A cost for one unit times zero has no decimals. *)
Definition exact_worth (v : wvalue) : Prop := forall c, wv_cost v = Some (true, c) -> worth_units v <> 0%Z.

(** ** What the transactions are *)
(** No minus sign in front of zero. *)
Definition plain (a : amount) : Prop := d_m (a_q a) = 0%Z -> d_neg (a_q a) = false.
Definition amount_of (a : amount) (w : wamount) : Prop := amount_is a (wa_units w) (wa_decimals w) (wa_symbol w).
Definition last_of (notes : list str) (d : option str) : option str := last (map Some notes) d.
(** The cost of one unit is multiplied with the amount; that product is exact. *)
Definition cost_is (v : wvalue) (c : option amount) : Prop :=
  match wv_cost v with
  | None => c = None
  | Some (false, w) => exists a, c = Some a /\ amount_of a w
  | Some (true, w) => exists a, c = Some a /\ wf_amt a /\ a_c a = commodity_of (wa_symbol w)
                        /\ (aunits a * unit1 = wa_units (wv_amount v) * wa_units w)%Z
  end.
Definition fposting_is (w : fxact) (fp : fposting) (p : post) : Prop :=
  po_account p = components (fp_account fp) /\ po_note p = last_of (fp_notes fp) None
  /\ exists a, po_amount p = Some a
     /\ match fp_value fp with
        | Some v => (amount_of a (wv_amount v) /\ plain a)
                    /\ ((forall y r, ~ priced_at w (wa_symbol (wv_amount v)) y r) -> cost_is v (po_cost p))
                    /\ (forall y r, priced_at w (wa_symbol (wv_amount v)) y r ->
                        exists k, po_cost p = Some k /\ wf_amt k /\ a_c k = commodity_of y
                          /\ (aunits k * unit1 = r * wa_units (wv_amount v))%Z)
        | None => po_cost p = None
                  /\ aunits a = (- Z.abs (sumZ (map worth_units (values_of (fx_posts w)))))%Z
                  /\ Forall (fun v => a_c a = commodity_of (worth_symbol v)) (values_of (fx_posts w))
                  /\ wf_amt a /\ (forall n, Forall (fun v => worth_decimals v <= n) (values_of (fx_posts w)) -> d_s (a_q a) <= n)
                  /\ (forall n, Forall (fun v => worth_decimals v = n /\ exact_worth v) (values_of (fx_posts w)) -> d_s (a_q a) = n)
        end.
Definition fxact_is (w : fxact) (x : xact) : Prop :=
  x_date x = Some (fx_date w) /\ x_aux_date x = fx_aux w /\ x_payee x = fx_payee w
  /\ x_note x = last_of (fx_notes w) (match fx_note w with [] => None | n => Some n end)
  /\ Forall2 (fposting_is w) (fx_posts w) (x_posts x).

(** [rs], recorded one after the other, make the prices of [p] those of [p']. *)
Definition prices_after (p : pool) (rs : list record) (p' : pool) : Prop :=
  forall s t w v, price_on p' s t w v <->
    (exists r1 r2, records_for s t rs = r1 ++ (w, v) :: r2 /\ Forall (fun r => fst r <> w) r2)
    \/ price_on p s t w v /\ Forall (fun r => fst r <> w) (records_for s t rs).
(** The price records of a transaction. *)
Definition xact_records (x : xact) (rs : list record) : Prop :=
  exists d, x_date x = Some d /\ price_records (mkDT d (mkTime 0 0 0)) (x_posts x) rs.
