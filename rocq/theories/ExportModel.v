(** * ExportModel: the ledger export, /repo/cmd/export/ledger.go and the formatting functions of /repo/cmd/app/print.go.

    Output is the byte string written. [f64] is Rat.Float64 (nearest float64, as a rational: overflow to an infinity is not
    modelled), [is_letter] is unicode.IsLetter. Numbers are formatted for the English language (the default of app.go):
    digits in groups of three separated by a comma, a point, '-' for negative numbers; golang.org/x/text is not in /repo,
    its "%.*f" rounds to nearest, ties to even, and "%s" copies the string. *)
From Coq Require Import Qround.
From Verif Require Import Base Dec DateModel PriceModel BookModel Utf8 LoaderModel.

(** Rounding of "%.0f": nearest integer, ties to even. *)
Definition round_even (x : Qc) : Z :=
  let f := Qfloor (this x) in
  let r := (x - qz f)%Qc in
  match (r ?= Q2Qc (1 # 2))%Qc with
  | Lt => f
  | Gt => f + 1
  | Eq => if Z.even f then f else f + 1
  end.

(** Digits in groups of three, on the reversed list. *)
Fixpoint group3 (l : str) : str :=
  match l with
  | a :: b :: c :: ((_ :: _) as r) => a :: b :: c :: 44 :: group3 r
  | _ => l
  end.
Definition grouped (s : str) : str := rev (group3 (rev s)).
(** x/text "%.*f" in English: sign, grouped integer part, and [k] decimals. *)
Definition fmt_float (k : Z) (f : Qc) : str :=
  let neg := match (f ?= 0)%Qc with Lt => true | _ => false end in
  let z := round_even ((if neg then - f else f) * qz (10 ^ k))%Qc in
  (if neg then [45] else []) ++ grouped (dec (z / 10 ^ k)) ++
  (if k =? 0 then [] else [46] ++ zpad (Z.to_nat k) (dec (z mod 10 ^ k))).

Section Printer.
  Variable f64 : Qc -> Qc.
  Variable is_letter : Z -> bool.
  Variable decs : list (str * Z).

  (** print.go:261-268 [FormatNumber] *)
  Definition decs_for (symbol : str) : Z := match aget str_eqb symbol decs with Some k => k | None => 2 end.
  Definition format_number (symbol : str) (amount : Qc) : str := fmt_float (decs_for symbol) (f64 amount).
  (** print.go:271-276 [FormatSymbol]: the last rune of an empty symbol is out of range *)
  Definition format_symbol (symbol : str) : outcome str :=
    match decode symbol with
    | [] => Panic
    | r => let c := last r 0 in Ok (if is_letter c || (c =? 34) then symbol ++ [32] else symbol)
    end.

  (** ledger.go:9-20 [LedgerFormatCurrency] *)
  Definition ledger_ccy (ccy : str) : str :=
    if existsb (fun c => negb (is_ccy_rune c)) (decode ccy) then [34] ++ ccy ++ [34] else ccy.
  (** ledger.go:26-29, 32-35: the note with its prefix *)
  Definition show_note (note : str) : str := match note with [] => [] | _ => bs "  ; " ++ note end.
  (** ledger.go:31-40 *)
  Definition show_post (p : posting) : outcome str :=
    do sym <- format_symbol (ledger_ccy (p_ccy p));
    Ok (bs "  " ++ p_acct p ++ bs "  " ++ sym ++ format_number (p_ccy p) (p_val p) ++ show_note (p_note p) ++ [10]).
  Fixpoint show_posts (l : list posting) : outcome str :=
    match l with [] => Ok [] | p :: l' => do a <- show_post p; do r <- show_posts l'; Ok (a ++ r) end.
  (** ledger.go:25-42; the accessors of Transaction read the first posting (transaction.go:11-21) *)
  Definition show_trans (t : trans) : outcome str :=
    match t with
    | [] => Panic
    | p :: _ => do r <- show_posts t;
                Ok (date_string (p_date p) ++ [32] ++ p_payee p ++ show_note (p_tnote p) ++ [10] ++ r ++ [10])
    end.
  Fixpoint show_all (ts : list trans) : outcome str :=
    match ts with [] => Ok [] | t :: ts' => do a <- show_trans t; do r <- show_all ts'; Ok (a ++ r) end.
  (** ledger.go:45-50 *)
  Definition show_price (unit ccy : str) (p : price) : outcome str :=
    do sym <- format_symbol ccy;
    Ok (bs "P " ++ date_string (pr_date p) ++ bs " 00:00:00 " ++ unit ++ [32] ++ sym ++ format_number ccy (pr_val p) ++ [10]).
  Fixpoint show_price_list (unit ccy : str) (l : pricelist) : outcome str :=
    match l with [] => Ok [] | p :: l' => do a <- show_price unit ccy p; do r <- show_price_list unit ccy l'; Ok (a ++ r) end.
  (** [pairs]: GetPricePairs (book.go:33-40), the keys of the map in any order; GetPriceList (book.go:42-44, price.go:198-204) *)
  Fixpoint show_prices (pb : pbook) (pairs : list (str * str)) : outcome str :=
    match pairs with
    | [] => Ok []
    | (u, c) :: pairs' =>
        do a <- show_price_list u c (match aget pair_eqb (u, c) pb with Some l => l | None => [] end);
        do r <- show_prices pb pairs'; Ok (a ++ r)
    end.
End Printer.

(** ledger.go:22-53 [ShowLedger] with the decimals of export.go:59 [GetCCYDecimals] *)
Definition export_ledger (f64 : Qc -> Qc) (is_letter : Z -> bool) (srt : list posting -> list posting) (order : pbook -> list (str * str)) (b : book) : outcome str :=
  let '(b', ts) := transactions srt b in
  do a <- show_all f64 is_letter (bk_ccy b) ts;
  do r <- show_prices f64 is_letter (bk_ccy b) (bk_prices b') (order (bk_prices b'));
  Ok (a ++ [10] ++ bs "; Prices" ++ [10] ++ r).
