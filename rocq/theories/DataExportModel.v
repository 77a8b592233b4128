(** * DataExportModel: the Beancount, CSV and JSON exports (cmd/export/beancount.go, csv.go, export.go;
    book/posting.go, book/transaction.go, book/date.go).

    [title] is strings.Title, [upper] is strings.ToUpper, [order_*] are the orders in which Go walks the maps.
    The output of the Beancount export is a list of directives with their text ([directive_text]), that of the CSV
    export the list of records handed to encoding/csv, that of the JSON export the value handed to encoding/json:
    the quoting done by those packages is not modelled. *)
From Verif Require Import Base Dec DateModel PriceModel BookModel ExportModel.

(** ** Beancount *)
Inductive directive :=
| DOption (ccy : str)
| DOpen (date : Z) (acct : str)
| DClose (date : Z) (acct : str)
| DTitle (text : str)
| DTrans (date : Z) (payee note : str)
| DPost (acct number ccy note : str)
| DEnd
| DPrice (date : Z) (unit number ccy : str).

(** The format strings of beancount.go:50-91. *)
Definition directive_text (d : directive) : str :=
  match d with
  | DOption c => bs "option ""operating_currency"" """ ++ c ++ bs """" ++ [10; 10]
  | DOpen d a => date_string d ++ bs " open " ++ a ++ [10]
  | DClose d a => date_string d ++ bs " close " ++ a ++ [10]
  | DTitle t => [10] ++ bs "; " ++ t ++ [10]
  | DTrans d p n => date_string d ++ bs " * """ ++ p ++ bs """" ++ show_note n ++ [10]
  | DPost a n c note => bs "  " ++ a ++ bs "  " ++ n ++ [32] ++ c ++ show_note note ++ [10]
  | DEnd => [10]
  | DPrice d u n c => bs "P " ++ date_string d ++ bs " 00:00:00 " ++ u ++ [32] ++ n ++ [32] ++ c ++ [10]
  end.

(** beancount.go:26-30 *)
Record acct_info := mkInfo { ai_first : Z; ai_last : Z; ai_zero : bool }.

Section Bean.
  Variable f64 : Qc -> Qc.
  Variable title upper : str -> str.
  Variable order_accts : list (str * acct_info) -> list (str * acct_info).
  Variable order_pairs : pbook -> list (str * str).

  (** beancount.go:10-14 [FormatCurrency] *)
  Definition bean_ccy (ccy : str) : str := upper (filter (fun c => negb (c =? 32)) ccy).

  (** beancount.go:33-48 *)
  Definition gather1 (m : list (str * acct_info)) (p : posting) : list (str * acct_info) :=
    let acct := title (p_acct p) in
    let z := qc_is0 (p_bal p) in
    aset str_eqb acct (match aget str_eqb acct m with
                       | None => mkInfo (p_date p) (p_date p) z
                       | Some i => mkInfo (ai_first i) (p_date p) z
                       end) m.
  Definition gather (ts : list trans) : list (str * acct_info) := fold_left gather1 (concat ts) [].

  (** beancount.go:56-61 *)
  Fixpoint open_close (l : list (str * acct_info)) : outcome (list directive) :=
    match l with
    | [] => Ok []
    | (a, i) :: l' =>
        do c <- (if ai_zero i then do d <- add_days (ai_last i) 1; Ok [DClose d a] else Ok []);
        do r <- open_close l';
        Ok (DOpen (ai_first i) a :: c ++ r)
    end.

  (** beancount.go:65-82 *)
  Definition bean_post (decs : list (str * Z)) (p : posting) : directive :=
    DPost (title (p_acct p)) (format_number f64 decs (p_ccy p) (p_val p)) (bean_ccy (p_ccy p)) (p_note p).
  Fixpoint bean_trans (decs : list (str * Z)) (ts : list trans) : outcome (list directive) :=
    match ts with
    | [] => Ok []
    | [] :: _ => Panic
    | ((p :: _) as t) :: ts' =>
        do r <- bean_trans decs ts';
        Ok (DTrans (p_date p) (p_payee p) (p_tnote p) :: map (bean_post decs) t ++ DEnd :: r)
    end.
  (** beancount.go:84-93 *)
  Definition bean_prices (decs : list (str * Z)) (pb : pbook) : list directive :=
    flat_map (fun '(u, c) =>
      map (fun p => DPrice (pr_date p) (bean_ccy u) (format_number f64 decs c (pr_val p)) (bean_ccy c))
          (match aget pair_eqb (u, c) pb with Some l => l | None => [] end))
      (order_pairs pb).

  (** beancount.go:21-96 [ShowBeancount], with the decimals of export.go:59 *)
  Definition export_beancount (srt : list posting -> list posting) (base : str) (b : book) : outcome (list directive) :=
    let '(b', ts) := transactions srt b in
    do oc <- open_close (order_accts (gather ts));
    do tr <- bean_trans (bk_ccy b) ts;
    Ok ((match base with [] => [] | _ => [DOption base] end) ++ oc ++ [DTitle (bs "Transactions")] ++ tr
        ++ [DTitle (bs "Prices")] ++ bean_prices (bk_ccy b) (bk_prices b')).
End Bean.

(** ** CSV *)
(** fmt.Sprintf("%f", f): sign, integer part, six decimals, rounded to nearest even. *)
Definition fmt_f (f : Qc) : str :=
  let neg := match (f ?= 0)%Qc with Lt => true | _ => false end in
  let z := round_even ((if neg then - f else f) * qz (10 ^ 6))%Qc in
  (if neg then [45] else []) ++ dec (z / 10 ^ 6) ++ [46] ++ zpad 6 (dec (z mod 10 ^ 6)).

(** csv.go:14-23 *)
Definition csv_header : list str :=
  [bs "date"; bs "payee"; bs "transaction_note"; bs "account"; bs "currency"; bs "amount"; bs "post_note"].
(** csv.go:27-39 *)
Definition csv_rows (f64 : Qc -> Qc) (ts : list trans) : list (list str) :=
  flat_map (fun t => match t with
                     | [] => []
                     | q :: _ => map (fun p => [date_string (p_date q); p_payee q; p_tnote q; p_acct p; p_ccy p; fmt_f (f64 (p_val p)); p_note p]) t
                     end) ts.
(** csv.go:10-44 [ShowCSV] *)
Definition export_csv (f64 : Qc -> Qc) (srt : list posting -> list posting) (b : book) : list (list str) :=
  csv_header :: csv_rows f64 (snd (transactions srt b)).

(** ** JSON *)
Inductive json := JStr (s : str) | JNum (q : Qc) | JArr (l : list json) | JObj (fields : list (str * json)).
(** the option omitempty of encoding/json for a string *)
Definition omit (k : str) (s : str) : list (str * json) := match s with [] => [] | _ => [(k, JStr s)] end.
(** time.Date(y, m, d, 0, 0, 0, 0, UTC).Format(RFC3339) for a valid date with a year of at most four digits (date.go:266-269);
    time.Date normalises other values, which is not modelled. *)
Definition rfc3339 (d : Z) : str :=
  fmt_0d 4 (Z.quot d 10000) ++ [45] ++ fmt_0d 2 (Z.rem (Z.quot d 100) 100) ++ [45] ++ fmt_0d 2 (Z.rem d 100) ++ bs "T00:00:00Z".
(** posting.go:113-129 [Posting.MarshalJSON] *)
Definition json_post (f64 : Qc -> Qc) (p : posting) : json :=
  JObj ([(bs "account", JStr (p_acct p)); (bs "ccy", JStr (p_ccy p)); (bs "amount", JNum (f64 (p_val p)))] ++ omit (bs "note") (p_tnote p)).
(** transaction.go:104-119 [Transaction.MarshalJSON] *)
Definition json_trans (f64 : Qc -> Qc) (t : trans) : outcome json :=
  match t with
  | [] => Panic
  | p :: _ => Ok (JObj ([(bs "date", JStr (rfc3339 (p_date p)))] ++ omit (bs "payee") (p_payee p) ++ omit (bs "note") (p_tnote p)
                        ++ [(bs "posts", JArr (map (json_post f64) t))]))
  end.
Fixpoint json_all (f64 : Qc -> Qc) (ts : list trans) : outcome (list json) :=
  match ts with [] => Ok [] | t :: ts' => do j <- json_trans f64 t; do r <- json_all f64 ts'; Ok (j :: r) end.
(** export.go:62-63 *)
Definition export_json (f64 : Qc -> Qc) (srt : list posting -> list posting) (b : book) : outcome (list json) :=
  json_all f64 (snd (transactions srt b)).
