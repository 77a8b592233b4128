(** * CmdModel: the commands report (/repo/cmd/reports/report.go), register (/repo/cmd/register/register.go), accts
    (/repo/cmd/accounts/accounts.go): what is done to the loaded book and what is handed to the printers. *)
From Verif Require Import Base Regex Dec DateModel PriceModel BookModel OpsModel BookOpModel RegisterModel AccumModel.

(** report.go:115-124, register.go:75-83: MapAmount with the price of the posting's date in the base currency. The mapper panics when
    the price lookup does (prices on impossible dates, reciprocal of a zero price); otherwise it never reads what MapAmount has
    changed so far. *)
Definition price_found (pb : pbook) (base : str) (p : posting) : bool := match get_price pb (p_date p) (p_ccy p) base with Ok _ => true | _ => false end.
Definition rate (pb : pbook) (base : str) (d : Z) (c : str) : Qc := match get_price pb d c base with Ok (r, _) => r | _ => 0%Qc end.
Definition convert_book (base : str) (b : book) : outcome book :=
  if forallb (price_found (bk_prices b) base) (bk_post b) then Ok (map_amount (fun d c => (rate (bk_prices b) base d c, base)) b) else Panic.
(** the flag --convert *)
Definition convert_if (convert : bool) (base : str) (b : book) : outcome book :=
  if convert then if str_eqb base [] then Error else convert_book base b else Ok b.

(** reports.TransactionReport (report.go:14-23), without the printing options *)
Record report_opts := mkRO { ro_type : str; ro_by : str; ro_convert : bool; ro_sum : bool; ro_credit : str; ro_hidden : str }.
(** register.RegisterReport (register.go:14-29): ZeroStart, Macros, Accounts are never read by run *)
Record register_opts := mkGO { go_begin : str; go_end : str; go_combined : bool; go_convert : bool; go_split : bool }.

Section Commands.
  Variable srt : list posting -> list posting.
  Variable compile : str -> option regexp.
  Variable parse_float : str -> option Qc.
  Variable today : Z.
  Variable ploop : (pair -> pair) -> pbook -> pbook.
  Variable macros : str -> option (list str).
  Variable fuel : nat.
  Variable it : list posting -> list str -> list str.
  Variable micro : Qc -> Z.
  (** app.App: BaseCCY, Divider, All *)
  Variable base divider : str.
  Variable all : bool.

  (** app.BookOps: an error ends the command *)
  Definition ops_of (args : list str) (b : book) : outcome book :=
    do (b, e) <- book_ops srt compile parse_float today ploop macros fuel args b; match e with None => Ok b | Some _ => Error end.

  (** report.go:95-144 [run] up to the transactions that are printed *)
  Definition report_run (o : report_opts) (args : list str) (b : book) : outcome (book * list trans) :=
    do b <- ops_of args b;
    let bean := str_eqb (ro_type o) (bs "Beancount") in
    let b := if negb bean && negb (str_eqb (ro_by o) (bs "skip")) then split_by srt (fun _ => today) (ro_by o) b else b in
    do b <- convert_if (negb bean && ro_convert o) base b;
    do credit <- (if negb bean && negb (str_eqb (ro_credit o) []) then match compile (ro_credit o) with Some re => Ok (Some (rx_match re)) | None => Error end else Ok None);
    if negb bean && ro_sum o then if str_eqb base [] then Error else accumulate srt it micro base divider credit (ro_hidden o) b
    else Ok (transactions srt b).

  (** book.go:199-217 [Accounts]: regexp.MustCompile *)
  Definition list_accounts (pat : str) (b : book) : outcome (list str) :=
    match compile pat with Some re => Ok (accounts (rx_match re) (negb all) b) | None => Panic end.
  (** accounts.go:24-52: the accounts shown *)
  Definition accts_run (args : list str) (b : book) : outcome (list str) :=
    match args with [] => list_accounts (bs "^.*$") b | [pat] => list_accounts pat b | _ => Error end.

  (** register.go:100-104, 112-115: one register, with its window of dates *)
  Definition one_register (o : register_opts) (m : str -> bool) (b : book) : outcome (book * list entry) :=
    do (b, rep) <- extract_register srt base m (go_split o) b;
    do rep <- filter_by_date (date_from_string today (go_begin o)) (date_from_string today (go_end o)) rep;
    Ok (b, rep).
  (** register.go:107-119 *)
  Fixpoint registers (o : register_opts) (accts : list str) (b : book) : outcome (list (str * list entry)) :=
    match accts with
    | [] => Ok []
    | a :: accts' =>
        match compile (bs "^" ++ a ++ bs "$") with
        | None => Error
        | Some re => do (b, rep) <- one_register o (rx_match re) b; do l <- registers o accts' b; Ok ((a, rep) :: l)
        end
    end.
  (** register.go:66-123 [run] up to the registers that are printed: one without a heading, or one per account. [args] are the operations,
      [pat] the last argument. *)
  Definition register_run (o : register_opts) (args : list str) (pat : str) (b : book) : outcome (list (option str * list entry)) :=
    do b <- convert_if (go_convert o) base b;
    do b <- ops_of args b;
    if go_combined o then
      match compile pat with
      | None => Error
      | Some re => do (_, rep) <- one_register o (rx_match re) b; Ok [(None, rep)]
      end
    else do accts <- list_accounts pat b; do l <- registers o accts b; Ok (map (fun x => (Some (fst x), snd x)) l).
End Commands.
