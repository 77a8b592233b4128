(** * DetModel: the commands ccy (/repo/cmd/currencies/currencies.go) and export (/repo/cmd/export/export.go) as a whole. *)
From Verif Require Import Base Dec Regex PriceModel BookModel BookOpModel CmdModel ExportModel DataExportModel.

(** currencies.go:23-25: one line per entry of the map; [walk] is the order of the range *)
Definition ccy_line (e : str * Z) : str := fst e ++ bs " => " ++ fmt_d (snd e) ++ bs " decimals" ++ [10].
Definition ccy_run (walk : list (str * Z) -> list (str * Z)) (b : book) : str := concat (map ccy_line (walk (bk_ccy b))).

(** What export writes: the values handed to encoding/json and encoding/csv, or the text. *)
Inductive exported := XJson (l : list json) | XBean (text : str) | XCsv (rows : list (list str)) | XLedger (text : str).

Section Export.
  Variable srt : list posting -> list posting.
  Variable compile : str -> option regexp.
  Variable parse_float : str -> option Qc.
  Variable today : Z.
  Variable ploop : (pair -> pair) -> pbook -> pbook.
  Variable macros : str -> option (list str).
  Variable fuel : nat.
  Variable base : str.
  Variable f64 : Qc -> Qc.
  Variable is_letter : Z -> bool.
  Variables title upper : str -> str.
  Variable order_accts : list (str * acct_info) -> list (str * acct_info).
  Variable order_pairs : pbook -> list (str * str).
  (** export.go:45-72 [run] after LoadBook *)
  Definition export_run (type : str) (args : list str) (b : book) : outcome exported :=
    do b <- ops_of srt compile parse_float today ploop macros fuel args b;
    if str_eqb type (bs "Json") then do l <- export_json f64 srt b; Ok (XJson l)
    else if str_eqb type (bs "Beancount") then
      do l <- export_beancount f64 title upper order_accts order_pairs srt base b; Ok (XBean (concat (map directive_text l)))
    else if str_eqb type (bs "CSV") then Ok (XCsv (export_csv f64 srt b))
    else do s <- export_ledger f64 is_letter srt order_pairs b; Ok (XLedger s).
End Export.
