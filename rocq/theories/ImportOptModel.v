(** * ImportOptModel: the import command from its command line to what it prints (/repo/cmd/importer/import.go, import_op.go, starlark.go,
    /repo/cmd/utils/cli_file_or_str.go) and the generate command (/repo/cmd/generate/generate.go, starlark.go).

    Not modelled: the Starlark interpreter ([interp]: the add() calls a script makes for its data and file name, and whether it fails), the file system ([content]: the bytes of a file, of the standard input for "-", which is not given twice). *)
From Verif Require Import Base Utf8 Regex DateModel BookModel BookOpModel OpsModel ScriptModel ExportModel ImportModel AccumModel CfgModel ConvertModel JsonModel ConfigModel OptionsModel.

(** import.go:14-34 [ImportDef] *)
Record import_def := mkImportDef { df_type : str; df_params : list (str * str); df_code : str; df_account : str; df_counter : str; df_ccy : str; df_dedup : bool; df_reclass : bool }.
(** import.go:164-169: goledger import *)
Definition plain_import : import_def := mkImportDef [] [] [] [] [] [] true true.
(** import.go:173-175: goledger import [name], for the values at ImportDefs.[name] in the configuration. Only the parameters "delim" and "header" are ever read
    (import_op.go:92-104). *)
Definition import_def_of (c : conf) (name : str) : import_def :=
  let str_at n := get_str c [bs "ImportDefs"; name; n] in
  let param k := match c [bs "ImportDefs"; name; bs "Params"; k] with VS s => [(k, s)] | _ => [] end in
  mkImportDef (str_at (bs "ConfigType")) (param (bs "delim") ++ param (bs "header")) (str_at (bs "Code")) (str_at (bs "Account")) (str_at (bs "CounterAccount")) (str_at (bs "CCY"))
    (get_flag c [bs "ImportDefs"; name; bs "Dedup"]) (get_flag c [bs "ImportDefs"; name; bs "Reclassify"]).

(** import.go:128-145: the flags; --code and --format only if the definition leaves them open *)
Definition own (n : str) : list str := [bs "flag"; n].
Definition import_flags (d : import_def) : list flag :=
  [mkFlag (bs "dedup") (Some 100) (own (bs "dedup")) FBool; mkFlag (bs "reclassify") (Some 114) (own (bs "reclassify")) FBool]
  ++ (match df_code d with [] => [mkFlag (bs "code") None (own (bs "code")) FStr] | _ => [] end)
  ++ (match df_type d with [] => [mkFlag (bs "format") None (own (bs "format")) FFormat] | _ => [] end)
  ++ [mkFlag (bs "acct") (Some 97) (own (bs "acct")) FStr; mkFlag (bs "cacct") (Some 99) (own (bs "cacct")) FStr].
(** The variables of the flags hold the values of the definition. The field of a required flag ([MarkFlagRequired]) is [VT] until the flag is given. *)
Definition text_or_open (s : str) : value := match s with [] => VT | _ => VS s end.
Definition import_conf (d : import_def) (c : conf) : conf := fun p =>
  if path_eqb p (own (bs "dedup")) then VB (df_dedup d) else if path_eqb p (own (bs "reclassify")) then VB (df_reclass d)
  else if path_eqb p (own (bs "code")) then text_or_open (df_code d) else if path_eqb p (own (bs "format")) then text_or_open (df_type d)
  else if path_eqb p (own (bs "acct")) then text_or_open (df_account d) else if path_eqb p (own (bs "cacct")) then text_or_open (df_counter d) else c p.
Definition open_flag (c : conf) (n : str) : bool := match c (own n) with VT => true | _ => false end.

Section Import.
  Variable fold : str -> str -> bool.
  Variable parse_int : str -> option Z.
  Variable srt : list posting -> list posting.
  Variable f64 : Qc -> Qc.
  Variable is_letter : Z -> bool.
  Variable today : Z.
  Variable set_string : str -> option Qc.
  Variable jw : str -> str -> Qc.
  Variable ord1 : nat -> str -> list (str * Z) -> list (str * Z).
  Variable ord2 : nat -> nat -> list (str * str) -> list (str * str).
  Variable upper : Z -> Z.
  Variable order : list (str * sval) -> list (str * sval).
  Variable interp : str -> sval -> str -> script.
  Variable content : str -> option str.
  Variable load : str -> outcome book.

  (** cli_file_or_str.go:11-23 [GetFileOrStr] *)
  Definition file_or_str (s : str) : option str := if has_prefix s (bs "file:") then content (skipn 5 s) else Some s.
  (** import.go:62-79, starlark.go:9-33: what the script makes of one file; a file that cannot be read is like a script that fails *)
  Definition read_data (r : reader) (bytes : str) : outcome sval :=
    match r with RCsv delim header => read_csv (decode delim) header bytes | RJson => read_json_text order bytes end.
  Definition script_of (r : reader) (code file : str) : script :=
    match content file with
    | None => ([], true)
    | Some bytes => match read_data r bytes with
                    | Ok data => match file_or_str code with Some sc => interp sc data file | None => ([], true) end
                    | _ => ([], true)
                    end
    end.
  (** import.go:36-149: the flags are read, the required ones and the number of arguments looked at, then [run] *)
  Definition import_main (d : import_def) (c : conf) (args : list str) : outcome (option (list (list trans * str) * outcome unit)) :=
    execute fold parse_int (import_flags d) (import_conf d c) args (fun c words =>
      if existsb (open_flag c) [bs "code"; bs "format"; bs "acct"; bs "cacct"] || match words with [] => true | _ => false end then Error
      else
        let cfg := match df_type d with [] => fst (cfg_set (get_str c (own (bs "format")))) | t => mkCfg t (df_params d) end in
        do r <- import_reader upper cfg;
        do main <- load (get_str c [bs "Ledger"]);
        Ok (run_import srt f64 is_letter today set_string jw ord1 ord2
              (mkImport (get_str c (own (bs "acct"))) (get_str c (own (bs "cacct"))) (df_ccy d) (get_flag c (own (bs "dedup"))) (get_flag c (own (bs "reclassify"))))
              (get_str c [bs "BaseCCY"]) main (map (script_of r (get_str c (own (bs "code")))) words))).

  (** generate.go:10-83: goledger generate, and generate [name] for the values at Generate.[name]. [gen]: the data.* operations and add() calls of a script *)
  Record generate_def := mkGenDef { gd_code : str; gd_dedup : bool }.
  Definition plain_generate : generate_def := mkGenDef [] true.
  Definition generate_def_of (c : conf) (name : str) : generate_def :=
    mkGenDef (get_str c [bs "Generate"; name; bs "Code"]) (get_flag c [bs "Generate"; name; bs "Dedup"]).
  Definition generate_flags (d : generate_def) : list flag :=
    mkFlag (bs "dedup") (Some 100) (own (bs "dedup")) FBool :: match gd_code d with [] => [mkFlag (bs "code") None (own (bs "code")) FStr] | _ => [] end.
  Definition generate_conf (d : generate_def) (c : conf) : conf := fun p =>
    if path_eqb p (own (bs "dedup")) then VB (gd_dedup d) else if path_eqb p (own (bs "code")) then text_or_open (gd_code d) else c p.
  Variable gen : str -> book -> list op * script.
  Definition generate_main (d : generate_def) (c : conf) (args : list str) : outcome (option (list trans * str)) :=
    execute fold parse_int (generate_flags d) (generate_conf d c) args (fun c words =>
      if open_flag c (bs "code") || match words with [] => false | _ => true end then Error
      else
        do main <- load (get_str c [bs "Ledger"]);
        match file_or_str (get_str c (own (bs "code"))) with
        | None => Error
        | Some sc => run_generate srt f64 is_letter today set_string (get_flag c (own (bs "dedup"))) main (fst (gen sc main)) (snd (gen sc main))
        end).
End Import.
