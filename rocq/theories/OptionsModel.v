(** * OptionsModel: the options of the commands: built-in values (/repo/cmd/app/app.go), the configuration file (/repo/cmd/config.go), the command line
    (the flags each command defines, read by github.com/spf13/pflag and cobra).

    A configuration is a map from Go fields (by path, as in [Config], root.go:22-31) to values. pflag is modelled from its documentation and source as far as
    the commands use it: flags of type string, bool, int and Value, given as --name=value, --name value, --name (bool), -lvalue, -l value, -l=value, "--". Not
    modelled: shell completion, abbreviations of cobra (subcommands, aliases), the text of usage messages. *)
From Verif Require Import Base Regex DateModel PriceModel BookModel BookOpModel RegisterModel AccumModel CfgModel CmdModel ConfigModel DataExportModel ExportModel DetModel.

(** ** Values *)
Inductive value := VS (s : str) | VB (b : bool) | VI (z : Z) | VL (l : list str) | VT.
Definition kind_of_value (v : value) : kind := match v with VS _ => KStr | VB _ => KBool | VI _ => KInt | VL _ => KList | VT => KTable end.
Fixpoint path_eqb (a b : list str) : bool := match a, b with [], [] => true | x :: a', y :: b' => str_eqb x y && path_eqb a' b' | _, _ => false end.
Definition conf := list str -> value.
Definition set_field (p : list str) (v : value) (c : conf) : conf := fun q => if path_eqb p q then v else c q.
Definition get_str (c : conf) (p : list str) : str := match c p with VS s => s | _ => [] end.
Definition get_flag (c : conf) (p : list str) : bool := match c p with VB b => b | _ => false end.
Definition get_num (c : conf) (p : list str) : Z := match c p with VI z => z | _ => 0 end.

(** ** app.go:40-56 [DefaultApp], [init] ([lang]: the environment variable LANG if it is set, else "en"); the other fields have Go's zero values. *)
Definition zero_value (t : option ty) : value := match t with Some TStr => VS [] | Some TBool => VB false | Some TInt => VI 0 | Some TStrs => VL [] | _ => VT end.
Definition builtin (lang : str) : conf := fun p =>
  if path_eqb p [bs "Ledger"] then VS (bs "main.ledger") else if path_eqb p [bs "Lang"] then VS lang else if path_eqb p [bs "Divider"] then VS (bs ":")
  else if path_eqb p [bs "Colour"] then VB true
  else match p with
       | [] | [_] => zero_value (ConfigModel.resolve config_ty p)
       | [a; _] => if path_eqb [a] [bs "Report"] || path_eqb [a] [bs "Register"] || path_eqb [a] [bs "Export"] then zero_value (ConfigModel.resolve config_ty p)
                   else if path_eqb p [bs "flag"; bs "help"] || path_eqb p [bs "flag"; bs "json"] then VB false else VT
       | _ => VT
       end.

(** ** config.go:45-57, for the keys and values of a TOML text ([toml.Decode] into [Config]): a value that does not fit its field and a key without a field
    are errors. *)
Fixpoint field_name (eq : str -> str -> bool) (k : str) (fs : list (str * ty)) : option (str * ty) :=
  match fs with [] => None | (n, t) :: fs' => if eq n k then Some (n, t) else field_name eq k fs' end.
Definition lookup_name (k : str) (fs : list (str * ty)) : option (str * ty) :=
  match field_name str_eqb k fs with Some x => Some x | None => field_name equal_fold k fs end.
Fixpoint field_path (t : ty) (path : list str) : option (list str) :=
  match path with
  | [] => Some []
  | k :: path' =>
      match t with
      | TMap t' => option_map (cons k) (field_path t' path')
      | TStruct fs => match lookup_name k fs with Some (n, t') => option_map (cons n) (field_path t' path') | None => None end
      | _ => None
      end
  end.
Definition store_value (c : conf) (e : list str * value) : conf := match field_path config_ty (fst e) with Some p => set_field p (snd e) c | None => c end.
Definition keys_of (es : list (list str * value)) : list ConfigModel.entry := map (fun e => (fst e, kind_of_value (snd e))) es.
(** the file on a later start; [first]: the file written just now (config.go:74-76), whose keys without a field are not looked at *)
Definition decode_config (first : bool) (es : list (list str * value)) (c : conf) : outcome conf :=
  if existsb ill_typed (keys_of es) then Error else if negb first && existsb no_field (keys_of es) then Error else Ok (fold_left store_value es c).

(** ** Flags *)
Inductive fkind := FStr | FBool | FInt | FEnum (valid : list str) | FFormat.
Record flag := mkFlag { f_name : str; f_short : option Z; f_field : list str; f_kind : fkind }.

Section Parse.
  Variable fold : str -> str -> bool.               (* strings.EqualFold *)
  Variable parse_int : str -> option Z.             (* strconv.ParseInt(s, 0, 64) *)
  Variable table : list flag.
  (** strconv.ParseBool *)
  Definition parse_bool (s : str) : option bool :=
    if existsb (str_eqb s) [bs "1"; bs "t"; bs "T"; bs "TRUE"; bs "true"; bs "True"] then Some true
    else if existsb (str_eqb s) [bs "0"; bs "f"; bs "F"; bs "FALSE"; bs "false"; bs "False"] then Some false else None.
  (** types.go:74-83 [Enum.Set], cli_config.go:48-78 [CLIConfig.Set] (CfgModel; the text is kept), pflag's stringValue, boolValue, intValue *)
  Definition parse_value (k : fkind) (s : str) : option value :=
    match k with
    | FStr => Some (VS s)
    | FBool => option_map VB (parse_bool s)
    | FInt => option_map VI (parse_int s)
    | FEnum valid => option_map VS (enum_set fold valid s)
    | FFormat => if snd (cfg_set s) then Some (VS s) else None
    end.
  Definition set_flag (f : flag) (s : str) (c : conf) : outcome conf := match parse_value (f_kind f) s with Some v => Ok (set_field (f_field f) v c) | None => Error end.
  (** NoOptDefVal *)
  Definition alone (f : flag) : option str := match f_kind f with FBool => Some (bs "true") | _ => None end.
  Definition by_name (n : str) : option flag := find (fun f => str_eqb (f_name f) n) table.
  Definition by_letter (x : Z) : option flag := find (fun f => match f_short f with Some y => y =? x | None => false end) table.
  (** -l=value *)
  Definition assigned (rest : str) : option str := match rest with e :: (_ :: _) as v => if e =? 61 then Some v else None | _ => None end.
  (** pflag parseShortArg, parseSingleShortArg: [true] if the next argument was used *)
  Fixpoint parse_short (cs : str) (more : list str) (c : conf) : outcome (conf * bool) :=
    match cs with
    | [] => Ok (c, false)
    | x :: rest =>
        match by_letter x with
        | None => Error
        | Some f =>
            match assigned rest, alone f with
            | Some v, _ => do c <- set_flag f v c; Ok (c, false)
            | None, Some v => do c <- set_flag f v c; parse_short rest more c
            | None, None =>
                match rest, more with
                | _ :: _, _ => do c <- set_flag f rest c; Ok (c, false)
                | [], v :: _ => do c <- set_flag f v c; Ok (c, true)
                | [], [] => Error
                end
            end
        end
    end.
  (** pflag parseArgs: "--", --name.., -letters, another argument *)
  Inductive arg := AEnd | ALong (name : str) | AShort (letters : str) | AWord.
  Definition arg_of (s : str) : arg :=
    match s with
    | a :: b :: r => if a =? 45 then if b =? 45 then match r with [] => AEnd | _ => ALong r end else AShort (b :: r) else AWord
    | _ => AWord
    end.
  (** pflag parseArgs, parseLongArg: the options set one after the other, and the other arguments *)
  Fixpoint parse_args (args : list str) (c : conf) : outcome (conf * list str) :=
    match args with
    | [] => Ok (c, [])
    | s :: args' =>
        match arg_of s with
        | AEnd => Ok (c, args')
        | ALong name =>
            if (hd 0 name =? 45) || (hd 0 name =? 61) then Error
            else match cut 61 name with
                 | Some (n, v) => match by_name n with None => Error | Some f => do c <- set_flag f v c; parse_args args' c end
                 | None =>
                     match by_name name with
                     | None => Error
                     | Some f =>
                         match alone f, args' with
                         | Some v, _ => do c <- set_flag f v c; parse_args args' c
                         | None, [] => Error
                         | None, v :: args'' => do c <- set_flag f v c; parse_args args'' c
                         end
                     end
                 end
        | AShort letters =>
            do (c, used) <- parse_short letters args' c;
            match used, args' with
            | true, _ :: args'' => parse_args args'' c
            | _, _ => parse_args args' c
            end
        | AWord => do (c, words) <- parse_args args' c; Ok (c, s :: words)
        end
    end.
End Parse.

(** app.go:160-166: the flags of every command; cobra adds help *)
Definition app_flags : list flag :=
  [mkFlag (bs "ledger") (Some 108) [bs "Ledger"] FStr; mkFlag (bs "ccy") None [bs "BaseCCY"] FStr; mkFlag (bs "divider") None [bs "Divider"] FStr;
   mkFlag (bs "lang") None [bs "Lang"] FStr; mkFlag (bs "verbose") None [bs "Verbose"] FBool; mkFlag (bs "colour") None [bs "Colour"] FBool;
   mkFlag (bs "all") None [bs "All"] FBool; mkFlag (bs "help") (Some 104) [bs "flag"; bs "help"] FBool].
(** report.go:73-82 *)
Definition report_flags : list flag :=
  [mkFlag (bs "splitby") None [bs "Report"; bs "Combineby"] (FEnum (floor_types ++ [bs "skip"]));
   mkFlag (bs "type") None [bs "Report"; bs "Type"] (FEnum [bs "Text"; bs "Ledger"; bs "Json"; bs "HTML"; bs "Beancount"]);
   mkFlag (bs "sum") None [bs "Report"; bs "Sum"] FBool; mkFlag (bs "convert") None [bs "Report"; bs "Convert"] FBool;
   mkFlag (bs "jsonpretty") None [bs "Report"; bs "JsonPretty"] FBool; mkFlag (bs "htmlcss") None [bs "Report"; bs "HTMLCSS"] FStr;
   mkFlag (bs "credit") None [bs "Report"; bs "Credit"] FStr; mkFlag (bs "hidden") None [bs "Report"; bs "Hidden"] FStr].
(** register.go:49-58 *)
Definition register_flags : list flag :=
  [mkFlag (bs "type") None [bs "Register"; bs "Type"] (FEnum [bs "Text"; bs "JSON"; bs "CSV"]);
   mkFlag (bs "combined") None [bs "Register"; bs "Combined"] FBool; mkFlag (bs "begin") None [bs "Register"; bs "BeginDate"] FStr;
   mkFlag (bs "asof") None [bs "Register"; bs "EndDate"] FStr; mkFlag (bs "count") None [bs "Register"; bs "Count"] FInt;
   mkFlag (bs "asc") None [bs "Register"; bs "Asc"] FBool; mkFlag (bs "zero") None [bs "Register"; bs "ZeroStart"] FBool;
   mkFlag (bs "split") None [bs "Register"; bs "Split"] FBool; mkFlag (bs "convert") None [bs "Register"; bs "Convert"] FBool].
(** export.go:30-32 *)
Definition export_flags : list flag :=
  [mkFlag (bs "type") None [bs "Export"; bs "Type"] (FEnum [bs "Ledger"; bs "Json"; bs "Beancount"; bs "CSV"]);
   mkFlag (bs "jsonpretty") None [bs "Export"; bs "JsonPretty"] FBool].
(** accounts.go:19-20: a variable of the command, not of the configuration *)
Definition accts_flags : list flag := [mkFlag (bs "json") None [bs "flag"; bs "json"] FBool].

(** How the result is written: report.go:142-155, show_register.go:37-45, accounts.go:36-52; colour, language and currency of the printer. *)
Inductive form := FText | FJson (pretty : bool) | FHtml (css : str) | FBeancount | FLedger | FCsv.
Record look := mkLook { lk_form : form; lk_colour : bool; lk_lang : str }.

Section Commands.
  Variable fold : str -> str -> bool.
  Variable parse_int : str -> option Z.
  Variable srt : list posting -> list posting.
  Variable compile : str -> option regexp.
  Variable parse_float : str -> option Qc.
  Variable today : Z.
  Variable ploop : (pair -> pair) -> pbook -> pbook.
  Variable fuel : nat.
  Variable it : list posting -> list str -> list str.
  Variable micro : Qc -> Z.
  Variable load : str -> outcome book.              (* app.go:59-67 [LoadBook], LoaderModel *)

  Definition macros_of (c : conf) (name : str) : option (list str) := match c [bs "Macros"; name] with VL l => Some l | _ => None end.
  Definition look_of (c : conf) (f : form) : look := mkLook f (get_flag c [bs "Colour"]) (get_str c [bs "Lang"]).
  (** cobra's Command.execute: flags, help, then the command on the remaining arguments. [None]: the help text was printed. *)
  Definition execute {A} (table : list flag) (c : conf) (args : list str) (run : conf -> list str -> outcome A) : outcome (option A) :=
    do (c, words) <- parse_args fold parse_int (app_flags ++ table) args c;
    if get_flag c [bs "flag"; bs "help"] then Ok None else do x <- run c words; Ok (Some x).

  (** report.go:95-156 *)
  Definition report_form (c : conf) : form :=
    let type := get_str c [bs "Report"; bs "Type"] in
    if str_eqb type (bs "Text") then FText else if str_eqb type (bs "Json") then FJson (get_flag c [bs "Report"; bs "JsonPretty"])
    else if str_eqb type (bs "HTML") then FHtml (get_str c [bs "Report"; bs "HTMLCSS"]) else if str_eqb type (bs "Beancount") then FBeancount else FLedger.
  Definition report_main (c : conf) (args : list str) : outcome (option (look * (book * list trans))) :=
    execute report_flags c args (fun c words =>
      do b <- load (get_str c [bs "Ledger"]);
      do x <- report_run srt compile parse_float today ploop (macros_of c) fuel it micro (get_str c [bs "BaseCCY"]) (get_str c [bs "Divider"])
        (mkRO (get_str c [bs "Report"; bs "Type"]) (get_str c [bs "Report"; bs "Combineby"]) (get_flag c [bs "Report"; bs "Convert"])
           (get_flag c [bs "Report"; bs "Sum"]) (get_str c [bs "Report"; bs "Credit"]) (get_str c [bs "Report"; bs "Hidden"])) words b;
      Ok (look_of c (report_form c), x)).

  (** register.go:42-47 (at least one argument), 65-122; show_register.go:17-45: the rows of each register and how they are written. The type is looked at when
      the first register is printed. *)
  Definition register_form (c : conf) : option form :=
    let type := get_str c [bs "Register"; bs "Type"] in
    if str_eqb type (bs "Text") then Some FText else if str_eqb type (bs "JSON") then Some (FJson true) else if str_eqb type (bs "CSV") then Some FCsv else None.
  Definition register_main (c : conf) (args : list str) : outcome (option (look * list (option str * list (option RegisterModel.entry)))) :=
    execute register_flags c args (fun c words =>
      match words with
      | [] => Error
      | w :: ws =>
          do b <- load (get_str c [bs "Ledger"]);
          do l <- register_run srt compile parse_float today ploop (macros_of c) fuel (get_str c [bs "BaseCCY"]) (get_flag c [bs "All"])
            (mkGO (get_str c [bs "Register"; bs "BeginDate"]) (get_str c [bs "Register"; bs "EndDate"]) (get_flag c [bs "Register"; bs "Combined"])
               (get_flag c [bs "Register"; bs "Convert"]) (get_flag c [bs "Register"; bs "Split"])) (removelast (w :: ws)) (last (w :: ws) []) b;
          match l, register_form c with
          | [], _ => Ok (look_of c FText, [])
          | _, None => Error
          | _, Some f => Ok (look_of c f, map (fun r => (fst r, show_rows (get_num c [bs "Register"; bs "Count"]) (get_flag c [bs "Register"; bs "Asc"]) (snd r))) l)
          end
      end).

  (** export.go:45-72 *)
  Variable f64 : Qc -> Qc.
  Variable is_letter : Z -> bool.
  Variables title upper : str -> str.
  Variable order_accts : list (str * acct_info) -> list (str * acct_info).
  Variable order_pairs : pbook -> list (str * str).
  Definition export_main (c : conf) (args : list str) : outcome (option (look * exported)) :=
    execute export_flags c args (fun c words =>
      do b <- load (get_str c [bs "Ledger"]);
      do x <- export_run srt compile parse_float today ploop (macros_of c) fuel (get_str c [bs "BaseCCY"]) f64 is_letter title upper order_accts order_pairs
        (get_str c [bs "Export"; bs "Type"]) words b;
      Ok (look_of c (match x with XJson _ => FJson (get_flag c [bs "Export"; bs "JsonPretty"]) | XBean _ => FBeancount | XCsv _ => FCsv | XLedger _ => FLedger end), x)).

  (** accounts.go:16-53 (at most one argument) *)
  Definition accts_main (c : conf) (args : list str) : outcome (option (look * list str)) :=
    execute accts_flags c args (fun c words =>
      if Nat.ltb 1 (length words) then Error
      else do b <- load (get_str c [bs "Ledger"]);
           do l <- accts_run compile (get_flag c [bs "All"]) words b;
           Ok (look_of c (if get_flag c [bs "flag"; bs "json"] then FJson true else FText), l)).

  (** currencies.go:9-31 (no argument, no flags of its own); [walk]: the order in which the map of the currencies is visited *)
  Definition ccy_main (walk : list (str * Z) -> list (str * Z)) (c : conf) (args : list str) : outcome (option str) :=
    execute [] c args (fun c words =>
      match words with
      | _ :: _ => Error
      | [] => do b <- load (get_str c [bs "Ledger"]); Ok (ccy_run walk b)
      end).
End Commands.

(** ** config.go:112-162: the keys and values of [DEFAULT_CONFIG_FILE] *)
Definition first_values : list (list str * value) :=
  [([bs "report"], VT); ([bs "report"; bs "combineby"], VS (bs "today")); ([bs "report"; bs "type"], VS (bs "Ansi")); ([bs "report"; bs "sum"], VB true);
   ([bs "report"; bs "convert"], VB true); ([bs "report"; bs "credit"], VS (bs "^(Income|Trading|Liability|Equity)(:.*)?$"));
   ([bs "report"; bs "macros"], VT); ([bs "report"; bs "macros"; bs "macroA"], VL [bs "book operation A"; bs "book operation B"]);
   ([bs "register"], VT); ([bs "register"; bs "accounts"], VL [bs "Asset:Default"]); ([bs "register"; bs "count"], VI (-100));
   ([bs "register"; bs "type"], VS (bs "Text")); ([bs "register"; bs "asc"], VB true);
   ([bs "importdefs"; bs "bankformat"], VT); ([bs "importdefs"; bs "bankformat"; bs "description"], VS (bs "Bank Format"));
   ([bs "importdefs"; bs "bankformat"; bs "configtype"], VS (bs "csv")); ([bs "importdefs"; bs "bankformat"; bs "account"], VS (bs "Asset:BankDefaultAccount"));
   ([bs "importdefs"; bs "bankformat"; bs "counteraccount"], VS (bs "Expense:DefaultExpenseAccount"));
   ([bs "importdefs"; bs "bankformat"; bs "dedup"], VB true); ([bs "importdefs"; bs "bankformat"; bs "reclassify"], VB true);
   ([bs "importdefs"; bs "bankformat"; bs "params"], VT);
   ([bs "importdefs"; bs "bankformat"; bs "params"; bs "ccy"], VS [195; 131; 194; 131; 195; 130; 194; 131; 195; 131; 194; 130; 195; 130; 194; 130; 195; 131; 194; 131; 195; 130; 194; 130; 195; 131; 194; 130; 195; 130; 194; 163]);
   ([bs "importdefs"; bs "bankformat"; bs "params"; bs "date"], VS (bs "0")); ([bs "importdefs"; bs "bankformat"; bs "params"; bs "amount"], VS (bs "2"));
   ([bs "importdefs"; bs "bankformat"; bs "params"; bs "payee"], VS (bs "1"))].
