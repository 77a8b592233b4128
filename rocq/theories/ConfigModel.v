(** * ConfigModel: the configuration file, /repo/cmd/config.go [load].

    Not modelled: the TOML syntax in general. The reader of the library (github.com/BurntSushi/toml v1.2.1) is a
    parameter that yields the keys of a text; for the default configuration they are those found by [simple_toml]. *)
From Verif Require Import Base RegisterModel BookOpModel CfgModel.

(** ** The keys of a TOML text, in order: a path and what stands there. *)
Inductive kind := KTable | KStr | KBool | KInt | KList.
Definition entry := (list str * kind)%type.

(** A reader for a small part of TOML: comments, [tables], key = value on one line, lists over several lines. *)
Fixpoint ltrim (s : str) : str := match s with c :: s' => if (c =? 32) || (c =? 9) then ltrim s' else s | [] => [] end.
Definition trim (s : str) : str := rev (ltrim (rev (ltrim s))).
Definition kind_of (v : str) : option kind :=
  match v with
  | c :: _ => if c =? 34 then Some KStr else if c =? 91 then Some KList
              else if str_eqb v (bs "true") || str_eqb v (bs "false") then Some KBool else Some KInt
  | [] => None
  end.
Fixpoint simple_lines (table : list str) (in_list : bool) (ls : list str) : option (list entry) :=
  match ls with
  | [] => if in_list then None else Some []
  | l :: ls' =>
      let t := trim l in
      if in_list then simple_lines table (negb (str_eqb t (bs "]"))) ls'
      else match t with
           | [] => simple_lines table false ls'
           | c :: rest =>
               if c =? 35 then simple_lines table false ls'
               else if c =? 91 then
                 match cut 93 rest with
                 | Some (name, []) => match simple_lines (split 46 name) false ls' with Some es => Some ((split 46 name, KTable) :: es) | None => None end
                 | _ => None
                 end
               else match cut 61 t with
                    | None => None
                    | Some (k, v) =>
                        match kind_of (trim v), simple_lines table (str_eqb (trim v) (bs "[")) ls' with
                        | Some kd, Some es => Some ((table ++ [trim k], kd) :: es)
                        | _, _ => None
                        end
                    end
           end
  end.
Definition simple_toml (s : str) : option (list entry) := simple_lines [] false (split 10 s).

(** ** The Go types a configuration is decoded into *)
Inductive ty := TStr | TBool | TInt | TStrs | TOther | TMap (t : ty) | TStruct (fields : list (str * ty)).
(** toml: a key is a field if it is its name, else if it is its name up to case. *)
Fixpoint field (eq : str -> str -> bool) (k : str) (fs : list (str * ty)) : option ty :=
  match fs with [] => None | (n, t) :: fs' => if eq n k then Some t else field eq k fs' end.
Definition lookup (k : str) (fs : list (str * ty)) : option ty :=
  match field str_eqb k fs with Some t => Some t | None => field equal_fold k fs end.
Fixpoint resolve (t : ty) (path : list str) : option ty :=
  match path with
  | [] => Some t
  | k :: path' =>
      match t with
      | TMap t' => resolve t' path'
      | TStruct fs => match lookup k fs with Some t' => resolve t' path' | None => None end
      | _ => None
      end
  end.
Definition fits (t : ty) (k : kind) : bool :=
  match t, k with
  | TStr, KStr | TBool, KBool | TInt, KInt | TStrs, KList | TMap _, KTable | TStruct _, KTable => true
  | _, _ => false
  end.
(** app.go:29-39, report.go:12-21, register.go:13-29, import.go:13-35, generate.go:10-14, download.go:7-11,
    monzo.go:17-21, starling.go:16-19, nordigen.go:17-20, export.go:10-13, cli_config.go:9-12, root.go:22-31 [Config].
    Embedded structures contribute their fields. *)
Definition import_ty : ty := TStruct
  [(bs "Name", TStr); (bs "Description", TStr); (bs "ConfigType", TStr); (bs "Params", TMap TStr); (bs "Code", TStr);
   (bs "Account", TStr); (bs "CounterAccount", TStr); (bs "CCY", TStr); (bs "Dedup", TBool); (bs "Reclassify", TBool)].
Definition config_ty : ty := TStruct
  [(bs "Ledger", TStr); (bs "BaseCCY", TStr); (bs "Verbose", TBool); (bs "Divider", TStr); (bs "Colour", TBool);
   (bs "Macros", TMap TStrs); (bs "All", TBool); (bs "Lang", TStr); (bs "Output", TOther);
   (bs "Report", TStruct [(bs "Credit", TStr); (bs "Hidden", TStr); (bs "Convert", TBool); (bs "JsonPretty", TBool);
     (bs "HTMLCSS", TStr); (bs "Sum", TBool); (bs "Type", TStr); (bs "Combineby", TStr)]);
   (bs "Register", TStruct [(bs "Name", TStr); (bs "Short", TStr); (bs "Long", TStr); (bs "BeginDate", TStr);
     (bs "EndDate", TStr); (bs "Count", TInt); (bs "Asc", TBool); (bs "Type", TStr); (bs "Combined", TBool);
     (bs "ZeroStart", TBool); (bs "Convert", TBool); (bs "Macros", TStrs); (bs "Accounts", TStrs); (bs "Split", TBool)]);
   (bs "ImportDefs", TMap import_ty);
   (bs "Generate", TMap (TStruct [(bs "Description", TStr); (bs "Code", TStr); (bs "Dedup", TBool)]));
   (bs "Download", TStruct [(bs "Monzo", TStruct [(bs "ClientID", TStr); (bs "ClientSecret", TStr); (bs "Port", TInt)]);
     (bs "Starling", TStruct [(bs "PersonalAccessToken", TStr); (bs "AllData", TBool)]);
     (bs "Nordigen", TStruct [(bs "ClientID", TStr); (bs "ClientSecret", TStr)])]);
   (bs "Export", TStruct [(bs "JsonPretty", TBool); (bs "Type", TStr)])].

(** toml.Decode into [Config]: an error when a value does not fit its field, else the keys that have no field
    (MetaData.Undecoded). *)
Definition no_field (e : entry) : bool := match resolve config_ty (fst e) with None => true | Some _ => false end.
Definition ill_typed (e : entry) : bool := match resolve config_ty (fst e) with None => false | Some t => negb (fits t (snd e)) end.
Definition decode_toml (toml : str -> option (list entry)) (s : str) : outcome (list (list str)) :=
  match toml s with
  | None => Error
  | Some es => if existsb ill_typed es then Error else Ok (map fst (filter no_field es))
  end.

(** config.go:112-162 [DEFAULT_CONFIG_FILE] *)
Definition default_lines : list str :=
  [[];
   [];
   bs "#";
   bs "# Main defaults";
   bs "#";
   bs "#ledger =  ""default_ledger_file""";
   bs "#baseccy = """ ++ [195; 131; 194; 131; 195; 130; 194; 131; 195; 131; 194; 130; 195; 130; 194; 130; 195; 131; 194; 131; 195; 130; 194; 130; 195; 131; 194; 130; 195; 130; 194; 163] ++ bs """";
   [];
   bs "#";
   bs "# Defaults for the report command";
   bs "#";
   bs "[report]";
   bs "combineby = ""today""";
   bs "type =      ""Ansi""";
   bs "sum =       true";
   bs "convert =   true";
   bs "credit =    ""^(Income|Trading|Liability|Equity)(:.*)?$""";
   [];
   bs "[report.macros]";
   bs "macroA = [";
   [9] ++ bs """book operation A"",";
   [9] ++ bs """book operation B"",";
   bs "]";
   [];
   bs "#";
   bs "# Defaults for the register command";
   bs "#";
   [];
   bs "[register]";
   bs "accounts = [";
   bs "  ""Asset:Default"",";
   bs "]";
   bs "count = -100";
   bs "type = ""Text""";
   bs "asc = true";
   [];
   bs "[importdefs.bankformat]";
   bs "description = ""Bank Format""";
   bs "configtype = ""csv""";
   bs "account = ""Asset:BankDefaultAccount""";
   bs "counteraccount = ""Expense:DefaultExpenseAccount""";
   bs "dedup = true";
   bs "reclassify = true";
   [];
   bs "[importdefs.bankformat.params]";
   bs "ccy = """ ++ [195; 131; 194; 131; 195; 130; 194; 131; 195; 131; 194; 130; 195; 130; 194; 130; 195; 131; 194; 131; 195; 130; 194; 130; 195; 131; 194; 130; 195; 130; 194; 163] ++ bs """";
   bs "date = ""0""";
   bs "amount = ""2""";
   bs "payee = ""1""";
   [];
   []].
Definition default_config : str := join [10] default_lines.

(** ** config.go:13-81 [load] *)
Inductive fstate := Missing | Unreadable | Text (s : str).
Record env := mkEnv { e_conf : option str; e_config_dir : option str; e_home : option str }.

Section Load.
  Variable path : list str -> str.                 (* filepath.Join *)
  Variable toml : str -> option (list entry).
  (** config.go:14-36: the search list for "goledger" and whether a default may be written. *)
  Definition search (e : env) : list str * bool :=
    let name := bs "goledger" in
    match e_conf e with
    | Some (c :: f) => ([c :: f], true)
    | _ =>
        let dot := bs "." in
        (match e_config_dir e with
         | Some d => [path [d; name; name ++ bs ".toml"]; path [d; name; name ++ bs ".cfg"]]
         | None => [] end ++
         match e_home e with
         | Some h => [path [h; name ++ bs ".toml"]; path [h; name ++ bs ".cfg"]; path [h; dot ++ name ++ bs ".toml"]; path [h; dot ++ name ++ bs ".cfg"]]
         | None => [] end ++
         [name ++ bs ".toml"; name ++ bs ".cfg"],
         match e_config_dir e with Some _ => true | None => false end)
    end.
  (** config.go:38-57: [None]: no file exists. Otherwise the text that was used, or an error. *)
  Fixpoint read_first (fs : str -> fstate) (files : list str) : option (outcome str) :=
    match files with
    | [] => None
    | f :: files' =>
        match fs f with
        | Missing => read_first fs files'
        | Unreadable => Some Error
        | Text s => match decode_toml toml s with
                    | Ok [] => Some (Ok s)
                    | Ok (_ :: _) => Some Error               (* lines 52-54 *)
                    | _ => Some Error
                    end
        end
    end.
  (** config.go:13-81; [writable] says whether lines 64-71 succeed. The configuration used: [None] are the built-in
      values, else the text it was read from. Also the files afterwards. *)
  Definition load (writable : bool) (e : env) (fs : str -> fstate) : outcome (option str) * (str -> fstate) :=
    let (files, write_default) := search e in
    match read_first fs files with
    | Some (Ok s) => (Ok (Some s), fs)
    | Some Error => (Error, fs) | Some Panic => (Panic, fs) | Some Diverge => (Diverge, fs)
    | None =>
        if negb write_default then (Ok None, fs)
        else if negb writable then (Error, fs)
        else match files with
             | [] => (Panic, fs)
             | f :: _ =>
                 let fs' := fun g => if str_eqb g f then Text default_config else fs g in
                 match decode_toml toml default_config with    (* lines 74-76: keys without a field are not looked at *)
                 | Ok _ => (Ok (Some default_config), fs')
                 | _ => (Error, fs')
                 end
             end
    end.
End Load.
