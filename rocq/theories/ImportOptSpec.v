(** * ImportOptSpec: the options and definitions of import and generate (C117), from the help texts and the documented configuration keys. *)
From Verif Require Import Base Utf8 JsonModel CfgModel ConvertModel ImportModel OptionsModel OptionsSpec ImportOptModel.

(** A setting of a definition: no text means that the definition leaves it open; [VT] is "no value". *)
Definition given (s : str) : value := match s with [] => VT | _ => VS s end.
(** The options of an import, for the definition behind the command. --code and --format exist only if the definition leaves them open. *)
Definition import_options (d : import_def) : list option_doc :=
  [mkOption (bs "dedup") Switch [] (VB (df_dedup d)); mkOption (bs "reclassify") Switch [] (VB (df_reclass d))]
  ++ (if (length (df_code d) =? 0)%nat then [mkOption (bs "code") AnyText [] VT] else [])
  ++ (if (length (df_type d) =? 0)%nat then [mkOption (bs "format") Format [] VT] else [])
  ++ [mkOption (bs "acct") AnyText [] (given (df_account d)); mkOption (bs "cacct") AnyText [] (given (df_counter d))].
Definition import_letters : list (Z * str) := common_letters ++ [(100, bs "dedup"); (114, bs "reclassify"); (97, bs "acct"); (99, bs "cacct")].
Definition open_ones (l : list (str * str)) : list str := map fst (filter (fun x => (length (snd x) =? 0)%nat) l).
(** The options that must be given. *)
Definition required (d : import_def) : list str := open_ones [(bs "code", df_code d); (bs "format", df_type d); (bs "acct", df_account d); (bs "cacct", df_counter d)].
Definition generate_options (d : generate_def) : list option_doc :=
  mkOption (bs "dedup") Switch [] (VB (gd_dedup d)) :: (if (length (gd_code d) =? 0)%nat then [mkOption (bs "code") AnyText [] VT] else []).
Definition generate_letters : list (Z * str) := common_letters ++ [(100, bs "dedup")].
(** The setting of the definition, else the option. *)
Definition or_option (s : str) (v : value) : str := if (length s =? 0)%nat then txt v else s.

(** The last value of a key of the configuration file, or no value. *)
Definition last_value (key : list str -> Prop) (file : list (list str * value)) (v : value) : Prop :=
  (exists e1 k e2, file = e1 ++ (k, v) :: e2 /\ key k /\ Forall (fun e => ~ key (fst e)) e2) \/ (Forall (fun e => ~ key (fst e)) file /\ v = VT).
(** table.name.field: upper and lower case matter only in the name. *)
Definition at_name (table name : str) (field : list str) (k : list str) : Prop := exists a b, k = a :: name :: b /\ same_key [a] [table] /\ same_key b field.
(** table.name.params.p: upper and lower case matter in p, too *)
Definition at_param (table name p : str) (k : list str) : Prop := exists a b, k = [a; name; b; p] /\ same_key [a] [table] /\ same_key [b] [bs "params"].

Section Scripts.
  Variable content : str -> option str.             (* the bytes of a file, if it can be read *)
  Variable interp : str -> sval -> str -> script.    (* a script on its data and the name of the file *)
  Variable read : reader -> str -> outcome sval.     (* the data in the bytes of a file *)
  (** The text of the script: "file:name" stands for what is in the file. *)
  Inductive code_text : str -> option str -> Prop :=
  | C_file name : code_text (bs "file:" ++ name) (content name)
  | C_text s : (forall name, s <> bs "file:" ++ name) -> code_text s (Some s).
  (** The script of one file to import: a file that cannot be read, or whose bytes are no such data, or a script file that cannot be read is a failure. *)
  Inductive script_for (r : reader) (code file : str) : script -> Prop :=
  | S_unreadable : content file = None -> script_for r code file ([], true)
  | S_no_data bytes : content file = Some bytes -> (forall d, read r bytes <> Ok d) -> script_for r code file ([], true)
  | S_no_code bytes d : content file = Some bytes -> read r bytes = Ok d -> code_text code None -> script_for r code file ([], true)
  | S_runs bytes d sc : content file = Some bytes -> read r bytes = Ok d -> code_text code (Some sc) -> script_for r code file (interp sc d file).
End Scripts.
