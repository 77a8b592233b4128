(** * CfgModel: command line values: /repo/cmd/utils/cli_config.go, /repo/cmd/utils/types.go and the choice of the
    reader of imports, /repo/cmd/importer/import_op.go.

    Not modelled: the texts of error messages; strconv.Atoi of [GetIntDefault], which no command uses. *)
From Verif Require Import Base RegisterModel Utf8 BookOpModel.

(** strings.SplitN(s, c, 2) with a separator of one byte: [None] when the separator does not occur. *)
Fixpoint cut (c : Z) (s : str) : option (str * str) :=
  match s with
  | [] => None
  | x :: s' => if x =? c then Some ([], s') else match cut c s' with Some (a, b) => Some (x :: a, b) | None => None end
  end.
(** strings.Split(s, c): at least one part. *)
Fixpoint split (c : Z) (s : str) : list str :=
  match s with
  | [] => [[]]
  | x :: s' => if x =? c then [] :: split c s'
               else match split c s' with [] => [[x]] | p :: l => (x :: p) :: l end
  end.

(** cli_config.go:9-12 [CLIConfig] *)
Record config := mkCfg { cf_type : str; cf_params : list (str * str) }.

(** cli_config.go:60-75 the loop of [Set] over the parts; the second component says whether it ended with an error.
    The parameters set before the error stay. *)
Fixpoint set_params (m : list (str * str)) (parts : list str) : list (str * str) * bool :=
  match parts with
  | [] => (m, true)
  | a :: parts' =>
      match cut 61 a with
      | None => set_params (aset str_eqb a (bs "true") m) parts'
      | Some (k, v) =>
          match aget str_eqb k m with
          | Some _ => (m, false)
          | None => set_params (aset str_eqb k v m) parts'
          end
      end
  end.
(** cli_config.go:48-78 [CLIConfig.Set]; [false] is an error. *)
Definition cfg_set (s : str) : config * bool :=
  match cut 58 s with
  | None => (mkCfg s [], true)
  | Some (t, rest) => let (m, ok) := set_params [] (split 44 rest) in (mkCfg t m, ok)
  end.

(** cli_config.go:80-97 [CLIConfig.String]; [order] is the order in which the map is iterated (a permutation of it). *)
Definition cfg_string (t : str) (order : list (str * str)) : str :=
  match t with
  | [] => []
  | _ => match order with
         | [] => t
         | _ => t ++ bs ":" ++ join (bs ",") (map (fun kv => fst kv ++ bs "=" ++ snd kv) order)
         end
  end.

(** cli_config.go:14-27 [GetBoolDefault]: strings.ToUpper(s) is "TRUE" or "FALSE". [upper] is unicode.ToUpper; bytes
    that are not UTF-8 become U+FFFD, which is not a letter of the two words. *)
Definition get_bool (upper : Z -> Z) (c : config) (key : str) (dflt : bool) : outcome bool :=
  match aget str_eqb key (cf_params c) with
  | None => Ok dflt
  | Some s =>
      let u := map upper (decode s) in
      if str_eqb u (bs "TRUE") then Ok true else if str_eqb u (bs "FALSE") then Ok false else Error
  end.

(** cli_config.go:41-47 [GetStringDefault] *)
Definition get_string (c : config) (key dflt : str) : str :=
  match aget str_eqb key (cf_params c) with None => dflt | Some v => v end.

(** import_op.go:80-104 [NewBookImporterByConfig], [NewCSVBookImporter]: which reader is used. *)
Inductive reader := RCsv (delim : str) (header : bool) | RJson.
Definition import_reader (upper : Z -> Z) (c : config) : outcome reader :=
  if str_eqb (cf_type c) [] then Error
  else if str_eqb (cf_type c) (bs "csv") then
    let delim := get_string c (bs "delim") (bs ",") in
    if negb (Nat.eqb (length (decode delim)) 1) then Error
    else do h <- get_bool upper c (bs "header") false; Ok (RCsv delim h)
  else if str_eqb (cf_type c) (bs "json") then Ok RJson
  else Error.

(** types.go:74-83 [Enum.Set]: the first valid value that strings.EqualFold accepts becomes the value. [fold] is the
    comparison. *)
Fixpoint enum_set (fold : str -> str -> bool) (valid : list str) (value : str) : option str :=
  match valid with
  | [] => None
  | v :: valid' => if fold v value then Some v else enum_set fold valid' value
  end.
(** types.go:27-39 [EnumSlice.Set]: [vals] are the values so far. (Lines 28-30 test the pointer, not the slice; the
    pointer is never nil.) *)
Definition enum_slice_set (fold : str -> str -> bool) (valid vals : list str) (value : str) : option (list str) :=
  match enum_set fold valid value with Some v => Some (vals ++ [v]) | None => None end.
