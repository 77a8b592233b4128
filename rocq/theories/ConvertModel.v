(** * ConvertModel: the data handed to an import script (script/convert.go), and the CSV text written by export (cmd/export/csv.go).
    encoding/csv and encoding/json are Go's standard library, not part of /repo: the CSV reader and writer are modelled here
    character by character with the settings of /repo (no comments, no lazy quotes, FieldsPerRecord 0), for valid UTF-8; of the JSON
    decoder only its result is modelled. *)
From Verif Require Import Base Utf8 AccumModel LoaderModel.

(** go.starlark.net: the values a script can see. A dict keeps the order of insertion. *)
Inductive sval := SNone | SBool (b : bool) | SFloat (q : Qc) | SStr (s : str) | SList (l : list sval) | SDict (m : list (str * sval)).

(** ** CSV *)
(** csv.Reader.readLine: the end of a line CR LF is read as LF, a CR at the end of the text is dropped. (Done here for all lines at once.) *)
Fixpoint csv_norm (l : runes) : runes :=
  match l with
  | 13 :: ((10 :: _) as r) => csv_norm r
  | [13] => []
  | c :: r => c :: csv_norm r
  | [] => []
  end.
(** What follows a field: another field, the end of the record, or an error. *)
Inductive ending := More (l : runes) | Eol (l : runes) | Bad.
Definition cons_field (c : Z) (x : runes * ending) : runes * ending := (c :: fst x, snd x).
(** csv.Reader.readRecord, quoted field (behind the opening quote): ErrQuote unless the closing quote is followed by the delimiter or the end of the line *)
Fixpoint csv_quoted (comma : Z) (l : runes) : runes * ending :=
  match l with
  | [] => ([], Bad)
  | c :: r =>
      if c =? 34 then
        match r with
        | [] => ([], Eol [])
        | d :: r' => if d =? 34 then cons_field 34 (csv_quoted comma r')
                     else if d =? comma then ([], More r')
                     else if d =? 10 then ([], Eol r')
                     else ([], Bad)
        end
      else cons_field c (csv_quoted comma r)
  end.
(** readRecord, field without quotes: ErrBareQuote when there is a quote in it *)
Fixpoint csv_plain (comma : Z) (l : runes) : runes * ending :=
  match l with
  | [] => ([], Eol [])
  | c :: r => if c =? comma then ([], More r)
              else if c =? 10 then ([], Eol r)
              else if c =? 34 then ([], Bad)
              else cons_field c (csv_plain comma r)
  end.
(** readRecord, TrimLeadingSpace (convert.go:83): all leading white space of the line, the newline included; true when nothing is left of the line *)
Fixpoint csv_trim (l : runes) : runes * bool :=
  match l with
  | [] => ([], true)
  | c :: r => if c =? 10 then (r, true) else if is_space c then csv_trim r else (l, false)
  end.
Definition csv_field (comma : Z) (l : runes) : runes * ending :=
  let '(l, ended) := csv_trim l in
  if ended then ([], Eol l)
  else match l with
       | c :: r => if c =? 34 then csv_quoted comma r else csv_plain comma l
       | [] => csv_plain comma l
       end.
(** readRecord; [fuel] is more than the fields there can be *)
Fixpoint csv_record (fuel : nat) (comma : Z) (l : runes) : outcome (list runes * runes) :=
  match fuel with
  | O => Diverge
  | S n => match csv_field comma l with
           | (f, More r) => do (fs, r) <- csv_record n comma r; Ok (f :: fs, r)
           | (f, Eol r) => Ok ([f], r)
           | (_, Bad) => Error
           end
  end.
(** csv.Reader.ReadAll: empty lines are skipped *)
Fixpoint csv_records (fuel : nat) (comma : Z) (l : runes) : outcome (list (list runes)) :=
  match fuel with
  | O => Diverge
  | S n => match l with
           | [] => Ok []
           | c :: r => if c =? 10 then csv_records n comma r
                       else do (fs, r) <- csv_record (S (length l)) comma l; do recs <- csv_records n comma r; Ok (fs :: recs)
           end
  end.
(** FieldsPerRecord = 0: ErrFieldCount unless every record has as many fields as the first *)
Definition even_rows {A} (recs : list (list A)) : bool :=
  match recs with [] => true | r :: recs' => forallb (fun x => Nat.eqb (length x) (length r)) recs' end.
(** csv.validDelim *)
Definition valid_delim (c : Z) : bool := negb (c =? 0) && negb (c =? 34) && negb (c =? 13) && negb (c =? 10) && scalarb c && negb (c =? rune_error).
Definition csv_read (comma : Z) (text : runes) : outcome (list (list runes)) :=
  if negb (valid_delim comma) then Error else
  let l := csv_norm text in
  do recs <- csv_records (S (length l)) comma l; if even_rows recs then Ok recs else Error.
(** convert.go:108-110: one row with its headers; a name that comes again overwrites *)
Fixpoint csv_dict (hdr rec : list runes) (m : list (str * sval)) : list (str * sval) :=
  match hdr, rec with
  | h :: hdr', v :: rec' => csv_dict hdr' rec' (aset str_eqb (encode h) (SStr (encode v)) m)
  | _, _ => m
  end.
(** convert.go:74-125 [GetReadCSV]. [delim] has at least one rune (import_op.go:94-96). Rows of the wrong length are refused by csv.Reader, so that
    the test of line 105 never fires. *)
Definition read_csv (delim : runes) (header : bool) (bytes : str) : outcome sval :=
  match delim with
  | [] => Panic
  | comma :: _ =>
      do recs <- csv_read comma (decode bytes);
      if header then
        match recs with
        | [] => Error
        | hdr :: recs => Ok (SList (map (fun rec => SDict (csv_dict hdr rec [])) recs))
        end
      else Ok (SList (map (fun rec => SList (map (fun v => SStr (encode v)) rec)) recs))
  end.

(** csv.Writer.fieldNeedsQuotes *)
Definition needs_quotes (comma : Z) (f : runes) : bool :=
  match f with
  | [] => false
  | c :: _ => (match f with [92; 46] => true | _ => false end)
              || existsb (fun x => (x =? comma) || (x =? 34) || (x =? 13) || (x =? 10)) f || is_space c
  end.
(** csv.Writer.Write, UseCRLF false *)
Definition csv_escape (f : runes) : runes := flat_map (fun c => if c =? 34 then [34; 34] else [c]) f.
Definition csv_write_field (comma : Z) (f : runes) : runes := if needs_quotes comma f then [34] ++ csv_escape f ++ [34] else f.
Fixpoint csv_write_record (comma : Z) (r : list runes) : runes :=
  match r with
  | [] => [10]
  | [f] => csv_write_field comma f ++ [10]
  | f :: r' => csv_write_field comma f ++ [comma] ++ csv_write_record comma r'
  end.
Definition csv_write (comma : Z) (recs : list (list runes)) : runes := flat_map (csv_write_record comma) recs.

(** ** JSON *)
(** encoding/json into an interface{}: an object is a map, a number a float64 *)
Inductive json := JNull | JBool (b : bool) | JNum (q : Qc) | JStr (s : str) | JArr (l : list json) | JObj (m : list (str * json)).
Section Json.
  (** the float64 nearest to a number *)
  Variable f64 : Qc -> Qc.
  (** the order in which range visits a map *)
  Variable order : list (str * sval) -> list (str * sval).
  (** convert.go:14-54 [jsonToStarlark]: members with the value null are left out. The members of a map are visited in any order
      (converting them all and then reordering comes to the same, as no conversion fails). *)
  Fixpoint json_to_starlark (j : json) : sval :=
    match j with
    | JNull => SNone
    | JBool b => SBool b
    | JNum q => SFloat (f64 q)
    | JStr s => SStr s
    | JArr l => SList (map json_to_starlark l)
    | JObj m => SDict (order (flat_map (fun kv => match json_to_starlark (snd kv) with SNone => [] | v => [(fst kv, v)] end) m))
    end.
  (** convert.go:57-72 [ReadJSON]: Decode reads one value. The input as a sequence of values, or something that is none. *)
  Definition read_json (stream : list (option json)) : outcome sval :=
    match stream with Some j :: _ => Ok (json_to_starlark j) | _ => Error end.
End Json.
