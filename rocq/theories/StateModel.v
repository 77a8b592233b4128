(** * StateModel: the state file of download monzo, from the bytes the server sent to the bytes of the file.

    Models /repo/cmd/download/monzo.go (types, Sync), net.go:64-93 [fetchFromURL] and /repo/cmd/utils/json.go on top of the JSON text of [JsonModel].
    How many pages are asked for is [DownloadModel]; failures and crashes while saving are [SaveModel]. Simplified: the oauth2 token is kept as
    the JSON it is marshalled to; of members with the same name only the last is looked at; a page whose times cannot be parsed ends Sync with an error
    ([DownloadModel.store]) and is not among the pages here. *)
From Verif Require Import Base Utf8 LoaderModel ConvertModel JsonModel.

Definition by_name (a b : str * json) : bool := str_ltb (fst a) (fst b).
(** encoding/json mapEncoder: the members of a map are written in the order of their names. *)
Fixpoint sort_json (j : json) : json :=
  match j with
  | JArr l => JArr (map sort_json l)
  | JObj m => JObj (isort by_name (map (fun kv => (fst kv, sort_json (snd kv))) m))
  | _ => j
  end.

(** utils/json.go:22-35 [GetStringValue] *)
Definition get_string (data : json) (key : str) : outcome str :=
  match data with
  | JObj m => match aget str_eqb key m with Some (JStr s) => Ok s | _ => Error end
  | _ => Error
  end.
(** monzo.go:198-213 [MonzoAccount] *)
Record acct := mkAcct { a_id : str; a_data : json }.
Definition acct_of (j : json) : outcome acct := do id <- get_string j (bs "id"); Ok (mkAcct id j).
(** monzo.go:218-240 [Transaction] *)
Record tx := mkTx { t_id : str; t_created : str; t_data : json }.
Definition tx_of (j : json) : outcome tx := do id <- get_string j (bs "id"); do created <- get_string j (bs "created"); Ok (mkTx id created j).
(** encoding/json decode.go indirect: null makes a nil pointer, without a call of UnmarshalJSON *)
Definition ptr {A} (f : json -> outcome A) (j : json) : outcome (option A) :=
  match j with JNull => Ok None | _ => do a <- f j; Ok (Some a) end.

(** monzo.go:54-58 [MonzoData]; [None] is the nil map *)
Record mdata := mkData { d_token : json; d_trans : option (list (str * option tx)); d_accts : option (list (str * option acct)) }.

(** encoding/json fold.go: a member belongs to the field of that name, or else to the first whose name differs only in case (the Kelvin sign is a K, the long s an S) *)
Definition low (c : Z) : Z := if (65 <=? c) && (c <=? 90) then c + 32 else if c =? 8490 then 107 else if c =? 383 then 115 else c.
Definition fold_eqb (name key : str) : bool := str_eqb (map low name) (map low (decode key)).
Definition field (names : list str) (key : str) : option str := if existsb (str_eqb key) names then Some key else find (fun n => fold_eqb n key) names.

(** decode.go object, for a map: members are added to those there *)
Fixpoint put_all {A} (f : json -> outcome A) (m : list (str * option A)) (l : list (str * json)) : outcome (list (str * option A)) :=
  match l with
  | [] => Ok m
  | (k, v) :: l' => do a <- ptr f v; put_all f (aset str_eqb k a m) l'
  end.
Definition put_map {A} (f : json -> outcome A) (old : option (list (str * option A))) (j : json) : outcome (option (list (str * option A))) :=
  match j with
  | JNull => Ok None
  | JObj l => do m <- put_all f (match old with Some m => m | None => [] end) l; Ok (Some m)
  | _ => Error
  end.
(** decode.go object, for the struct MonzoData; other members are ignored *)
Fixpoint put_fields (l : list (str * json)) (d : mdata) : outcome mdata :=
  match l with
  | [] => Ok d
  | (k, v) :: l' =>
      do d' <- match field [bs "token"; bs "transactions"; bs "accounts"] k with
               | None => Ok d
               | Some n => if str_eqb n (bs "token") then Ok (mkData v (d_trans d) (d_accts d))
                           else if str_eqb n (bs "transactions") then do m <- put_map tx_of (d_trans d) v; Ok (mkData (d_token d) m (d_accts d))
                           else do m <- put_map acct_of (d_accts d) v; Ok (mkData (d_token d) (d_trans d) m)
               end;
      put_fields l' d'
  end.
Definition no_data : mdata := mkData JNull None None.
(** utils/json.go:67-106 [LoadFromFile] of a file that is there (lines 98-103), and of one that is not (lines 78-80); monzo.go:109-112 *)
Definition load_data (file : option str) : outcome mdata :=
  match file with
  | None => Ok no_data
  | Some bytes => do j <- unmarshal_json bytes; match j with JNull => Ok no_data | JObj l => put_fields l no_data | _ => Error end
  end.

(** encoding/json mapEncoder, of pointers to types with a MarshalJSON (monzo.go:211-213, 238-240) *)
Definition map_json {A} (data : A -> json) (m : option (list (str * option A))) : json :=
  match m with
  | None => JNull
  | Some l => JObj (isort by_name (map (fun kv => (fst kv, match snd kv with Some a => sort_json (data a) | None => JNull end)) l))
  end.
Definition data_json (d : mdata) : json := JObj [(bs "token", d_token d); (bs "transactions", map_json t_data (d_trans d)); (bs "accounts", map_json a_data (d_accts d))].
(** utils/json.go:145-149 in [SaveToFile]: the text *)
Definition save_data (short : bool) (d : mdata) : outcome str := marshal_indent short (bs "  ") (data_json d).

(** A list of pointers in an answer: a struct with this one field (monzo.go:75-77, 323-325); net.go:85-90: unknown fields are an error *)
Fixpoint all_ptr {A} (f : json -> outcome A) (l : list json) : outcome (list (option A)) :=
  match l with [] => Ok [] | v :: l' => do a <- ptr f v; do r <- all_ptr f l'; Ok (a :: r) end.
Fixpoint list_fields {A} (name : str) (f : json -> outcome A) (l : list (str * json)) (cur : list (option A)) : outcome (list (option A)) :=
  match l with
  | [] => Ok cur
  | (k, v) :: l' =>
      match field [name] k with
      | None => Error
      | Some _ => do cur' <- match v with JNull => Ok [] | JArr vs => all_ptr f vs | _ => Error end; list_fields name f l' cur'
      end
  end.
Definition fetch_list {A} (name : str) (f : json -> outcome A) (bytes : str) : outcome (list (option A)) :=
  do j <- decode_json bytes; match j with JNull => Ok [] | JObj l => list_fields name f l [] | _ => Error end.

(** monzo.go:87-89, 298-299: a nil pointer crashes *)
Fixpoint store {A} (id : A -> str) (m : list (str * option A)) (l : list (option A)) : outcome (list (str * option A)) :=
  match l with
  | [] => Ok m
  | Some a :: l' => store id (aset str_eqb (id a) (Some a) m) l'
  | None :: _ => Panic
  end.
Fixpoint store_pages (m : list (str * option tx)) (pages : list str) : outcome (list (str * option tx)) :=
  match pages with
  | [] => Ok m
  | p :: ps => do l <- fetch_list (bs "transactions") tx_of p; do m' <- store t_id m l; store_pages m' ps
  end.
(** monzo.go:68-106 [Sync], 268-272: the answer with the accounts, then the pages with transactions, account by account in any order *)
Definition sync (d : mdata) (accts : str) (pages : list str) : outcome mdata :=
  do l <- fetch_list (bs "Accounts") acct_of accts;
  do m <- store a_id (match d_accts d with Some m => m | None => [] end) l;
  match m with
  | [] => match pages with [] => Ok (mkData (d_token d) (d_trans d) (Some m)) | _ => Error end
  | _ => if existsb (fun kv => match snd kv with None => true | _ => false end) m then Panic   (* line 95: acct.ID of a nil pointer *)
         else do t <- store_pages (match d_trans d with Some t => t | None => [] end) pages; Ok (mkData (d_token d) (Some t) (Some m))
  end.
(** The whole command: what the file holds afterwards. monzo.go:131-161: without a token nothing is synchronised *)
Definition sync_file (short : bool) (file : option str) (accts : str) (pages : list str) : outcome str :=
  do d <- load_data file;
  match d_token d with
  | JNull => Error
  | _ => do d' <- sync d accts pages; save_data short d'
  end.
(** monzo.go:108-161, 164-183: the token that was given out or renewed is put into the file *)
Definition token_file (short : bool) (file : option str) (tok : json) : outcome str :=
  do d <- load_data file; save_data short (mkData tok (d_trans d) (d_accts d)).
(** Runs of the command *)
Inductive event := Token (tok : json) | Sync (accts : str) (pages : list str).
Definition step (short : bool) (file : option str) (e : event) : outcome str :=
  match e with Token tok => token_file short file tok | Sync accts pages => sync_file short file accts pages end.
Fixpoint steps (short : bool) (file : option str) (es : list event) : outcome (option str) :=
  match es with [] => Ok file | e :: es' => do s <- step short file e; steps short (Some s) es' end.
