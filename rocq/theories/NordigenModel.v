(** * NordigenModel: the state file of download nordigen, from the bytes the server sent to the bytes of the file.

    Models /repo/cmd/download/nordigen.go on top of [ShapeModel]. The token is kept as the JSON it is marshalled to; when a new one is asked for is [DownloadModel] (C80).
    Failures and crashes while saving are [SaveModel]. *)
From Verif Require Import Base Utf8 LoaderModel ConvertModel JsonModel StateModel ShapeModel StarlingModel.

(** nordigen.go:223-244 [Institution], 246-277 [Requisition] (its accounts: [listed]), 279-293 [NordigenTransaction] *)
Definition n_inst : shape := SRaw [bs "id"; bs "name"].
Definition n_req : shape := SRaw [bs "id"; bs "link"].
Definition n_tx : shape := SRaw [bs "transactionId"].
(** 345-349 [NordigenAccount] *)
Definition n_acct : shape := SStruct [(bs "Basic", SAny); (bs "Details", SAny); (bs "Transactions", SMap (SPtr n_tx))].
(** 61-66 [NordigenData] *)
Definition n_data : shape := SStruct [(bs "Token", SAny); (bs "Accounts", SMap (SPtr n_acct)); (bs "Institution", SPtr n_inst); (bs "Requisition", SPtr n_req)].
(** 377-383: the answer with transactions *)
Definition n_resp : shape := SStruct [(bs "transactions", SStruct [(bs "booked", SList n_tx); (bs "pending", SList n_tx)])].

(** utils/json.go:55-65 [ListToStringList] *)
Fixpoint strings (l : list json) : outcome (list str) :=
  match l with [] => Ok [] | JStr s :: r => do rs <- strings r; Ok (s :: rs) | _ => Error end.
(** utils/json.go:37-53 [GetListValue], nordigen.go:264-270 in [UnmarshalJSON] of a requisition *)
Definition listed (req : json) : outcome (list str) :=
  match req with
  | JObj m => match aget str_eqb (bs "accounts") m with Some (JArr l) => strings l | _ => Error end
  | _ => Error
  end.
(** 132-136: the state; a requisition without a list of accounts is an error *)
Definition load_n (file : option str) : outcome json :=
  do d <- load n_data file;
  if is_null (get (bs "Requisition") d) then Ok d else do _ <- listed (get (bs "Requisition") d); Ok d.

(** One run: the token when a new one was given out; for a new file the answer with the institutions, which of them the user chooses (None: no number), and the answer to the post for an institution;
    else the answers for the requisition with an id, and for each account. *)
Record nsession := mkNSession { n_token : option json; c_list : str; c_choice : option Z; c_post : str -> str; n_requisition : str -> str; n_basic : str -> str; n_details : str -> str; n_trans : str -> str }.

Section Run.
  Variable an : nsession.
  (** 358-405: one account; a nil pointer crashes *)
  Definition sync_account (m : list (str * json)) (id : str) : outcome (list (str * json)) :=
    let acct := match aget str_eqb id m with Some a => a | None => zero n_acct end in
    if is_null acct then Panic
    else
      do basic <- fetch SAny (get (bs "Basic") acct) (n_basic an id);
      do details <- fetch SAny (get (bs "Details") acct) (n_details an id);
      do resp <- fetch (SPtr n_resp) (zero n_resp) (n_trans an id);
      if is_null resp then Panic
      else
        let booked := elements (get (bs "booked") (get (bs "transactions") resp)) in
        let trans := fold_left (fun t v => aset str_eqb (str_of v (bs "transactionId")) v t) booked (members (get (bs "Transactions") acct)) in
        Ok (aset str_eqb id (set (bs "Transactions") (JObj trans) (set (bs "Details") details (set (bs "Basic") basic acct))) m).
  (** 351-408 [RefreshAccounts] *)
  Fixpoint sync_accounts (m : list (str * json)) (ids : list str) : outcome (list (str * json)) :=
    match ids with [] => Ok m | id :: r => do m' <- sync_account m id; sync_accounts m' r end.
  (** 299-309 in [Sync], 337-343 [RefreshRequisition] *)
  Definition sync_n (d : json) : outcome json :=
    let req := get (bs "Requisition") d in
    if is_null req then Panic
    else
      do req' <- fetch n_req req (n_requisition an (str_of req (bs "id")));
      do ids <- listed req';
      do m <- sync_accounts (members (get (bs "Accounts") d)) ids;
      Ok (set (bs "Accounts") (JObj m) (set (bs "Requisition") req' d)).
  (** 154-217 [Init] without an institution: the user chooses one *)
  Definition init_n (d : json) : outcome json :=
    do l <- fetch (SList n_inst) (JArr []) (c_list an);
    match c_choice an with
    | None => Error
    | Some i =>
        if (i <? 0) || (Z.of_nat (length (elements l)) <=? i) then Error
        else
          let inst := nth (Z.to_nat i) (elements l) JNull in
          do req <- fetch n_req JNull (c_post an (str_of inst (bs "id")));
          do _ <- listed req;
          Ok (set (bs "Requisition") req (set (bs "Institution") inst d))
    end.
  (** 35-52, 209-215, 311-314: one run of the command, and what the file holds afterwards *)
  Definition run_n (short : bool) (file : option str) : outcome str :=
    do d <- load_n file;
    do d' <- if is_null (get (bs "Institution") d) then init_n d else sync_n d;
    save short n_data (match n_token an with Some t => set (bs "Token") t d' | None => d' end).
End Run.
(** Any number of runs *)
Fixpoint runs_n (short : bool) (file : option str) (ses : list nsession) : outcome (option str) :=
  match ses with [] => Ok file | a :: r => do s <- run_n a short file; runs_n short (Some s) r end.
