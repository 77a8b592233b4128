(** * StarlingModel: the state file of download starling, from the bytes the server sent to the bytes of the file.

    Models /repo/cmd/download/starling.go. Since when changes are asked for is in [DownloadModel]; failures and crashes while saving are [SaveModel]. *)
From Verif Require Import Base Utf8 LoaderModel ConvertModel JsonModel StateModel ShapeModel.

(** starling.go:235-261 [StarlingAccount], 268-290 [SavingsGoal], 292-314 [SpendingSpace], 316-342 [FeedItem] *)
Definition s_account : shape := SRaw [bs "accountUid"; bs "defaultCategory"; bs "createdAt"].
Definition s_goal : shape := SRaw [bs "savingsGoalUid"; bs "name"].
Definition s_space : shape := SRaw [bs "spaceUid"; bs "name"].
Definition s_item : shape := SRaw [bs "feedItemUid"; bs "transactionTime"; bs "updatedAt"].
(** 263-266 [Spaces] *)
Definition s_spaces : shape := SStruct [(bs "savingsGoals", SList s_goal); (bs "spendingSpaces", SList s_space)].
(** 49-54 [StarlingAccountData] *)
Definition s_entry : shape := SStruct [(bs "account", SPtr s_account); (bs "spaces", SPtr s_spaces); (bs "identifiers", SAny); (bs "feeditems", SMap (SMap (SPtr s_item)))].
(** 56-59 [StarlingData] *)
Definition s_data : shape := SStruct [(bs "accounts", SMap (SPtr s_entry)); (bs "Payees", SList SAny)].
(** 127-129, 158-160, 214-216: the answers *)
Definition s_feed : shape := SStruct [(bs "FeedItems", SList (SPtr s_item))].
Definition s_accounts : shape := SStruct [(bs "Accounts", SList (SPtr s_account))].
Definition s_payees : shape := SStruct [(bs "Payees", SList SAny)].

(** One run: whether --alldata was given, the order in which the map of accounts is gone through, and the answers of the server: the accounts, of each account the identifiers, the spaces and the feeds by category, and the payees. The same request is answered alike when it is made twice in one run (a category that is a space as well). *)
Record session := mkSession { se_all : bool; se_ord : list str -> list str; an_accounts : str; an_ident : str -> str; an_spaces : str -> str; an_feed : str -> str -> str; an_payees : str }.

Definition str_of (j : json) (key : str) : str := match get_string j key with Ok s => s | _ => [] end.
(** 138-149: a nil pointer crashes *)
Fixpoint store_items (m : list (str * json)) (l : list json) : outcome (list (str * json)) :=
  match l with
  | [] => Ok m
  | JNull :: _ => Panic
  | v :: l' => store_items (aset str_eqb (str_of v (bs "feedItemUid")) v m) l'
  end.
(** 168-177: a new account gets an empty entry; a nil pointer crashes *)
Fixpoint store_accounts (m : list (str * json)) (l : list json) : outcome (list (str * json)) :=
  match l with
  | [] => Ok m
  | JNull :: _ => Panic
  | v :: l' =>
      let uid := str_of v (bs "accountUid") in
      match aget str_eqb uid m with
      | Some JNull => Panic
      | Some e => store_accounts (aset str_eqb uid (set (bs "account") v e) m) l'
      | None => store_accounts (aset str_eqb uid (set (bs "account") v (zero s_entry)) m) l'
      end
  end.

Section Run.
  Variable rfc : str -> bool.        (* time.Parse(time.RFC3339, _) succeeds *)
  Variable an : session.

  (** 104-109: the greatest text of an update time *)
  Definition recent (feed : list (str * json)) : str :=
    fold_left (fun r kv => let u := str_of (snd kv) (bs "updatedAt") in if str_eqb r [] || str_ltb r u then u else r) feed [].
  (** 89-154 [syncFeed] *)
  Definition sync_feed (e : json) (cat : str) : outcome json :=
    let account := get (bs "account") e in
    if is_null account then Panic
    else
      let feeds := get (bs "feeditems") e in
      let feed := members (get cat feeds) in
      do _ <- (if se_all an || match feed with [] => true | _ => false end then Ok tt
               else if existsb (fun kv => is_null (snd kv)) feed then Panic
               else if rfc (recent feed) then Ok tt else Error);
      do items <- fetch (SPtr s_feed) (zero s_feed) (an_feed an (str_of account (bs "accountUid")) cat);
      if is_null items then Panic
      else
        do feed' <- store_items feed (elements (get (bs "FeedItems") items));
        Ok (set (bs "feeditems") (set cat (JObj feed') feeds) e).
  Fixpoint sync_feeds (e : json) (cats : list str) : outcome json :=
    match cats with [] => Ok e | c :: r => do e' <- sync_feed e c; sync_feeds e' r end.
  (** 183-211: one account *)
  Definition sync_entry (id : str) (e : json) : outcome json :=
    if is_null e then Panic
    else
      do ident <- fetch SAny (get (bs "identifiers") e) (an_ident an id);
      let e1 := set (bs "identifiers") ident e in
      if is_null (get (bs "account") e1) then Panic
      else
        do e2 <- sync_feed e1 (str_of (get (bs "account") e1) (bs "defaultCategory"));
        do spaces <- fetch (SPtr s_spaces) (get (bs "spaces") e2) (an_spaces an id);
        if is_null spaces then Panic
        else
          let e3 := set (bs "spaces") spaces e2 in
          do e4 <- sync_feeds e3 (map (fun g => str_of g (bs "savingsGoalUid")) (elements (get (bs "savingsGoals") spaces)));
          sync_feeds e4 (map (fun g => str_of g (bs "spaceUid")) (elements (get (bs "spendingSpaces") spaces))).
  (** 180-212 *)
  Fixpoint sync_entries (m : list (str * json)) (ids : list str) : outcome (list (str * json)) :=
    match ids with
    | [] => Ok m
    | id :: r => do e <- sync_entry id (get id (JObj m)); sync_entries (aset str_eqb id e m) r
    end.
  (** 156-221 [Sync], up to saving *)
  Definition sync (d : json) : outcome json :=
    do accts <- fetch s_accounts (zero s_accounts) (an_accounts an);
    do m <- store_accounts (members (get (bs "accounts") d)) (elements (get (bs "Accounts") accts));
    do m' <- sync_entries m (se_ord an (map fst m));
    do p <- fetch s_payees (zero s_payees) (an_payees an);
    Ok (set (bs "Payees") (get (bs "Payees") p) (set (bs "accounts") (JObj m') d)).
  (** 33-44, 74-87, 224-226: one run of the command, and what the file holds afterwards *)
  Definition run (short : bool) (file : option str) : outcome str := do d <- load s_data file; do d' <- sync d; save short s_data d'.
End Run.
(** Any number of runs *)
Fixpoint runs (rfc : str -> bool) (short : bool) (file : option str) (ses : list session) : outcome (option str) :=
  match ses with [] => Ok file | a :: r => do s <- run rfc a short file; runs rfc short (Some s) r end.
