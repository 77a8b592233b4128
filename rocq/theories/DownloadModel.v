(** * DownloadModel: the downloaders of /repo/cmd/download (net.go throttler, monzo.go, starling.go, nordigen.go) as
    functions of what the server answers.

    Not modelled: HTTP, OAuth and JSON decoding (an answer is a decoded value or a failure), progress messages, the
    interactive set-up of Nordigen. Saving the state is [SaveModel]. *)
From Verif Require Import Base.

(** ** net.go:18-30 [getThrottler]: times in nanoseconds. [throttle min last now] is what one call of the throttler
    does at the time [now]: the duration passed to time.Sleep ([None]: no sleep) and the new [lasttime]. *)
Definition throttle (min last now : Z) : option Z * Z :=
  let delay := last + min - now in
  if 0 <? delay then (Some delay, now + delay) else (None, now).

(** ** monzo.go *)
Definition second : Z := 1000000000.
(** monzo.go:218-222 [Transaction]: [tx_created] is the text of the creation time. *)
Record tx := mkTx { tx_id : str; tx_created : str; tx_data : str }.
(** Answer of the transactions endpoint (monzo.go:327-339, net.go:64-93). *)
Inductive answer := Forbidden | Failed | Page (l : list tx).

Section Monzo.
  Variable parse : str -> option Z.        (* time.Parse(time.RFC3339, _), nanoseconds since 1970 *)
  Variable limit : nat.                    (* monzo.go:266 LIMIT = 100 *)
  Variable days_ago : Z.                   (* monzo.go:280: time.Now().Add(-1 * time.Hour * 24 * DAYS_AGO) *)

  (** monzo.go:297: the zero time.Time, 0001-01-01. *)
  Definition zero_time : Z := -62135596800 * second.
  (** Format(time.RFC3339) has no fraction of a second (lines 280, 316). *)
  Definition to_second (t : Z) : Z := second * (t / second).

  (** monzo.go:297-307: storing a page and the time of its latest transaction; [None]: the time is unreadable. The
      transactions stored before the error stay. *)
  Fixpoint store (m : list (str * tx)) (created : Z) (l : list tx) : list (str * tx) * option Z :=
    match l with
    | [] => (m, Some created)
    | t :: l' =>
        let m' := aset str_eqb (tx_id t) t m in
        match parse (tx_created t) with
        | None => (m', None)
        | Some time => store m' (if created <? time then time else created) l'
        end
    end.

  (** monzo.go:277-282: a request; when the whole history is refused, only the last days are asked for. Also the
      number of the next request. (The variable [since] of the code is overwritten before it is used again.) *)
  Definition ask (server : nat -> option Z -> answer) (n : nat) (since : option Z) : answer * nat :=
    match since, server n since with
    | None, Forbidden => (server (S n) (Some (to_second days_ago)), S (S n))
    | _, a => (a, S n)
    end.

  (** monzo.go:268-321 [GetAllTransactions]; [server n since] answers request number [n]; [since = None] is "".
      The result has the stored transactions also when it is an error. *)
  Fixpoint get_all (fuel : nat) (server : nat -> option Z -> answer) (n : nat) (since : option Z) (m : list (str * tx))
    : list (str * tx) * outcome unit :=
    match fuel with
    | O => (m, Diverge)
    | S fuel' =>
        let (a, n1) := ask server n since in
        match a with
        | Forbidden | Failed => (m, Error)                            (* lines 284-287 *)
        | Page [] => (m, Ok tt)                                       (* lines 292-294 *)
        | Page l =>
            let (m', r) := store m zero_time l in
            match r with
            | None => (m', Error)
            | Some created =>
                if Nat.ltb (length l) limit then (m', Ok tt)          (* lines 310-312 *)
                else get_all fuel' server n1 (Some (to_second (created - 60 * second))) m'
            end
        end
    end.

  (** monzo.go:93-97: one account after the other, in the iteration order of the map of accounts. *)
  Fixpoint all_accounts (fuel : nat) (servers : str -> nat -> option Z -> answer) (accts : list str) (m : list (str * tx))
    : list (str * tx) * outcome unit :=
    match accts with
    | [] => (m, Ok tt)
    | a :: accts' =>
        match get_all fuel (servers a) 0%nat None m with
        | (m', Ok _) => all_accounts fuel servers accts' m'
        | r => r
        end
    end.
End Monzo.

(** ** starling.go *)
(** starling.go:316-321 [FeedItem] *)
Record item := mkItem { it_uid : str; it_updated : str; it_data : str }.

Section Starling.
  Variable parse : str -> option Z.        (* time.Parse(time.RFC3339, _) *)
  Variable format : Z -> str.              (* Format(time.RFC3339) *)
  Definition days20 : Z := 20 * 86400 * second.   (* AddDate(0, 0, -20) of a time in UTC *)

  (** starling.go:104-109: the greatest text of an update time, over the map in any order. *)
  Definition recent (feed : list (str * item)) : str :=
    fold_left (fun r kv => if str_eqb r [] || str_ltb r (it_updated (snd kv)) then it_updated (snd kv) else r) feed [].

  (** starling.go:91-122: since when changes are asked for; [None]: an unreadable time. *)
  Definition since_time (all : bool) (created : str) (feed : list (str * item)) : option str :=
    if negb all && negb (match feed with [] => true | _ => false end) then
      match parse (recent feed) with
      | None => None
      | Some t => let adjusted := format (t - days20) in
                  Some (if str_ltb created adjusted then adjusted else created)
      end
    else Some created.

  (** starling.go:138-149: storing the answer. *)
  Definition store_items (feed : list (str * item)) (l : list item) : list (str * item) :=
    fold_left (fun f i => aset str_eqb (it_uid i) i f) l feed.

  (** starling.go:89-154 [syncFeed]; [server since] are the changed items, [None] a failure. *)
  Definition sync_feed (all : bool) (created : str) (server : str -> option (list item)) (feed : list (str * item))
    : outcome (list (str * item)) :=
    match since_time all created feed with
    | None => Error
    | Some since => match server since with None => Error | Some l => Ok (store_items feed l) end
    end.
End Starling.

(** ** nordigen.go:396-410: the booked transactions of an account are stored under their identifiers; counts of
    updated and inserted ones. A transaction is an identifier and its data. *)
Fixpoint store_booked (m : list (str * str)) (l : list (str * str)) (updated inserted : Z) : list (str * str) * Z * Z :=
  match l with
  | [] => (m, updated, inserted)
  | (id, d) :: l' =>
      match aget str_eqb id m with
      | Some _ => store_booked (aset str_eqb id d m) l' (updated + 1) inserted
      | None => store_booked (aset str_eqb id d m) l' updated (inserted + 1)
      end
  end.
(** nordigen.go:351-416 [RefreshAccounts]: accounts in the order of the requisition; [fetch a] is the answer, [None] a
    failure of one of the three requests. *)
Fixpoint refresh_accounts (fetch : str -> option (list (str * str))) (accts : list str) (d : list (str * list (str * str)))
  : list (str * list (str * str)) * bool :=
  match accts with
  | [] => (d, true)
  | a :: accts' =>
      let m := match aget str_eqb a d with Some m => m | None => [] end in
      match fetch a with
      | None => (aset str_eqb a m d, false)
      | Some l => let '(m', _, _) := store_booked m l 0 0 in refresh_accounts fetch accts' (aset str_eqb a m' d)
      end
  end.

(** ** nordigen.go:83-132 [NordigenClient.Token]: which request is made and the token used. *)
Record token := mkTok { tk_access : str; tk_access_exp : Z; tk_refresh : str; tk_refresh_exp : Z }.
Inductive tok_req := NoRequest | NewToken | RefreshToken (refresh : str).
Record tok_answer := mkTA { ta_access : str; ta_access_exp : Z; ta_refresh : str; ta_refresh_exp : Z }.
Definition token_request (tok : option token) (now : Z) : tok_req :=
  match tok with
  | None => NewToken
  | Some t => if tk_access_exp t <? now then NewToken
              else if tk_refresh_exp t <? now then RefreshToken (tk_refresh t) else NoRequest
  end.
Definition get_token (answer_of : tok_req -> option tok_answer) (tok : option token) (now : Z) : outcome token :=
  match token_request tok now, tok with
  | NoRequest, Some t => Ok t
  | RefreshToken r, Some t =>
      match answer_of (RefreshToken r) with
      | None => Error
      | Some a => Ok (mkTok (tk_access t) (tk_access_exp t) (ta_refresh a) (now + second * ta_refresh_exp a))
      end
  | _, _ =>
      match answer_of NewToken with
      | None => Error
      | Some a => Ok (mkTok (ta_access a) (now + second * ta_access_exp a) (ta_refresh a) (now + second * ta_refresh_exp a))
      end
  end.
