(** * ViewModel: what a generate script sees of the book: data.transactions, its iteration and the attributes of transactions and
    postings (script/book.go), and data.since, data.asof and data.map (script/book_op.go). A for loop of Starlark calls Iterate() and
    then Next() until it returns false. Not modelled: the Starlark interpreter; the number of arguments (starlark.UnpackArgs). *)
From Verif Require Import Base Dec DateModel PriceModel BookModel OpsModel BookOpModel ConvertModel F64Model.

(** book.go:12-37 [Attr] of a posting; [None] is "no such attribute" *)
Definition post_attr (p : posting) (name : str) : option sval :=
  if str_eqb name (bs "date") then Some (SStr (date_string (p_date p)))
  else if str_eqb name (bs "payee") then Some (SStr (p_payee p))
  else if str_eqb name (bs "account") then Some (SStr (p_acct p))
  else if str_eqb name (bs "transaction_note") then Some (SStr (p_tnote p))
  else if str_eqb name (bs "amount") then Some (SFloat (to_f64 (p_val p)))
  else if str_eqb name (bs "ccy") then Some (SStr (p_ccy p))
  else if str_eqb name (bs "posting_note") then Some (SStr (p_note p))
  else if str_eqb name (bs "balance") then Some (SFloat (to_f64 (p_bal p)))
  else None.
(** book.go:82-94 [Attr] of a transaction; transaction.go:11-21 read the first posting *)
Definition trans_attr (t : trans) (name : str) : outcome (option sval) :=
  if str_eqb name (bs "date") then match t with p :: _ => Ok (Some (SStr (date_string (p_date p)))) | [] => Panic end
  else if str_eqb name (bs "payee") then match t with p :: _ => Ok (Some (SStr (p_payee p))) | [] => Panic end
  else if str_eqb name (bs "transaction_note") then match t with p :: _ => Ok (Some (SStr (p_tnote p))) | [] => Panic end
  else Ok None.

(** book.go:56-68 [starlarkIterator]: the position [i]; Index (lines 74-76, 118-120) is an index into the slice *)
Definition next {A} (l : list A) (i : nat) : outcome (option (A * nat)) :=
  if (i =? length l)%nat then Ok None
  else match nth_error l i with Some x => Ok (Some (x, S i)) | None => Panic end.
(** for x in l: the results of the body, in order. [fuel] bounds the number of rounds. *)
Fixpoint for_loop {A B} (fuel : nat) (l : list A) (i : nat) (body : A -> outcome B) : outcome (list B) :=
  match fuel with
  | O => Diverge
  | S fuel' =>
      do n <- next l i;
      match n with
      | None => Ok []
      | Some (x, j) => do y <- body x; do r <- for_loop fuel' l j body; Ok (y :: r)
      end
  end.

Section Data.
  Variable srt : list posting -> list posting.
  Variable compile : str -> option regexp.
  Variable today : Z.

  (** book_op.go:9-72: the methods of data *)
  Inductive data_call := DSince (date : str) | DAsof (date : str) | DMap (from to alt : str).
  (** the book, and whether the call fails *)
  Definition data_step (b : book) (c : data_call) : outcome (book * bool) :=
    match c with
    | DSince s => let d := date_from_string today s in
                  if d =? 0 then Ok (b, true) else do b <- run_op srt (OSince d) b; Ok (b, false)
    | DAsof s => let d := date_from_string today s in
                 if d =? 0 then Ok (b, true) else do b <- run_op srt (OAsof d) b; Ok (b, false)
    | DMap from to alt =>
        (* regexp.MustCompile (book_utils.go:17) *)
        do b <- must_compile compile from (fun re => run_op srt (ORegexAccounts (rx_match re) (fun a => rx_repl re a to) (negb (str_eqb to [])) alt) b);
        Ok (b, false)
    end.
  (** a failing call ends the script *)
  Fixpoint data_steps (b : book) (cs : list data_call) : outcome (book * bool) :=
    match cs with
    | [] => Ok (b, false)
    | c :: cs' => do (b, failed) <- data_step b c; if (failed : bool) then Ok (b, true) else data_steps b cs'
    end.

  (** book_op.go:79-84 data.transactions, and for t in data.transactions: for p in t: [body] *)
  Definition walk {B} (fuel : nat) (b : book) (body : trans -> posting -> outcome B) : outcome (book * list (list B)) :=
    let '(b, ts) := transactions srt b in
    do r <- for_loop fuel ts 0 (fun t => for_loop fuel t 0 (body t)); Ok (b, r).
End Data.
