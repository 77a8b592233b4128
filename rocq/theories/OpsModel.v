(** * OpsModel: reclassification, and the book operations as one datatype.

    /repo/book/book_reclassify.go, and the operations of BookModel.v put together. *)
From Verif Require Import Base Dec DateModel PriceModel BookModel.

(** book_reclassify.go:20-33 (and 64-76): the counter-account of a two-posting transaction *)
Definition counter_of (refacct : str) (t : trans) : option str :=
  match t with
  | [p; q] => if str_eqb (p_acct p) refacct then Some (p_acct q)
              else if str_eqb (p_acct q) refacct then Some (p_acct p) else None
  | _ => None
  end.
(** transaction.go:15-17 [GetPayee]; only used on two-posting transactions here *)
Definition payee_of (t : trans) : str := match t with p :: _ => p_payee p | [] => [] end.

(** book_reclassify.go:35-46: count counter-accounts per payee *)
Definition bump (c : str) (m : list (str * Z)) : list (str * Z) :=
  match aget str_eqb c m with None => aset str_eqb c 1 m | Some k => aset str_eqb c (k + 1) m end.
Fixpoint count_counters (refacct : str) (m : list (str * list (str * Z))) (ts : list trans) : list (str * list (str * Z)) :=
  match ts with
  | [] => m
  | t :: ts' =>
      let m' := match counter_of refacct t with
                | None => m
                | Some c => match aget str_eqb (payee_of t) m with
                            | Some d => aset str_eqb (payee_of t) (bump c d) m
                            | None => aset str_eqb (payee_of t) [(c, 1)] m
                            end
                end in
      count_counters refacct m' ts'
  end.

(** book_reclassify.go:52-59: "k = max" assigns to the loop variable, so [max] stays 0. *)
Fixpoint choose (l : list (str * Z)) (max : Z) (macct : str) : str :=
  match l with
  | [] => macct
  | (c, k) :: l' => if max <? k then choose l' max c else choose l' max macct
  end.

(** book_reclassify.go:78-86: best payee. The float64 similarity is a rational (no NaN or infinity). *)
Definition qc_ltb (a b : Qc) : bool := if Qclt_le_dec a b then true else false.
Fixpoint best (d : str -> Qc) (l : list (str * str)) (mx : Qc) (mc : str) : Qc * str :=
  match l with
  | [] => (mx, mc)
  | (p, c) :: l' => if qc_ltb mx (d p) then best d l' (d p) c else best d l' mx mc
  end.

(** trans[ctrans].acct = max_cacct (book_reclassify.go:88-90): only the account *)
Definition put_acct (p : posting) (a : str) : posting :=
  mkP (p_date p) (p_payee p) (p_tnote p) a (p_ccy p) (p_val p) (p_note p) (p_bal p) (p_level p) (p_term p) (p_sort p).

Section Reclassify.
  Variable srt : list posting -> list posting.
  (** map iteration orders: of the counter-accounts of a payee, and of the payee mapping for the i-th transaction *)
  Variable ord1 : str -> list (str * Z) -> list (str * Z).
  Variable ord2 : nat -> list (str * str) -> list (str * str).
  Variable dist : str -> str -> Qc.

  (** book_reclassify.go:49-61 *)
  Definition payee_mapping (refacct : str) (ts : list trans) : list (str * str) :=
    map (fun '(p, cs) => (p, choose (ord1 p cs) 0 [])) (count_counters refacct [] ts).

  (** book_reclassify.go:63-91, one transaction *)
  Definition reclass_trans (refacct : str) (pm : list (str * str)) (i : nat) (t : trans) : trans :=
    match t with
    | [p; q] =>
        if str_eqb (p_acct p) refacct then
          let '(mx, c) := best (dist (p_payee p)) (ord2 i pm) 0%Qc [] in
          if qc_ltb 0%Qc mx then [p; put_acct q c] else t
        else if str_eqb (p_acct q) refacct then
          let '(mx, c) := best (dist (p_payee p)) (ord2 i pm) 0%Qc [] in
          if qc_ltb 0%Qc mx then [put_acct p c; q] else t
        else t
    | _ => t
    end.
  Fixpoint reclass_loop (refacct : str) (pm : list (str * str)) (i : nat) (ts : list trans) : list trans :=
    match ts with [] => [] | t :: ts' => reclass_trans refacct pm i t :: reclass_loop refacct pm (S i) ts' end.

  (** book_reclassify.go:14-92 [ReclassifyByAccount]: both books are compacted by Transactions(); the accounts are
      written through the transaction slices into the posting array, and there is no compaction afterwards. The
      posting list is the concatenation of the transactions (true of every compacted, non-stale book). *)
  Definition reclassify (ref b : book) (refacct : str) : book * book :=
    let '(ref', rts) := transactions srt ref in
    let pm := payee_mapping refacct rts in
    let '(b', ts) := transactions srt b in
    let ts' := reclass_loop refacct pm 0 ts in
    (ref', mkBook (concat ts') ts' (bk_prices b') (bk_ccy b')).
End Reclassify.

(** ** One datatype for the operations that clients apply to a book.
    Regular expressions are given as match and replacement functions, the clock is constant during a call,
    the other books ([ORemoveDup], [OReclassify]) are arguments. *)
Inductive op :=
| OMapAccount (f : str -> str)
| ORegexAccounts (m : str -> bool) (r : str -> str) (has_repl : bool) (alt : str)
| OMapAmount (f : Z -> str -> Qc * str)
| OMapTransaction (f : Z -> str -> Z * str)
| OSplitBy (today : Z) (by_ : str)
| OFilter (f : Z -> str -> trans -> bool)
| OSince (d : Z)
| OAsof (d : Z)
| OByAccount (a : str)
| OAdjustBy (by_ : str)
| ODepreciate (today : Z) (m : str -> bool) (r : str -> str) (period : str) (periods : Z)
| OAdjustPost (m : str -> bool) (r : str -> str) (factor : Qc)
| ORemoveDup (main : book)
| OReclassify (ord1 : str -> list (str * Z) -> list (str * Z)) (ord2 : nat -> list (str * str) -> list (str * str))
    (dist : str -> str -> Qc) (ref : book) (refacct : str)
| OTransactions.

Definition run_op (srt : list posting -> list posting) (o : op) (b : book) : outcome book :=
  match o with
  | OMapAccount f => Ok (map_account srt f b)
  | ORegexAccounts m r h alt => Ok (regex_accounts srt m r h alt b)
  | OMapAmount f => Ok (map_amount f b)
  | OMapTransaction f => Ok (map_transaction srt (fun _ => f) b)
  | OSplitBy today by_ => Ok (split_by srt (fun _ => today) by_ b)
  | OFilter f => filter_transaction f b
  | OSince d => filter_since d b
  | OAsof d => filter_asof d b
  | OByAccount a => filter_account a b
  | OAdjustBy by_ => adjust_by srt by_ b
  | ODepreciate today m r period periods => Ok (depreciate srt today m r period periods b)
  | OAdjustPost m r factor => Ok (adjust_post srt m r factor b)
  | ORemoveDup main => do x <- remove_duplicates_of srt main b; Ok (snd x)
  | OReclassify ord1 ord2 dist ref refacct => Ok (snd (reclassify srt ord1 ord2 dist ref b refacct))
  | OTransactions => Ok (fst (transactions srt b))
  end.
Fixpoint run_ops (srt : list posting -> list posting) (os : list op) (b : book) : outcome book :=
  match os with [] => Ok b | o :: os' => do b' <- run_op srt o b; run_ops srt os' b' end.

(** The books a client can have: built, then manipulated, where the other book an operation uses was made the
    same way. *)
Definition other_book (o : op) : option book :=
  match o with ORemoveDup main => Some main | OReclassify _ _ _ ref _ => Some ref | _ => None end.
Inductive reachable (srt : list posting -> list posting) : book -> Prop :=
| reach_build cs b : build_calls srt cs = Ok b -> reachable srt b
| reach_op o b b' : reachable srt b -> (forall ob, other_book o = Some ob -> reachable srt ob) ->
    run_op srt o b = Ok b' -> reachable srt b'.
