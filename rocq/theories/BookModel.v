(** * BookModel: postings, the builder and the book operations at the value level.

    /repo/book/{posting,builder,book_compact,book,book_utils}.go.

    Value level: a [*big.Rat] is its value, a slice is its list of elements. HeapModel.v treats pointers
    and shared backing arrays. [b.trans] are slices of [b.post]'s backing array; an operation that writes
    to posting [i] in place therefore changes [post] and [trans] alike (map_amount below). *)
From Verif Require Import Base Dec DateModel PriceModel.

(** posting.go:9-23 [Posting] *)
Record posting := mkP {
  p_date : Z; p_payee : str; p_tnote : str; p_acct : str; p_ccy : str;
  p_val : Qc; p_note : str; p_bal : Qc;
  p_level : Z; p_term : str; p_sort : str }.

(** Record updates (Go field assignment). *)
Definition set_date (p : posting) d pay := mkP d pay (p_tnote p) (p_acct p) (p_ccy p) (p_val p) (p_note p) (p_bal p) (p_level p) (p_term p) (p_sort p).
Definition set_val (p : posting) v := mkP (p_date p) (p_payee p) (p_tnote p) (p_acct p) (p_ccy p) v (p_note p) (p_bal p) (p_level p) (p_term p) (p_sort p).
Definition set_ccyval (p : posting) c v := mkP (p_date p) (p_payee p) (p_tnote p) (p_acct p) c v (p_note p) (p_bal p) (p_level p) (p_term p) (p_sort p).
Definition set_bal (p : posting) v := mkP (p_date p) (p_payee p) (p_tnote p) (p_acct p) (p_ccy p) (p_val p) (p_note p) v (p_level p) (p_term p) (p_sort p).
Definition set_acct (p : posting) a := mkP (p_date p) (p_payee p) (p_tnote p) a (p_ccy p) (p_val p) (p_note p) (p_bal p) 0 a (p_sort p).

(** posting.go:36-59 [byAcctDateFactor] and [dup] *)
Definition by_acct_date_factor (p : posting) (acct : str) (date : Z) (factor : Qc) : posting :=
  mkP date (p_payee p) (p_tnote p) acct (p_ccy p) (p_val p * factor)%Qc (p_note p) 0%Qc 0 acct (p_sort p).
Definition by_acct_factor (p : posting) (acct : str) (factor : Qc) : posting :=
  by_acct_date_factor p acct (p_date p) factor.
Definition by_factor (p : posting) (factor : Qc) : posting :=
  by_acct_date_factor p (p_acct p) (p_date p) factor.

(** posting.go:61-104 [isLess] *)
Definition is_less (p r : posting) : bool :=
  if p_date p <? p_date r then true else if p_date r <? p_date p then false else
  if str_ltb (p_payee p) (p_payee r) then true else if str_ltb (p_payee r) (p_payee p) then false else
  if str_ltb (p_sort p) (p_sort r) then true else if str_ltb (p_sort r) (p_sort p) then false else
  if str_ltb (p_acct p) (p_acct r) then true else if str_ltb (p_acct r) (p_acct p) then false else
  if p_level p <? p_level r then true else if p_level r <? p_level p then false else
  str_ltb (p_ccy p) (p_ccy r).

(** book.go:12-17 [Book] *)
Definition trans := list posting.
Record book := mkBook {
  bk_post : list posting; bk_trans : list trans; bk_prices : pbook; bk_ccy : list (str * Z) }.

(** book_compact.go:27-30 the key under which postings are merged *)
Definition same_key (a b : posting) : bool :=
  (p_date a =? p_date b) && str_eqb (p_payee a) (p_payee b) && str_eqb (p_acct a) (p_acct b)
  && str_eqb (p_ccy a) (p_ccy b).

(** book_compact.go:20-48: merge runs of equal keys; [cur] is p[targetIdx]. *)
Fixpoint merge_runs (cur : posting) (l : list posting) : list posting :=
  match l with
  | [] => [cur]
  | x :: l' => if same_key x cur then merge_runs (set_val cur (p_val cur + p_val x)%Qc) l'
               else cur :: merge_runs x l'
  end.
Definition merge_all (l : list posting) : list posting :=
  match l with [] => [] | x :: l' => merge_runs x l' end.

(** book_compact.go:50-68: drop zero amounts *)
Definition drop_zero (l : list posting) : list posting := filter (fun p => negb (qc_is0 (p_val p))) l.

(** book_compact.go:78-91: group into transactions; a posting belongs to the open group when it has the date
    and payee of the group's first posting. *)
Fixpoint group_runs (first : posting) (acc : list posting) (l : list posting) : list trans :=
  match l with
  | [] => [rev acc]
  | x :: l' => if negb (p_date x =? p_date first) || negb (str_eqb (p_payee x) (p_payee first))
               then rev acc :: group_runs x [x] l'
               else group_runs first (x :: acc) l'
  end.
Definition group_all (l : list posting) : list trans :=
  match l with [] => [] | x :: l' => group_runs x [x] l' end.

(** book_compact.go:93-107: running balance per (account, currency) *)
Fixpoint run_bal (amts : list ((str * str) * Qc)) (l : list posting) : list posting :=
  match l with
  | [] => []
  | p :: l' =>
      let key := (p_acct p, p_ccy p) in
      let v := match aget pair_eqb key amts with None => p_val p | Some v => (v + p_val p)%Qc end in
      set_bal p v :: run_bal (aset pair_eqb key v amts) l'
  end.

(** book_compact.go:8-108 [compact]. [srt] is sort.Slice with isLess. The balances are written after the
    transactions were sliced; the slices see them. An empty [post] returns early, leaving [trans]. *)
Definition compact (srt : list posting -> list posting) (b : book) : book :=
  match bk_post b with
  | [] => b
  | _ => let p := drop_zero (merge_all (srt (bk_post b))) in
         let p := run_bal [] p in
         mkBook p (group_all p) (bk_prices b) (bk_ccy b)
  end.

(** book.go:19-22 [Transactions] *)
Definition transactions (srt : list posting -> list posting) (b : book) : book * list trans :=
  let b' := compact srt b in (b', bk_trans b').

(** ** Builder (builder.go) *)
Record builder := mkB {
  bu_post : list posting; bu_prev : list str; bu_amts : list (str * Qc);
  bu_date : Z; bu_payee : str; bu_note : str; bu_prices : pbook }.

(** builder.go:57-67 [NewBookBuilder] *)
Definition new_builder : builder := mkB [] [] [] (-1) [] [] [].

(** builder.go:69-78 [checkAndClearTransaction] *)
Definition check_and_clear (b : builder) : outcome builder :=
  if forallb (fun '(_, v) => qc_is0 v) (bu_amts b)
  then Ok (mkB (bu_post b) (bu_prev b) (map (fun '(c, _) => (c, 0%Qc)) (bu_amts b))
               (bu_date b) (bu_payee b) (bu_note b) (bu_prices b))
  else Panic.

(** builder.go:92,101: the key "%d %s" *)
Definition tkey (date : Z) (payee : str) : str := fmt_d date ++ [32] ++ payee.

(** builder.go:91-104: the renaming loop *)
Definition mem_str (k : str) (l : list str) : bool := existsb (str_eqb k) l.
Fixpoint rename_loop (fuel : nat) (prev : list str) (date : Z) (payee cur : str) (idx : Z) : outcome str :=
  match fuel with
  | O => Diverge
  | S f => if mem_str (tkey date cur) prev
           then rename_loop f prev date payee (payee ++ bs " (" ++ fmt_d (idx + 1) ++ bs ")") (idx + 1)
           else Ok cur
  end.

(** builder.go:80-105 [NewTransaction] *)
Definition new_transaction (b : builder) (date : Z) (payee note : str) : outcome builder :=
  do b <- check_and_clear b;
  do cur <- rename_loop (S (length (bu_prev b))) (bu_prev b) date payee payee 1;
  Ok (mkB (bu_post b) (tkey date cur :: bu_prev b) (bu_amts b) date cur note (bu_prices b)).

(** builder.go:107-127 [AddPosting] *)
Definition add_posting (b : builder) (acct ccy : str) (amt : Qc) (note : str) : builder :=
  let p := mkP (bu_date b) (bu_payee b) (bu_note b) acct ccy amt note 0%Qc 0 [] [] in
  let v := match aget str_eqb ccy (bu_amts b) with Some v => (v + amt)%Qc | None => amt end in
  mkB (bu_post b ++ [p]) (bu_prev b) (aset str_eqb ccy v (bu_amts b))
      (bu_date b) (bu_payee b) (bu_note b) (bu_prices b).

(** builder.go:133-135 [AddPrice] *)
Definition b_add_price (b : builder) (date : Z) (unit ccy : str) (v : Qc) : builder :=
  mkB (bu_post b) (bu_prev b) (bu_amts b) (bu_date b) (bu_payee b) (bu_note b)
      (add_price (bu_prices b) date unit ccy v).

(** builder.go:21-28: largest reduced denominator by currency *)
Definition denom (q : Qc) : Z := Zpos (Qden (this q)).
Fixpoint max_denoms (m : list (str * Z)) (l : list posting) : list (str * Z) :=
  match l with
  | [] => m
  | p :: l' =>
      let m' := match aget str_eqb (p_ccy p) m with
                | Some e => if e <? denom (p_val p) then aset str_eqb (p_ccy p) (denom (p_val p)) m else m
                | None => aset str_eqb (p_ccy p) (denom (p_val p)) m
                end in max_denoms m' l'
  end.
(** builder.go:30-42: number of decimals; the fuel log2(v)+1 is never exhausted (count_dec_fuel in Decimals). *)
Fixpoint count_dec (fuel : nat) (p v c : Z) : Z :=
  match fuel with
  | O => c
  | S f => if p <? v then count_dec f (p * 10) v (c + 1) else c
  end.
Definition decimals_of (v : Z) : Z := count_dec (S (Z.to_nat (Z.log2 v))) 1 v 0.

(** builder.go:18-55 [Build] *)
Definition build (srt : list posting -> list posting) (b : builder) : outcome book :=
  do b <- check_and_clear b;
  let rmap := map (fun '(c, v) => (c, decimals_of v)) (max_denoms [] (bu_post b)) in
  Ok (compact srt (mkBook (bu_post b) (repeat [] (length (bu_post b))) (build_prices (bu_prices b)) rmap)).

(** The calls a client makes on a builder. *)
Inductive bcall :=
| CTrans (date : Z) (payee note : str)
| CPost (acct ccy : str) (amt : Qc) (note : str)
| CPrice (date : Z) (unit ccy : str) (v : Qc).
Definition bstep (b : builder) (c : bcall) : outcome builder :=
  match c with
  | CTrans d p n => new_transaction b d p n
  | CPost a c v n => Ok (add_posting b a c v n)
  | CPrice d u c v => Ok (b_add_price b d u c v)
  end.
Fixpoint bsteps (b : builder) (cs : list bcall) : outcome builder :=
  match cs with [] => Ok b | c :: cs' => do b' <- bstep b c; bsteps b' cs' end.
Definition build_calls (srt : list posting -> list posting) (cs : list bcall) : outcome book :=
  do b <- bsteps new_builder cs; build srt b.

(** ** Book operations (book.go, book_utils.go) *)
Section Ops.
  Variable srt : list posting -> list posting.
  Definition with_post (b : book) (p : list posting) : book := mkBook p (bk_trans b) (bk_prices b) (bk_ccy b).

  (** book.go:272-286 [MapAccount]: the mapper is called once per distinct account, results are cached. *)
  Fixpoint map_acct_loop (f : str -> str) (amap : list (str * str)) (l : list posting) : list posting :=
    match l with
    | [] => []
    | p :: l' => let '(n, amap') := match aget str_eqb (p_acct p) amap with
                                    | Some n => (n, amap)
                                    | None => let n := f (p_acct p) in (n, aset str_eqb (p_acct p) n amap)
                                    end in
                 set_acct p n :: map_acct_loop f amap' l'
    end.
  Definition map_account (f : str -> str) (b : book) : book :=
    compact srt (with_post b (map_acct_loop f [] (bk_post b))).

  (** book_utils.go:16-27 [RegexAccounts]; [m] is re.MatchString, [r] is re.ReplaceAllString(_, replace).
      [has_repl]/[alt] are the tests replace != "" and the value of alt. *)
  Definition regex_account (m : str -> bool) (r : str -> str) (has_repl : bool) (alt : str) (acct : str) : str :=
    if negb (str_eqb alt []) && negb (m acct) then alt
    else if has_repl then r acct else acct.
  Definition regex_accounts m r has_repl alt (b : book) : book :=
    map_account (regex_account m r has_repl alt) b.

  (** book.go:263-270 [MapAmount]: in place (so the transactions change too), no compaction. *)
  Definition amount_of (f : Z -> str -> Qc * str) (p : posting) : posting :=
    let '(v, c) := f (p_date p) (p_ccy p) in set_ccyval p c (p_val p * v)%Qc.
  Definition map_amount (f : Z -> str -> Qc * str) (b : book) : book :=
    mkBook (map (amount_of f) (bk_post b)) (map (map (amount_of f)) (bk_trans b)) (bk_prices b) (bk_ccy b).

  (** book.go:255-261 [MapTransaction]; [f i] is the mapper at its i-th call (it may read the clock). *)
  Fixpoint map_trans_loop (f : nat -> Z -> str -> Z * str) (i : nat) (l : list posting) : list posting :=
    match l with
    | [] => []
    | p :: l' => let '(d, pay) := f i (p_date p) (p_payee p) in
                 set_date p d pay :: map_trans_loop f (S i) l'
    end.
  Definition map_transaction (f : nat -> Z -> str -> Z * str) (b : book) : book :=
    compact srt (with_post b (map_trans_loop f 0 (bk_post b))).

  (** book.go:58-62 [SplitBy]; [clock i] is GetToday() at the i-th call. *)
  Definition split_by (clock : nat -> Z) (by_ : str) (b : book) : book :=
    map_transaction (fun i d _ => (floor (clock i) d by_, [])) b.

  (** book.go:237-253 [FilterTransaction]; p[0] of an empty transaction would panic ([filter_transaction]
      returns None then). *)
  Definition filter_transaction (f : Z -> str -> trans -> bool) (b : book) : outcome book :=
    if existsb (fun t => match t with [] => true | _ => false end) (bk_trans b) then Panic
    else let keep := filter (fun t => match t with [] => false | p :: _ => f (p_date p) (p_payee p) t end) (bk_trans b) in
         Ok (mkBook (concat keep) keep (bk_prices b) (bk_ccy b)).

  (** book_utils.go:59-66 [FilterByDateSince], 68-75 [FilterByDateAsof] *)
  Definition filter_since (minDate : Z) (b : book) : outcome book :=
    if minDate =? 0 then Ok b else filter_transaction (fun d _ _ => minDate <=? d) b.
  Definition filter_asof (maxDate : Z) (b : book) : outcome book :=
    if maxDate =? 0 then Ok b else filter_transaction (fun d _ _ => d <? maxDate) b.
  (** book_utils.go:77-87 [FilterByAccount] *)
  Definition filter_account (acct : str) (b : book) : outcome book :=
    filter_transaction (fun _ _ t => existsb (fun p => str_eqb (p_acct p) acct) t) b.

  (** book.go:219-235 [FilterTransactionReverse]: only [post] is replaced. *)
  Definition filter_reverse (f : Z -> str -> trans -> bool) (b : book) : outcome book :=
    if existsb (fun t => match t with [] => true | _ => false end) (bk_trans b) then Panic
    else let keep := filter (fun t => match t with [] => false | p :: _ => f (p_date p) (p_payee p) t end) (rev (bk_trans b)) in
         Ok (with_post b (concat keep)).

  (** book.go:74-117 [AdjustBy] *)
  Definition min_max_date (l : list posting) : Z * Z :=
    match l with
    | [] => (0, 0)
    | p :: l' => fold_left (fun '(mn, mx) q =>
                   (if p_date q <? mn then p_date q else mn, if mx <? p_date q then p_date q else mx))
                 l' (p_date p, p_date p)
    end.
  Definition adjust_factor (by_ : str) (daysDiff : Z) : outcome Qc :=
    if str_eqb by_ (bs "monthly") then new_rat 365 (daysDiff * 12)
    else if str_eqb by_ (bs "daily") then new_rat 1 daysDiff
    else if str_eqb by_ (bs "quarterly") then new_rat 365 (daysDiff * 4)
    else if str_eqb by_ (bs "yearly") then new_rat 365 daysDiff
    else Panic.
  Definition adjust_by (by_ : str) (b : book) : outcome book :=
    if str_eqb by_ (bs "none") then Ok b
    else let '(mn, mx) := min_max_date (bk_post b) in
         do daysDiff <- days_since mx mn;
         do factor <- adjust_factor by_ daysDiff;
         Ok (compact srt (with_post b (map (fun p => by_factor p factor) (bk_post b)))).

  (** book.go:136-169 [Depreciate]. [m]/[r]: regexp match and replacement by replace_acct. big.NewRat(1, periods)
      is only reached with periods >= 1. *)
  Fixpoint depr_loop (today : Z) (p : posting) (nacct period : str) (periods : Z) (n : nat) (d : Z) : list posting :=
    match n with
    | O => []
    | S n' => by_acct_date_factor p nacct d (- (1 / qz periods))%Qc
              :: by_acct_date_factor p (p_acct p) d (1 / qz periods)%Qc
              :: depr_loop today p nacct period periods n' (floor_diff today d period 1)
    end.
  Definition depr_posts (today : Z) (m : str -> bool) (r : str -> str) (period : str) (periods : Z) (p : posting) : list posting :=
    if m (p_acct p)
    then let nacct := r (p_acct p) in
         by_factor p (- (1))%Qc :: by_acct_factor p nacct 1%Qc
         :: depr_loop today p nacct period periods (Z.to_nat periods) (p_date p)
    else [].
  Definition depreciate today m r period periods (b : book) : book :=
    compact srt (with_post b (bk_post b ++ flat_map (depr_posts today m r period periods) (bk_post b))).

  (** book.go:179-195 [AdjustPost]; the float64 factor is the exact rational [factor] (SetFloat64 is exact). *)
  Definition adj_posts (m : str -> bool) (r : str -> str) (factor : Qc) (p : posting) : list posting :=
    if m (p_acct p) then [by_factor p (- factor)%Qc; by_acct_factor p (r (p_acct p)) factor] else [].
  Definition adjust_post m r factor (b : book) : book :=
    compact srt (with_post b (bk_post b ++ flat_map (adj_posts m r factor) (bk_post b))).

  (** book.go:199-217 [Accounts]: last balance per account; map iteration then sort.Strings. *)
  Fixpoint last_bals (m : str -> bool) (acc : list (str * Qc)) (l : list posting) : list (str * Qc) :=
    match l with
    | [] => acc
    | p :: l' => last_bals m (if m (p_acct p) then aset str_eqb (p_acct p) (p_bal p) acc else acc) l'
    end.
  Definition accounts (m : str -> bool) (only_bal : bool) (b : book) : list str :=
    isort str_ltb (map fst (filter (fun '(_, v) => negb only_bal || negb (qc_is0 v)) (last_bals m [] (bk_post b)))).

  (** book_dedup.go:12-23: move forward in the reference transactions. The reference is a list of
      (date, payee) of the first postings; [ref] is the rest from refidx on. *)
  Fixpoint dedup_advance (ref : list trans) (date : Z) (payee : str) : list trans :=
    match ref with
    | [] => []
    | t :: ref' =>
        match t with
        | [] => ref
        | p :: _ => if p_date p <? date then dedup_advance ref' date payee
                    else if (p_date p =? date) && str_ltb (p_payee p) payee then dedup_advance ref' date payee
                    else ref
        end
    end.
  (** book_dedup.go:7-38 [RemoveDuplicatesOf]: a stateful filter; [ref] is the state. *)
  Fixpoint dedup_loop (ref : list trans) (l : list trans) : outcome (list trans) :=
    match l with
    | [] => Ok []
    | t :: l' =>
        match t with
        | [] => Panic
        | p :: _ =>
            let ref := dedup_advance ref (p_date p) (p_payee p) in
            match ref with
            | [] => do r <- dedup_loop ref l'; Ok (t :: r)
            | rt :: _ =>
                match rt with
                | [] => Panic
                | q :: _ => if str_eqb (p_payee q) (p_payee p) && (p_date q =? p_date p)
                            then dedup_loop ref l'
                            else do r <- dedup_loop ref l'; Ok (t :: r)
                end
            end
        end
    end.
  Definition remove_duplicates_of (main b : book) : outcome (book * book) :=
    let '(main', reftrans) := transactions srt main in
    do keep <- dedup_loop reftrans (bk_trans b);
    Ok (main', mkBook (concat keep) keep (bk_prices b) (bk_ccy b)).
End Ops.
