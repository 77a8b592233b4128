(** * AccumModel: /repo/book/book_accum.go at the value level (HeapModel.v treats the sharing of the posting array).

    Not modelled: the warning printed to stderr (lines 206-209). A Go map used as a set ([accum]) is the list of its
    distinct keys; the order in which `for k, _ := range accum` visits them is a parameter [it] that may differ for
    every transaction. [micro v] is int64(float64(v)*1e6) (lines 34-35), left as a parameter. *)
From Verif Require Import Base Dec DateModel PriceModel BookModel RegisterModel.

(** strings.HasPrefix *)
Fixpoint has_prefix (s p : str) {struct p} : bool :=
  match p, s with
  | [], _ => true
  | c :: p', d :: s' => (c =? d) && has_prefix s' p'
  | _ :: _, [] => false
  end.
Definition nonempty (s : str) : bool := match s with [] => false | _ => true end.

(** book_accum.go:13-22: the scan; [l], [r] are left[i:], right[i:]. Returns i, prefix, left[i:], right[i:]. *)
Fixpoint fcp_scan (divider : str) (l r : str) (i prefix : nat) : nat * nat * str * str :=
  match l, r with
  | x :: l', y :: r' => if x =? y then fcp_scan divider l' r' (S i) (if has_prefix l divider then i else prefix)
                        else (i, prefix, l, r)
  | _, _ => (i, prefix, l, r)
  end.
(** book_accum.go:12-31 [findMaxCommonPrefix] *)
Definition find_max_common_prefix (left right divider : str) : str :=
  let '(i, prefix, l, r) := fcp_scan divider left right 0 0 in
  let prefix := if (nonempty l && has_prefix l divider) || (nonempty r && has_prefix r divider)
                   || (negb (nonempty l) && negb (nonempty r)) then i else prefix in
  firstn prefix left.

(** fmt "%x" of a natural number *)
Definition hex_digit (d : Z) : Z := if d <? 10 then 48 + d else 87 + d.
Fixpoint hex_aux (fuel : nat) (n : Z) (acc : str) : str :=
  match fuel with
  | O => acc
  | S f => let acc' := hex_digit (n mod 16) :: acc in if n / 16 =? 0 then acc' else hex_aux f (n / 16) acc'
  end.
Definition hex (n : Z) : str := hex_aux (S (Z.to_nat (Z.log2 n))) n [].
(** fmt "%0wx" *)
Definition fmt_0x (w : nat) (z : Z) : str := if z <? 0 then 45 :: zpad (w - 1) (hex (- z)) else zpad w (hex z).
(** int64 arithmetic *)
Definition wrap64 (z : Z) : Z := (z + 2 ^ 63) mod 2 ^ 64 - 2 ^ 63.

(** book_accum.go:33-38 [getSortOrder] *)
Definition get_sort_order (micro : Qc -> Z) (a : Qc) : str := fmt_0x 15 (wrap64 (1000000000 * 1000000 - micro a)).

(** book_accum.go:42-49: [done] is acct[:i], [rest] is acct[i:], i >= 1. *)
Fixpoint sort_parts (micro : Qc -> Z) (val : list (str * Qc)) (divider done rest : str) : list str :=
  let here := if nonempty rest && negb (has_prefix rest divider) then []
              else match aget str_eqb done val with Some v => [get_sort_order micro v] | None => [] end in
  match rest with
  | [] => here
  | c :: rest' => here ++ sort_parts micro val divider (done ++ [c]) rest'
  end.
(** book_accum.go:40-51 [getSortOrderString] *)
Definition get_sort_order_string (micro : Qc -> Z) (val : list (str * Qc)) (acct divider : str) : str :=
  match acct with
  | [] => []
  | c :: rest => join divider (sort_parts micro val divider [c] rest)
  end.

(** book_accum.go:54-76: [n] is len(o), [rest] is acct[i:]. A slice acct[last:i] with last > i panics. *)
Fixpoint split_scan (prefixes : list str) (self : bool) (divider acct : str) (n last i : nat) (rest : str) : outcome (nat * nat) :=
  match rest with
  | [] => if self && mem_str acct prefixes
          then if Nat.leb last (length acct) then Ok (S n, i) else Panic
          else Ok (n, last)
  | _ :: rest' =>
      if has_prefix rest divider && mem_str (firstn i acct) prefixes
      then if Nat.leb last i then split_scan prefixes self divider acct (S n) (i + length divider) (S i) rest' else Panic
      else split_scan prefixes self divider acct n last (S i) rest'
  end.
(** book_accum.go:53-79 [splitByStrings] *)
Definition split_by_strings (prefixes : list str) (acct : str) (self : bool) (divider : str) : outcome (Z * str) :=
  do (n, last) <- split_scan prefixes self divider acct 0 0 0 acct;
  if Nat.leb last (length acct) then Ok (Z.of_nat n, skipn last acct) else Panic.

(** book_accum.go:83-97: distinct (account, currency) pairs in order of appearance *)
Definition mem_pair (k : str * str) (l : list (str * str)) : bool := existsb (pair_eqb k) l.
Definition ac (p : posting) : str * str := (p_acct p, p_ccy p).
Fixpoint distinct_pairs (seen : list (str * str)) (l : list posting) : list (str * str) :=
  match l with
  | [] => []
  | p :: l' => if mem_pair (ac p) seen then distinct_pairs seen l' else ac p :: distinct_pairs (ac p :: seen) l'
  end.
(** book_accum.go:99-110: the order; distinct pairs, so every sort gives the same list *)
Definition pair_less (a b : str * str) : bool :=
  if str_ltb (fst a) (fst b) then true else if str_ltb (fst b) (fst a) then false else str_ltb (snd a) (snd b).
Definition acct_list (posts : list posting) : list (str * str) := isort pair_less (distinct_pairs [] posts).

Definition same_dp (p q : posting) : bool := (p_date p =? p_date q) && str_eqb (p_payee p) (p_payee q).
(** book_accum.go:132-141 the added posting; [cur] is posts[transIdx] *)
Definition zero_post (cur : posting) (k : str * str) : posting :=
  mkP (p_date cur) (p_payee cur) (p_tnote cur) (fst k) (snd k) 0%Qc [] 0%Qc 0 [] [].
(** book_accum.go:116-149, one transaction: [scan] is acctList[scanIdx:], [ps] is posts[postIdx:postEnd]. Returns the
    added postings and the rest of [ps]. With [scan] used up, a posting of the same transaction makes line 124
    index acctList out of range. *)
Fixpoint fill_trans (cur : posting) (scan : list (str * str)) (ps : list posting) : outcome (list posting * list posting) :=
  match scan with
  | [] => match ps with
          | p :: _ => if same_dp p cur then Panic else Ok ([], ps)
          | [] => Ok ([], [])
          end
  | k :: scan' =>
      match ps with
      | p :: ps' => if same_dp p cur && pair_eqb k (ac p) then fill_trans cur scan' ps'
                    else do (add, rest) <- fill_trans cur scan' ps; Ok (zero_post cur k :: add, rest)
      | [] => do (add, rest) <- fill_trans cur scan' []; Ok (zero_post cur k :: add, rest)
      end
  end.
(** book_accum.go:112-156: the next transaction starts at the posting the previous one stopped at *)
Fixpoint fill_all (fuel : nat) (acl : list (str * str)) (cur : posting) (ps : list posting) : outcome (list posting) :=
  match fuel with
  | O => Diverge
  | S f => do (add, rest) <- fill_trans cur acl ps;
           match rest with
           | [] => Ok add
           | p :: _ => do more <- fill_all f acl p rest; Ok (add ++ more)
           end
  end.

Section Accum.
  Variable srt : list posting -> list posting.
  Variable it : list posting -> list str -> list str.
  Variable micro : Qc -> Z.

  (** book_accum.go:81-164 [addEmptyAccounts]; [posts] is not empty *)
  Definition add_empty_accounts (posts : list posting) : outcome (list posting) :=
    match posts with
    | [] => Panic
    | p :: _ => do add <- fill_all (S (length posts)) (acct_list posts) p posts; Ok (srt (posts ++ add))
    end.

  (** book_accum.go:195-212: accounts that get a subtotal; [prev] is posts[i-1] *)
  Definition add_key (k : str) (l : list str) : list str := if mem_str k l then l else l ++ [k].
  Fixpoint find_accum (toCCY divider : str) (prev : option posting) (accum : list str) (posts : list posting) : list str :=
    match posts with
    | [] => accum
    | p :: posts' =>
        let accum := if str_eqb (p_ccy p) toCCY then accum else add_key (p_acct p) accum in
        let accum := match prev with
                     | None => accum
                     | Some q => let key := find_max_common_prefix (p_acct q) (p_acct p) divider in
                                 if nonempty key then add_key key accum else accum
                     end in
        find_accum toCCY divider (Some p) accum posts'
    end.

  (** book_accum.go:282-300: converted amounts of the postings of one transaction *)
  Fixpoint convert (pb : pbook) (toCCY : str) (posts : list posting) : outcome (list (str * Qc)) :=
    match posts with
    | [] => Ok []
    | p :: posts' =>
        do v <- (if str_eqb (p_ccy p) toCCY then Ok (p_val p)
                 else do (r, _) <- get_price pb (p_date p) (p_ccy p) toCCY; Ok (p_val p * r)%Qc);
        do rest <- convert pb toCCY posts'; Ok ((p_acct p, v) :: rest)
    end.
  (** book_accum.go:229-236 *)
  Definition subtotal (divider k : str) (cposts : list (str * Qc)) : Qc :=
    qsum (map snd (filter (fun c => str_eqb (fst c) k || has_prefix (fst c) (k ++ divider)) cposts)).
  (** book_accum.go:220-240 *)
  Definition acct_val (divider : str) (accum : list str) (cposts : list (str * Qc)) : list (str * Qc) :=
    fold_left (fun m k => aset str_eqb k (subtotal divider k cposts) m) accum
      (fold_left (fun m c => aset str_eqb (fst c) (snd c) m) cposts []).
  Fixpoint map_o {A B} (f : A -> outcome B) (l : list A) : outcome (list B) :=
    match l with [] => Ok [] | x :: l' => do y <- f x; do ys <- map_o f l'; Ok (y :: ys) end.
  Definition set_level (p : posting) (lv : Z) (tm sr : str) : posting :=
    mkP (p_date p) (p_payee p) (p_tnote p) (p_acct p) (p_ccy p) (p_val p) (p_note p) (p_bal p) lv tm sr.
  (** book_accum.go:243-246 *)
  Definition leaf_row (accum : list str) (divider : str) (vals : list (str * Qc)) (p : posting) : outcome posting :=
    do (lv, tm) <- split_by_strings accum (p_acct p) true divider;
    Ok (set_level p lv tm (get_sort_order_string micro vals (p_acct p) divider)).
  (** book_accum.go:249-269; [first] is posts[transIdx]; acctval[k] is always present *)
  Definition sub_row (accum : list str) (toCCY divider : str) (vals : list (str * Qc)) (first : posting) (k : str) : outcome posting :=
    do (lv, tm) <- split_by_strings accum k false divider;
    match aget str_eqb k vals with
    | Some v => Ok (mkP (p_date first) (p_payee first) (p_tnote first) k toCCY v [] 0%Qc lv tm (get_sort_order_string micro vals k divider))
    | None => Panic
    end.
  (** book_accum.go:214-303: one transaction; returns (ordinary rows, subtotal rows) *)
  Definition accum_trans (pb : pbook) (accum : list str) (toCCY divider : str) (g : list posting) : outcome (list posting * list posting) :=
    match g with
    | [] => Panic
    | first :: _ =>
        do cposts <- convert pb toCCY g;
        let vals := acct_val divider accum cposts in
        do leaves <- map_o (leaf_row accum divider vals) g;
        do subs <- map_o (sub_row accum toCCY divider vals first) (it g accum);
        Ok (leaves, subs)
    end.

  (** book_accum.go:171-311, up to the sort. The transactions are the runs of equal date and payee. *)
  Definition accum_rows (pb : pbook) (posts : list posting) (toCCY divider : str) : outcome (list posting) :=
    do posts <- add_empty_accounts posts;
    let accum := find_accum toCCY divider None [] posts in
    do rows <- map_o (accum_trans pb accum toCCY divider) (group_all posts);
    Ok (srt (concat (map fst rows) ++ concat (map snd rows))).

  (** book_accum.go:314-328: drop the hidden account, negate credit accounts *)
  Definition neg_if (credit : option (str -> bool)) (p : posting) : posting :=
    match credit with
    | Some m => if m (p_acct p) then set_val p (- p_val p)%Qc else p
    | None => p
    end.
  Definition is_hidden (hidden : str) (p : posting) : bool := nonempty hidden && str_eqb (p_acct p) hidden.
  Definition hide (credit : option (str -> bool)) (hidden : str) (rows : list posting) : list posting :=
    map (neg_if credit) (filter (fun p => negb (is_hidden hidden p)) rows).

  (** book_accum.go:166-346 [Accumulate]. Lines 331-343 regroup; without any row eposts[1] panics. *)
  Definition accumulate (toCCY divider : str) (credit : option (str -> bool)) (hidden : str) (b : book) : outcome (book * list trans) :=
    let b := compact srt b in
    match bk_post b with
    | [] => Ok (transactions srt b)
    | _ =>
        do rows <- accum_rows (bk_prices b) (bk_post b) toCCY divider;
        match hide credit hidden rows with
        | [] => Panic
        | rows' => Ok (b, group_all rows')
        end
    end.
End Accum.
