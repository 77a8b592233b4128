(** * RegisterModel: /repo/book/registry.go, /repo/book/transaction.go (inferred rates) and the selection of
    rows in /repo/cmd/register/show_register.go. *)
From Verif Require Import Base Dec DateModel PriceModel BookModel.

(** Rat.Sign *)
Definition sgn (q : Qc) : Z := Z.sgn (Qnum (this q)).
(** Rat.Quo: panics for a zero divisor *)
Definition rat_quo (a b : Qc) : outcome Qc := if qc_is0 b then Panic else Ok (a / b)%Qc.
(** strings.Join *)
Fixpoint join (sep : str) (l : list str) : str :=
  match l with [] => [] | [x] => x | x :: l' => x ++ sep ++ join sep l' end.

(** ** transaction.go:23-54 [InferRates]: [lastAccount] and [i] are the loop variables. *)
Fixpoint infer_rates_loop (fuel : nat) (base : str) (t : trans) (lastAccount i : nat) (rates : list (str * Qc)) : outcome (list (str * Qc)) :=
  match fuel with
  | O => Diverge
  | S f =>
      do same <- (if Nat.ltb i (length t)
                  then do x <- index t lastAccount; do y <- index t i; Ok (str_eqb (p_acct x) (p_acct y))
                  else Ok false);
      if (same : bool) then infer_rates_loop f base t lastAccount (S i) rates
      else
        do rates' <- (if Nat.eqb i (lastAccount + 2)
                      then do y <- index t (i - 1); do x <- index t (i - 2);
                           if str_eqb (p_ccy y) base then do r <- rat_quo (p_val y) (p_val x); Ok (aset str_eqb (p_ccy x) (- r)%Qc rates)
                           else if str_eqb (p_ccy x) base then do r <- rat_quo (p_val x) (p_val y); Ok (aset str_eqb (p_ccy y) (- r)%Qc rates)
                           else Ok rates
                      else Ok rates);
        infer_rates_loop f base t i (S i) rates'
  end.
Definition infer_rates (fuel : nat) (base : str) (t : trans) : outcome (list (str * Qc)) := infer_rates_loop fuel base t 0 1 [].

(** ** transaction.go:56-91 [InferRate]: lastAccount = -1 is [None]. *)
Definition two_apart (lastAccount : option nat) (i : nat) : bool :=
  match lastAccount with None => Nat.eqb i 1 | Some l => Nat.eqb i (l + 2) end.
Definition infer_hit (base unit : str) (t : trans) (lastAccount : option nat) (i : nat) : outcome (option Qc) :=
  if two_apart lastAccount i then
    do y <- index t (i - 1); do x <- index t (i - 2);
    if sgn (p_val y) + sgn (p_val x) =? 0 then
      if str_eqb (p_ccy y) base && str_eqb (p_ccy x) unit then do r <- rat_quo (p_val y) (p_val x); Ok (Some (- r)%Qc)
      else if str_eqb (p_ccy y) unit && str_eqb (p_ccy x) base then do r <- rat_quo (p_val x) (p_val y); Ok (Some (- r)%Qc)
      else Ok None
    else Ok None
  else Ok None.
Fixpoint infer_loop (fuel : nat) (base unit : str) (t : trans) (lastAccount : option nat) (i : nat) : outcome (option Qc) :=
  match fuel with
  | O => Diverge
  | S f =>
      do hit <- infer_hit base unit t lastAccount i;
      match hit with
      | Some r => Ok (Some r)
      | None =>
          if Nat.eqb i (length t) then Ok None
          else
            do last' <- (match lastAccount with
                         | None => Ok i
                         | Some l => do x <- index t l; do y <- index t i;
                                     Ok (if str_eqb (p_acct x) (p_acct y) then l else i)
                         end);
            infer_loop f base unit t (Some last') (S i)
      end
  end.
Definition infer_rate (base unit : str) (t : trans) : outcome (option Qc) := infer_loop (S (length t)) base unit t None 0.

(** ** registry.go:11-29 [RegistryEntry]; BaseCCY is the same for all and left out. *)
Record entry := mkE {
  e_date : Z; e_acct : str; e_payee : str; e_counter : str; e_amt : Qc; e_ccy : str; e_bal : Qc;
  e_note : str; e_tnote : str; e_base : Qc; e_src : ptype; e_basebal : Qc }.

(** registry.go:76-92 the counter-accounts *)
Definition counters (t : trans) (p : posting) : list posting :=
  filter (fun tp => negb (str_eqb (p_acct tp) (p_acct p)) && negb (sgn (p_val tp) =? sgn (p_val p)) && str_eqb (p_ccy tp) (p_ccy p)) t.
(** registry.go:94-110 combine or scale *)
Definition allocate (split : bool) (t : trans) (p : posting) : outcome (list (str * Qc)) :=
  let cs := counters t p in
  if Nat.ltb 1 (length cs) && negb split then Ok [(join (bs ";") (map p_acct cs), p_val p)]
  else do inv <- rat_inv (qsum (map p_val cs));
       Ok (map (fun c => (p_acct c, p_val c * p_val p * inv)%Qc) cs).
(** registry.go:125-136 base amount and source *)
Definition base_amount (pb : pbook) (base : str) (t : trans) (p : posting) (amt : Qc) : outcome (Qc * ptype) :=
  if str_eqb (p_ccy p) base then Ok (amt, Exact)
  else do r <- infer_rate base (p_ccy p) t;
       match r with
       | Some r => Ok ((r * amt)%Qc, Trade)
       | None => do h <- index t 0; do (r, src) <- get_price pb (p_date h) base (p_ccy p); Ok ((r * amt)%Qc, src)
       end.
(** registry.go:112-155: [bals] and [bb] are the running balances *)
Fixpoint alloc_loop (pb : pbook) (base : str) (t : trans) (p : posting) (bal bb : Qc) (l : list (str * Qc)) : outcome (list entry * Qc * Qc) :=
  match l with
  | [] => Ok ([], bal, bb)
  | (v, a) :: l' =>
      let bal := (bal + a)%Qc in
      do (ba, src) <- base_amount pb base t p a;
      let bb := (bb + ba)%Qc in
      do h <- index t 0;
      do (es, bal', bb') <- alloc_loop pb base t p bal bb l';
      Ok (mkE (p_date h) (p_acct p) (p_payee h) v a (p_ccy p) bal (p_note p) (p_tnote p) ba src bb :: es, bal', bb')
  end.
Definition rbal (c : str) (bals : list (str * Qc)) : Qc := match aget str_eqb c bals with Some v => v | None => 0%Qc end.
(** registry.go:69-156 the postings of one transaction *)
Fixpoint post_loop (m : str -> bool) (split : bool) (pb : pbook) (base : str) (t : trans) (bals : list (str * Qc)) (bb : Qc) (l : list posting)
  : outcome (list entry * list (str * Qc) * Qc) :=
  match l with
  | [] => Ok ([], bals, bb)
  | p :: l' =>
      if m (p_acct p) then
        do al <- allocate split t p;
        do (es, bal', bb') <- alloc_loop pb base t p (rbal (p_ccy p) bals) bb al;
        do (es', bals'', bb'') <- post_loop m split pb base t (aset str_eqb (p_ccy p) bal' bals) bb' l';
        Ok (es ++ es', bals'', bb'')
      else post_loop m split pb base t bals bb l'
  end.
(** registry.go:66-157 *)
Fixpoint trans_loop (m : str -> bool) (split : bool) (pb : pbook) (base : str) (bals : list (str * Qc)) (bb : Qc) (ts : list trans) : outcome (list entry) :=
  match ts with
  | [] => Ok []
  | t :: ts' =>
      do (es, bals', bb') <- post_loop m split pb base t bals bb t;
      do es' <- trans_loop m split pb base bals' bb' ts';
      Ok (es ++ es')
  end.
(** registry.go:57-160 [ExtractRegister]; [m] is re.MatchString. The book is compacted as a side effect. *)
Definition extract_register (srt : list posting -> list posting) (base : str) (m : str -> bool) (split : bool) (b : book) : outcome (book * list entry) :=
  let b' := compact srt b in
  do es <- trans_loop m split (bk_prices b') base [] 0%Qc (bk_trans b');
  Ok (b', es).

(** ** registry.go:31-55 [FilterByDate] *)
(** slice expression l[s:e] *)
Definition slice {A} (l : list A) (s e : nat) : outcome (list A) :=
  if Nat.leb s e && Nat.leb e (length l) then Ok (firstn (e - s) (skipn s l)) else Panic.
Fixpoint window_loop (mn mx : Z) (l : list entry) (i : nat) (startIdx : option nat) (endIdx : nat) : option nat * nat :=
  match l with
  | [] => (startIdx, endIdx)
  | r :: l' =>
      let startIdx := match startIdx with None => if (mn =? 0) || (mn <=? e_date r) then Some i else None | s => s end in
      if negb (mx =? 0) && (mx <=? e_date r) then (startIdx, i)
      else window_loop mn mx l' (S i) startIdx endIdx
  end.
(** [mn], [mx] are DateFromString of the two arguments; 0 for a missing or unreadable bound. *)
Definition filter_by_date (mn mx : Z) (rep : list entry) : outcome (list entry) :=
  if (mn =? 0) && (mx =? 0) then Ok rep
  else match window_loop mn mx rep 0 None (length rep) with
       | (None, _) => slice rep 0 0
       | (Some s, e) => slice rep s e
       end.

(** ** show_register.go:19-35: count and order. A nil entry is [None]. *)
Definition cut_count (count : Z) (rep : list entry) : list entry :=
  let n := Z.of_nat (length rep) in
  let rep := if (0 <? count) && (count <? n) then firstn (Z.to_nat count) rep else rep in
  let n := Z.of_nat (length rep) in
  if (count <? 0) && (- count <? n) then skipn (Z.to_nat (n + count)) rep else rep.
(** show_register.go:29-35: ndata starts as nils; only len/2 elements are copied. *)
Definition set_nth {A} (i : nat) (x : A) (l : list A) : list A := firstn i l ++ x :: skipn (S i) l.
Fixpoint reverse_loop (rep : list entry) (ndata : list (option entry)) (i n : nat) : list (option entry) :=
  match n with
  | O => ndata
  | S n' => match nth_error rep i with
            | Some e => reverse_loop rep (set_nth (length rep - i - 1) (Some e) ndata) (S i) n'
            | None => ndata
            end
  end.
Definition show_rows (count : Z) (asc : bool) (rep : list entry) : list (option entry) :=
  let rep := cut_count count rep in
  if asc then map Some rep
  else reverse_loop rep (repeat None (length rep)) 0 (length rep / 2).
(** show_register.go:48-138: the text and CSV reports read every entry; a nil entry panics. The result here is
    the entries printed, in order. *)
Fixpoint print_rows (rows : list (option entry)) : outcome (list entry) :=
  match rows with
  | [] => Ok []
  | None :: _ => Panic
  | Some e :: rows' => do r <- print_rows rows'; Ok (e :: r)
  end.
