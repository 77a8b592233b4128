(** * PriceModel: /repo/book/price.go *)
From Verif Require Import Base DateModel.

(** price.go:8-18 [Price] *)
Record price := mkPrice { pr_date : Z; pr_val : Qc }.
Definition pricelist := list price.

(** price.go:20-28 [PriceType] *)
Inductive ptype := OutOfRange | Inferred | Exact | Trade | PNone.

(** big.NewRat(a, b): panics for b = 0. *)
Definition new_rat (a b : Z) : outcome Qc := if b =? 0 then Panic else Ok (qz a / qz b)%Qc.

(** Rat.Inv: panics for 0. *)
Definition rat_inv (q : Qc) : outcome Qc := if qc_is0 q then Panic else Ok (/ q)%Qc.

(** slice indexing p[i]: out of range panics *)
Definition index {A} (l : list A) (i : nat) : outcome A :=
  match nth_error l i with Some x => Ok x | None => Panic end.

(** price.go:68-78, 110-119: linear interpolation between p[i] and p[j]. *)
Definition interpolate (date : Z) (lo hi : price) : outcome (Qc * ptype) :=
  do num <- days_since date (pr_date lo);
  do den <- days_since (pr_date hi) (pr_date lo);
  do dateFwd <- new_rat num den;
  Ok ((pr_val hi - pr_val lo) * dateFwd + pr_val lo, Inferred)%Qc.

(** price.go:46-79 [PriceIterator.GetPrice]: [idx] is the iterator state. *)
Fixpoint it_advance (fuel : nat) (pl : pricelist) (idx : nat) (date : Z) : outcome nat :=
  match fuel with
  | O => Diverge
  | S f => if Nat.ltb idx (length pl)
           then do p <- index pl idx;
                if pr_date p <? date then it_advance f pl (S idx) date else Ok idx
           else Ok idx
  end.
Definition it_get (pl : pricelist) (idx : nat) (date : Z) : outcome (nat * (Qc * ptype)) :=
  do idx <- it_advance (S (length pl)) pl idx date;
  if Nat.eqb idx (length pl) then
    do p <- (match length pl with O => Panic | S n => index pl n end);
    Ok (idx, (pr_val p, OutOfRange))
  else
    do p <- index pl idx;
    if pr_date p =? date then Ok (idx, (pr_val p, Exact))
    else match idx with
         | O => do p0 <- index pl 0; Ok (idx, (pr_val p0, OutOfRange))
         | S i => do lo <- index pl i; do r <- interpolate date lo p; Ok (idx, r)
         end.

(** price.go:93-108: the binary search. Result [inl v]: found exactly; [inr i]: minIdx at the end. *)
Fixpoint bsearch (fuel : nat) (p : pricelist) (date : Z) (minIdx maxIdx : nat) : outcome (Qc + nat) :=
  match fuel with
  | O => Diverge
  | S f =>
      if Nat.ltb minIdx maxIdx then
        let midIdx := ((minIdx + maxIdx) / 2)%nat in
        do m <- index p midIdx;
        if pr_date m <? date then
          (if Nat.eqb midIdx minIdx then Ok (inr minIdx) else bsearch f p date midIdx maxIdx)
        else if date <? pr_date m then bsearch f p date minIdx midIdx
        else Ok (inl (pr_val m))
      else Ok (inr minIdx)
  end.

(** price.go:81-120 [PriceList.GetPrice] *)
Definition pl_get (p : pricelist) (date : Z) : outcome (Qc * ptype) :=
  do p0 <- index p 0;
  if date <? pr_date p0 then Ok (pr_val p0, OutOfRange)
  else
    do pn <- (match length p with O => Panic | S n => index p n end);
    if pr_date pn <? date then Ok (pr_val pn, OutOfRange)
    else
      do r <- bsearch (S (length p)) p date 0 (length p);
      match r with
      | inl v => Ok (v, Exact)
      | inr i => do lo <- index p i; do hi <- index p (S i); interpolate date lo hi
      end.

(** price.go:123-132, 171-173 [priceBookBuilder] / [priceBook]: map[PricePair]PriceList *)
Definition pbook := list ((str * str) * pricelist).

(** price.go:136-149 [addPrice] *)
Definition add_price (pb : pbook) (date : Z) (unit ccy : str) (val : Qc) : pbook :=
  match aget pair_eqb (unit, ccy) pb with
  | None => aset pair_eqb (unit, ccy) [mkPrice date val] pb
  | Some v => aset pair_eqb (unit, ccy) (v ++ [mkPrice date val]) pb
  end.

(** price.go:152-168 [build]: each list is copied and stably sorted by date. *)
Definition price_less (a b : price) : bool := pr_date a <? pr_date b.
Definition build_prices (pb : pbook) : pbook := map (fun '(k, l) => (k, isort price_less l)) pb.

(** price.go:182-196 [priceBook.getPrice] *)
Definition get_price (pb : pbook) (date : Z) (unit ccy : str) : outcome (Qc * ptype) :=
  if str_eqb unit ccy then Ok (1%Qc, Exact)
  else match aget pair_eqb (unit, ccy) pb with
       | Some v => pl_get v date
       | None =>
           match aget pair_eqb (ccy, unit) pb with
           | Some v => do (r, pt) <- pl_get v date; do i <- rat_inv r; Ok (i, pt)
           | None => Ok (1%Qc, PNone)
           end
       end.

(** price.go:206-220 [PriceType.merge] *)
Definition ptype_eqb (a b : ptype) : bool :=
  match a, b with
  | OutOfRange, OutOfRange | Inferred, Inferred | Exact, Exact | Trade, Trade | PNone, PNone => true
  | _, _ => false
  end.
Definition pt_merge (p m : ptype) : ptype :=
  if ptype_eqb p PNone || ptype_eqb m PNone then PNone
  else if ptype_eqb p OutOfRange || ptype_eqb m OutOfRange then OutOfRange
  else if ptype_eqb p Inferred || ptype_eqb m Inferred then Inferred
  else if ptype_eqb p Exact || ptype_eqb m Exact then Exact
  else Trade.

(** price.go:222-232 [getValue], the price type only: merge over the units in iteration order. The float
    sum is not modelled. *)
Fixpoint value_type (pb : pbook) (date : Z) (units : list str) (ccy : str) (pt : ptype) : outcome ptype :=
  match units with
  | [] => Ok pt
  | u :: us => do (_, typ) <- get_price pb date u ccy; value_type pb date us ccy (pt_merge pt typ)
  end.
