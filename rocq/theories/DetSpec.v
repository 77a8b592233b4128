(** * DetSpec: two books that look the same (C108). *)
From Verif Require Import Base PriceModel BookModel BookSpec.

(** A legal iteration order over the open balances: every currency once. *)
Definition some_order (ord : list (str * Qc) -> list str) : Prop := forall m, NoDup (akeys m) -> Permutation (ord m) (akeys m).

(** A posting without its own note. *)
Definition but_note (p : posting) : posting :=
  mkP (p_date p) (p_payee p) (p_tnote p) (p_acct p) (p_ccy p) (p_val p) [] (p_bal p) (p_level p) (p_term p) (p_sort p).

(** The same transactions, in the same order, with the same postings in the same order, which agree in everything but the posting
    notes; the same prices; the same number of decimals for every currency. *)
Definition same_but_notes (b1 b2 : book) : Prop :=
  map but_note (bk_post b1) = map but_note (bk_post b2) /\
  map (map but_note) (bk_trans b1) = map (map but_note) (bk_trans b2) /\
  bk_prices b1 = bk_prices b2 /\ forall c, aget str_eqb c (bk_ccy b1) = aget str_eqb c (bk_ccy b2).
(** The same, notes included. *)
Definition same_book (b1 b2 : book) : Prop :=
  bk_post b1 = bk_post b2 /\ bk_trans b1 = bk_trans b2 /\ bk_prices b1 = bk_prices b2 /\
  forall c, aget str_eqb c (bk_ccy b1) = aget str_eqb c (bk_ccy b2).

(** Two results: both a book, or the same failure. *)
Definition both {A} (R : A -> A -> Prop) (x y : outcome A) : Prop :=
  match x, y with Ok a, Ok b => R a b | Error, Error | Panic, Panic | Diverge, Diverge => True | _, _ => False end.

(** A sort that keeps the order of postings it regards as equal (sort.Slice does not promise this). *)
Definition stable (srt : list posting -> list posting) : Prop :=
  forall l q, filter (fun p => negb (is_less p q) && negb (is_less q p)) (srt l) = filter (fun p => negb (is_less p q) && negb (is_less q p)) l.
