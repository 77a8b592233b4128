(** * CmdSpec: what one unit of a currency is worth, the period of a report, names that are plain text in a regular expression, windows of dates. *)
From Verif Require Import Base DateModel DateSpec PriceModel PriceSpec BookModel BookSpec RegisterModel RegisterSpec.

(** On day [d] one unit of [c] is worth [r] of [base]: by the prices of [c] in [base]; else the reciprocal by those of [base] in [c];
    else nothing is known, and 1 is used. *)
Inductive worth (pb : pbook) (d : Z) (c base : str) : Qc -> Prop :=
| w_same : c = base -> worth pb d c base 1%Qc
| w_direct l v t : c <> base -> In ((c, base), l) pb -> quote l d v t -> worth pb d c base v
| w_inverse l v t : c <> base -> (forall l', ~ In ((c, base), l') pb) -> In ((base, c), l) pb -> quote l d v t -> worth pb d c base (/ v)%Qc
| w_unknown : c <> base -> (forall l, ~ In ((c, base), l) pb) -> (forall l, ~ In ((base, c), l) pb) -> worth pb d c base 1%Qc.

(** The first day of the period of a day. *)
Inductive by_period := ByPeriod (p : period) | ByToday | ByDay.
Definition by_name (k : by_period) : str := match k with ByPeriod p => period_name p | ByToday => bs "today" | ByDay => bs "none" end.
Definition first_day (today : Z) (k : by_period) (d f : Z) : Prop :=
  match k with
  | ByPeriod p => exists y m dd, valid_ymd y m dd /\ d = ymd y m dd /\ f = period_start p (period_index p y m)
  | ByToday => f = today
  | ByDay => f = d
  end.

(** Sum of [f] over a list. *)
Definition sum_of {A} (f : A -> Qc) (l : list A) : Qc := qsum (map f l).
(** Where a report puts a posting: under its own date and payee, or on the first day of its period without a payee. *)
Definition by_text (by_ : option by_period) : str := match by_ with None => bs "skip" | Some k => by_name k end.
Definition placed (today : Z) (by_ : option by_period) (p : posting) (d : Z) (pay : str) : Prop :=
  match by_ with None => d = p_date p /\ pay = p_payee p | Some k => first_day today k (p_date p) d /\ pay = [] end.

(** Letters, digits and & ' : _ space: the characters of account names; none has a meaning in a regular expression. *)
Definition plain_char (c : Z) : Prop := 65 <= c <= 90 \/ 97 <= c <= 122 \/ 48 <= c <= 57 \/ In c [38; 39; 58; 95; 32].
Definition plain_name (a : str) : Prop := Forall plain_char a.
(** A bound of a window of dates: missing, or a date as written. *)
Inductive bound : str -> option Z -> Prop :=
| b_none : bound [] None
| b_date d : valid_date d -> d < 100000000 -> bound (date_string d) (Some d).
(** From [lo] on, before [hi]. *)
Definition in_window (lo hi : option Z) (d : Z) : Prop :=
  (forall x, lo = Some x -> x <= d) /\ (forall x, hi = Some x -> d < x).
(** [sub] are the elements of [l] with [P], in order. *)
Inductive sublist_of {A} (P : A -> Prop) : list A -> list A -> Prop :=
| so_nil : sublist_of P [] []
| so_yes x l s : P x -> sublist_of P l s -> sublist_of P (x :: l) (x :: s)
| so_no x l s : ~ P x -> sublist_of P l s -> sublist_of P (x :: l) s.
(** The register of the accounts [m] of transactions [ts], complete: one block of entries per posting, in order; the entries of a block name the posting
    and share its amount; balances run through the register. *)
Definition register_of (m : str -> bool) (split : bool) (ts : list trans) (es : list entry) : Prop :=
  (exists blocks, concat blocks = es /\
    Forall2 (fun tp block => Forall (names (snd tp)) block /\ qsum (map e_amt block) = p_val (snd tp) /\ (split = false -> length block = 1%nat)) (matching m ts) blocks) /\
  (forall l1 e l2, es = l1 ++ e :: l2 -> e_bal e = ccy_sum (e_ccy e) (l1 ++ [e]) /\ e_basebal e = qsum (map e_base (l1 ++ [e]))) /\
  (forall c, ccy_sum c es = qsum (map p_val (filter (fun p => m (p_acct p) && str_eqb (p_ccy p) c) (concat ts)))).
