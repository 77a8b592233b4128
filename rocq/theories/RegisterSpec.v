(** * RegisterSpec: what a register must contain, in terms of postings and entries only. *)
From Verif Require Import Base PriceModel BookModel BookSpec RegisterModel.

(** [q] is booked in the opposite direction of [p]: other account, same currency, opposite sign. *)
Definition opposite (p q : posting) : Prop :=
  p_acct q <> p_acct p /\ p_ccy q = p_ccy p /\
  ((0 < p_val p /\ p_val q < 0) \/ (p_val p < 0 /\ 0 < p_val q))%Qc.
(** [opp] are the postings of [t] opposite to [p], in order. *)
Inductive opposites (p : posting) : trans -> list posting -> Prop :=
| opp_nil : opposites p [] []
| opp_take q t l : opposite p q -> opposites p t l -> opposites p (q :: t) (q :: l)
| opp_skip q t l : ~ opposite p q -> opposites p t l -> opposites p (q :: t) l.

(** The matching postings of a list of transactions, each with its transaction, in order. *)
Definition matching (m : str -> bool) (ts : list trans) : list (trans * posting) :=
  flat_map (fun t => map (fun p => (t, p)) (filter (fun p => m (p_acct p)) t)) ts.

(** The entry names the posting. *)
Definition names (p : posting) (e : entry) : Prop :=
  e_date e = p_date p /\ e_payee e = p_payee p /\ e_acct e = p_acct p /\ e_ccy e = p_ccy p /\
  e_note e = p_note p /\ e_tnote e = p_tnote p.

(** Sum of the amounts of the entries in currency [c]. *)
Definition ccy_sum (c : str) (l : list entry) : Qc := qsum (map e_amt (filter (fun e => str_eqb (e_ccy e) c) l)).

(** A rate of exchange traded in [t]: two postings of one account in opposite directions, [x] units of one
    currency against [y] of the other, rate = base amount per unit. *)
Definition traded (base unit : str) (t : trans) (r : Qc) : Prop :=
  exists pre p q post, t = pre ++ p :: q :: post /\ p_acct p = p_acct q /\
    exists pb pu, ((pb = p /\ pu = q) \/ (pb = q /\ pu = p)) /\ p_ccy pb = base /\ p_ccy pu = unit /\
      ((0 < p_val pb /\ p_val pu < 0) \/ (p_val pb < 0 /\ 0 < p_val pu))%Qc /\
      (r * p_val pu = - p_val pb)%Qc.
