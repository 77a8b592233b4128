(** * PlainTableSpec: text reports of transactions (C114). *)
From Verif Require Import Base PriceModel BookModel.

(** The rows of two transactions that belong together have the same account, displayed name and currency. *)
Definition same_row (p q : posting) : Prop := p_acct p = p_acct q /\ p_term p = p_term q /\ p_ccy p = p_ccy q.
Definition has_row (t : trans) (v : posting) : Prop := exists p, In p t /\ same_row p v.
(** Every row of every transaction is a row of the last one ([fits]), and the last one has no other ([complete]). *)
Definition fits (ts : list trans) : Prop := forall t v, In t ts -> In v t -> has_row (last ts []) v.
Definition complete (ts : list trans) : Prop := forall t v, In t ts -> In v (last ts []) -> has_row t v.
