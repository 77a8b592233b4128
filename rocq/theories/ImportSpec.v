(** * ImportSpec: what the import command promises about the transactions it prints (C83-C86). *)
From Verif Require Import Base BookModel BookSpec.

(** What the user sees of a posting (everything but the running balance). *)
Definition vis (p : posting) := (p_date p, p_payee p, p_tnote p, p_acct p, p_ccy p, p_val p, p_note p).

(** The transactions [ts] contain one with this date and payee. *)
Definition has (ts : list trans) (k : Z * str) : Prop := exists t p, In t ts /\ In p t /\ (p_date p, p_payee p) = k.
(** The identity of a transaction: the date and payee of its postings. *)
Definition known_to (ts : list trans) (t : trans) : Prop := exists p, In p t /\ has ts (p_date p, p_payee p).

(** The same transaction: the same postings, in the same order. *)
Definition same_trans (t u : trans) : Prop := map vis u = map vis t.
(** The same transaction with its counter-account replaced by reclassification against the transactions [rts]
    (the postings may change places because their order is by account). *)
Definition reclassed (dist : str -> str -> Qc) (acct : str) (rts : list trans) (t u : trans) : Prop :=
  exists t0 u0, same_trans t t0 /\ reclassified dist acct rts t0 u0 /\ Permutation (map vis u0) (map vis u).

(** [shown] are the transactions of [l] that satisfy [Q], in order, each changed at most as [R] allows. *)
Inductive shown_of {A} (R : A -> A -> Prop) (Q : A -> Prop) : list A -> list A -> Prop :=
| so_nil : shown_of R Q [] []
| so_drop t l s : ~ Q t -> shown_of R Q l s -> shown_of R Q (t :: l) s
| so_show t u l s : Q t -> R t u -> shown_of R Q l s -> shown_of R Q (t :: l) (u :: s).

(** Two payees are compared by the similarity [jw]; a similarity of at most one half counts as none. *)
Definition similarity (jw dist : str -> str -> Qc) : Prop :=
  forall a b, ((1 # 2)%Q < this (jw a b) -> dist a b = jw a b)%Q /\ (this (jw a b) <= (1 # 2)%Q -> dist a b = 0%Qc)%Q.
