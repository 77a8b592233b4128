(** * AccumSpec: vocabulary for the properties of Accumulate (C38-C42, C69, C70). *)
From Verif Require Import Base PriceModel BookModel BookSpec.

(** [a] is a descendant of the account [k]: "k:..." for the divider ":". *)
Definition below (d : Z) (k a : str) : Prop := exists r, a = k ++ d :: r.
Definition at_or_below (d : Z) (k a : str) : Prop := a = k \/ below d k a.

(** The amount of a posting in the currency [to], at the price of its date. *)
Definition conv (pb : pbook) (to : str) (p : posting) : Qc :=
  if str_eqb (p_ccy p) to then p_val p
  else match get_price pb (p_date p) (p_ccy p) to with Ok (r, _) => (p_val p * r)%Qc | _ => 0%Qc end.

(** [sum_over P f l s]: s is the sum of f over the elements of l with property P. *)
Inductive sum_over {A} (P : A -> Prop) (f : A -> Qc) : list A -> Qc -> Prop :=
| sum_nil : sum_over P f [] 0%Qc
| sum_yes x l s : P x -> sum_over P f l s -> sum_over P f (x :: l) (f x + s)%Qc
| sum_no x l s : ~ P x -> sum_over P f l s -> sum_over P f (x :: l) s.

(** The visible identity of a row of a summary. *)
Definition row_id (r : posting) : str * Z * str * str := (p_acct r, p_level r, p_term r, p_ccy r).
(** Date and payee of a transaction. *)
Definition trans_id (t : trans) : option (Z * str) := match t with [] => None | p :: _ => Some (dp p) end.
Definition uniform (t : trans) : Prop := forall p q, In p t -> In q t -> dp p = dp q.

(** An ordinary row for the account and currency [k] in the summary of transaction [t]: the posting of [t], or zero. *)
Definition ordinary (t : trans) (r : posting) : Prop :=
  (exists p, In p t /\ dp r = dp p /\ p_tnote r = p_tnote p /\ p_acct r = p_acct p /\ p_ccy r = p_ccy p /\ p_val r = p_val p /\ p_note r = p_note p /\ p_bal r = p_bal p) \/
  ((forall p, In p t -> ~ (p_acct p = p_acct r /\ p_ccy p = p_ccy r)) /\ p_val r = 0%Qc /\ p_bal r = 0%Qc /\ p_note r = []).
(** A subtotal row in currency [to] of transaction [t]. *)
Definition subtotal_of (pb : pbook) (to : str) (d : Z) (t : trans) (r : posting) : Prop :=
  p_ccy r = to /\ sum_over (fun p => at_or_below d (p_acct r) (p_acct p)) (conv pb to) t (p_val r).
(** The (account, currency) pairs of a list of transactions *)
Definition occurs (ts : list trans) (k : str * str) : Prop := exists t p, In t ts /\ In p t /\ (p_acct p, p_ccy p) = k.
