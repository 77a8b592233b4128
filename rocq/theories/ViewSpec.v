(** * ViewSpec: what a script should see of a book. *)
From Verif Require Import Base DateModel BookModel BookSpec ConvertModel F64Spec ViewModel.

(** The attributes of a posting, in the order of AttrNames() (script/book.go:39-44), and of a transaction. *)
Definition post_names : list str :=
  [bs "date"; bs "payee"; bs "transaction_note"; bs "account"; bs "amount"; bs "ccy"; bs "posting_note"; bs "balance"].
Definition trans_names : list str := [bs "date"; bs "payee"; bs "transaction_note"].
(** What is seen of a posting: its texts, and the float64 nearest to its amount and to its balance. *)
Definition sees (p : posting) (row : list (option sval)) : Prop :=
  exists v w, nearest_f64 (p_val p) v /\ nearest_f64 (p_bal p) w /\
    row = map Some [SStr (date_string (p_date p)); SStr (p_payee p); SStr (p_tnote p); SStr (p_acct p); SFloat v; SStr (p_ccy p); SStr (p_note p); SFloat w].
(** A script that looks at every attribute of every posting of every transaction. *)
Definition look_at (t : trans) (p : posting) : outcome (list (option sval)) := Ok (map (post_attr p) post_names).

(** A date is let through by data.since(d) and data.asof(d). *)
Definition lets (today : Z) (c : data_call) (d : Z) : bool :=
  match c with
  | DSince s => date_from_string today s <=? d
  | DAsof s => d <? date_from_string today s
  | DMap _ _ _ => true
  end.
Definition date_call (c : data_call) : Prop := match c with DMap _ _ _ => False | _ => True end.
Definition bad_date (today : Z) (c : data_call) : Prop :=
  match c with DSince s | DAsof s => date_from_string today s = 0 | DMap _ _ _ => False end.
(** Everything about a posting except its balance. *)
Definition all_but_balance (p : posting) := (p_date p, p_payee p, p_tnote p, p_acct p, p_ccy p, p_val p, p_note p).
