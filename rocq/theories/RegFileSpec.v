(** * RegFileSpec: what the register of an account of a ledger file has to show (C112). *)
From Verif Require Import Base DateModel PriceModel BookModel BookSpec RegisterModel LoaderModel LoaderSpec AccumSpec CmdSpec BalanceSpec.

(** [v] is what is posted to account [a] in currency [c] on day [D]; up to and including day [D]; at all. *)
Definition day_total (cs : list bcall) (D : Z) (a c : str) (v : Qc) : Prop := sum_over (fun x => am_date x = D /\ am_acct x = a /\ am_ccy x = c) am_val (amounts (-1) cs) v.
Definition balance_on (cs : list bcall) (D : Z) (a c : str) (v : Qc) : Prop := sum_over (fun x => am_date x <= D /\ am_acct x = a /\ am_ccy x = c) am_val (amounts (-1) cs) v.
Definition account_total (cs : list bcall) (a c : str) (v : Qc) : Prop := sum_over (fun x => am_acct x = a /\ am_ccy x = c) am_val (amounts (-1) cs) v.

(** The register of account [a]: in the order of days; for every day and currency the lines add up to what the file posts; the balance in a line is the sum of the lines so
    far in its currency; and at the end of a day it is what the file has posted by then. *)
Definition register_lines (cs : list bcall) (a : str) (es : list RegisterModel.entry) : Prop :=
  StronglySorted (fun e e' => e_date e <= e_date e') es /\
  Forall (fun e => e_acct e = a) es /\
  (forall D c v, day_total cs D a c v -> sum_over (fun e => e_date e = D /\ e_ccy e = c) e_amt es v) /\
  (forall l1 e l2, es = l1 ++ e :: l2 -> sum_over (fun x => e_ccy x = e_ccy e) e_amt (l1 ++ [e]) (e_bal e)) /\
  (forall l1 e l2, es = l1 ++ e :: l2 -> (forall x, In x l2 -> e_ccy x = e_ccy e -> e_date e < e_date x) -> balance_on cs (e_date e) a (e_ccy e) (e_bal e)).

(** --count: the first [count] lines, the last [- count] lines, all of them. *)
Definition counted (count : Z) (es shown : list RegisterModel.entry) : Prop :=
  (0 < count -> exists rest, es = shown ++ rest /\ Z.of_nat (length shown) = Z.min count (Z.of_nat (length es))) /\
  (count < 0 -> exists rest, es = rest ++ shown /\ Z.of_nat (length shown) = Z.min (- count) (Z.of_nat (length es))) /\
  (count = 0 -> shown = es).
(** The accounts with a register: with --all every account with something posted that does not cancel on its day, and none without postings; otherwise those whose total is
    not zero, for ledgers where no account has two currencies. *)
Definition registered (cs : list bcall) (all : bool) (m : str -> bool) (accts : list str) : Prop :=
  StronglySorted (fun a a' => str_cmp a a' = Lt) accts /\
  (all = true -> forall a, (In a accts -> m a = true /\ exists x, In x (amounts (-1) cs) /\ am_acct x = a) /\
     ((exists D c v, day_total cs D a c v /\ v <> 0%Qc) -> m a = true -> In a accts)) /\
  (all = false -> (forall x y, In x (amounts (-1) cs) -> In y (amounts (-1) cs) -> am_acct x = am_acct y -> am_ccy x = am_ccy y) ->
     forall a, In a accts <-> m a = true /\ exists c v, account_total cs a c v /\ v <> 0%Qc).
