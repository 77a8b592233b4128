(** * BalanceSpec: what a period report of a ledger file has to show (C110). *)
From Verif Require Import Base Utf8 DateModel DateSpec PriceModel PriceSpec BookModel BookSpec LoaderModel LoaderSpec AccumSpec CmdSpec.

(** An account a report can name: not empty, not ending in the divider. *)
Definition account_ok (divider : Z) (a : str) : Prop := a <> [] /\ last a (divider + 1) <> divider.
(** An entry of a file that a report can show: calendar dates, positive prices, accounts and currencies with names. *)
Definition reportable (divider : Z) (e : entry) : Prop :=
  match e with
  | Call (CTrans d _ _) => valid_date d
  | Call (CPost a c _ _) => account_ok divider a /\ decode c <> []
  | Call (CPrice d _ _ v) => valid_date d /\ (0 < v)%Qc
  | Rest a _ => account_ok divider a
  end.
(** No posting in front of the first transaction. *)
Fixpoint opened_first (es : list entry) : Prop :=
  match es with
  | [] | Call (CTrans _ _ _) :: _ => True
  | Call (CPrice _ _ _ _) :: es' => opened_first es'
  | _ => False
  end.

(** The amounts posted: date, account, currency, amount. *)
Record amount := mkAmt { am_date : Z; am_acct : str; am_ccy : str; am_val : Qc }.
Fixpoint amounts (date : Z) (cs : list bcall) : list amount :=
  match cs with
  | [] => []
  | CTrans d _ _ :: cs' => amounts d cs'
  | CPost a c v _ :: cs' => mkAmt date a c v :: amounts date cs'
  | CPrice _ _ _ _ :: cs' => amounts date cs'
  end.
(** The prices given, in order. *)
Fixpoint price_lines (cs : list bcall) : list addition :=
  match cs with
  | [] => []
  | CPrice d u c v :: cs' => (d, (u, c), v) :: price_lines cs'
  | _ :: cs' => price_lines cs'
  end.
Definition prices_of (cs : list bcall) : pbook := build_prices (add_all (price_lines cs) []).

(** [v] is the sum of what is posted to account [a] in currency [c] in the period that begins on day [D]. *)
Definition period_total (today : Z) (k : by_period) (cs : list bcall) (D : Z) (a c : str) (v : Qc) : Prop :=
  sum_over (fun x => first_day today k (am_date x) D /\ am_acct x = a /\ am_ccy x = c) am_val (amounts (-1) cs) v.
(** Some period has a total that is not zero. *)
Definition moves_in (today : Z) (k : by_period) (cs : list bcall) (D : Z) (a c : str) : Prop := exists v, period_total today k cs D a c v /\ v <> 0%Qc.

(** The column [t] of a report for the period that begins on day [D]: one row for every account and currency that moves in any period,
    with its total in this period; and subtotals in the base currency, at the prices of day [D]. *)
Definition period_column (today : Z) (k : by_period) (base : str) (divider : Z) (cs : list bcall) (D : Z) (t : trans) : Prop :=
  Forall (fun p => p_date p = D) t /\
  exists leaves subs w, Permutation t (leaves ++ subs) /\
    NoDup (map (fun p => (p_acct p, p_ccy p)) leaves) /\
    (forall a c, In (a, c) (map (fun p => (p_acct p, p_ccy p)) leaves) <-> exists D', moves_in today k cs D' a c) /\
    (forall r, In r leaves -> period_total today k cs D (p_acct r) (p_ccy r) (p_val r)) /\
    (forall c, worth (prices_of cs) D c base (w c)) /\
    NoDup (map p_acct subs) /\
    (forall r, In r subs -> p_ccy r = base /\ sum_over (fun q => at_or_below divider (p_acct r) (p_acct q)) (fun q => (p_val q * w (p_ccy q))%Qc) leaves (p_val r)) /\
    (forall a c, In (a, c) (map (fun p => (p_acct p, p_ccy p)) leaves) -> c <> base -> In a (map p_acct subs)) /\
    sum_over (fun r => p_level r = 0) p_val t (qsum (map (fun q => (p_val q * w (p_ccy q))%Qc) leaves)).
