(** * AppendSpec: adding lines at the end of a ledger file (C85, C87). *)
From Verif Require Import Base Utf8 BookModel BookSpec LoaderModel LoaderSpec.

(** A file to which lines can be added: it is empty or ends with a newline, and has no NUL byte (which ends loading, C48). *)
Definition complete (s : str) : Prop := (s = [] \/ exists s', s = s' ++ [10]) /\ ~ In 0 s.

(** Somewhere in the text the word alias (in any case) is followed by the account name [a]. *)
Definition declares (to_upper : Z -> Z) (l : runes) (a : str) : Prop :=
  exists pre w v m s post, l = pre ++ w ++ v ++ m ++ s ++ post /\ encode (map to_upper w) = bs "ALIAS" /\
    Forall (fun c => ws_rune c = true) v /\ (m = [] \/ m = [33] \/ m = [91]) /\
    Forall (fun c => acct_rune c = true) s /\ acct_rune (ch post) = false /\ a = encode s.

(** What identifies a posting in a compacted book, and its amount. *)
Definition amt (p : posting) := (p_date p, p_payee p, p_acct p, p_ccy p, p_val p).
(** The calls that enter a transaction: its header, then its postings. *)
Definition enter (t : trans) : list bcall :=
  match t with
  | [] => []
  | p :: _ => CTrans (p_date p) (p_payee p) (p_tnote p) :: map (fun q => CPost (p_acct q) (p_ccy q) (p_val q) (p_note q)) t
  end.
(** The amounts that the calls post to an account in a currency. *)
Definition posts_to (a c : str) (cs : list bcall) : Qc :=
  qsum (map (fun x => match x with CPost a' c' v _ => if str_eqb a' a && str_eqb c' c then v else 0%Qc | _ => 0%Qc end) cs).
(** The postings [old] are still there with their amounts, and the others are in transactions that [old] does not have. *)
Definition grown (old new : list posting) : Prop :=
  (forall p, In p old -> In (amt p) (map amt new)) /\
  (forall q, In q new -> In (amt q) (map amt old) \/ forall p, In p old -> (p_date p, p_payee p) <> (p_date q, p_payee q)).
(** A transaction as it is entered: the date, notes, accounts, currencies and amounts of [t], under its payee or, when that
    is taken, a numbered variant "payee (n)". *)
Definition entered (t u : trans) : Prop :=
  exists pay, Forall (fun p => pay = p_payee p \/ exists n, 2 <= n /\ pay = numbered (p_payee p) n) t /\
    map (fun p => (p_date p, p_payee p, p_tnote p, p_acct p, p_ccy p, p_val p, p_note p)) u =
    map (fun p => (p_date p, pay, p_tnote p, p_acct p, p_ccy p, p_val p, p_note p)) t.
(** The builder calls a load of file [f] makes (up to calls with the same effect). *)
Definition stands_for (is_letter is_udigit : Z -> bool) (to_upper : Z -> Z) (ord : list (str * Qc) -> list str) (fs : str -> option str) (resolve : str -> str -> str)
  (depth : nat) (f : str) (cs : list bcall) : Prop :=
  exists b, parse_file is_letter is_udigit to_upper ord fs resolve depth new_builder f [] = FOk b /\ bsteps new_builder cs = Ok b.
