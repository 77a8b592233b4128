(** * BookSpec: what the book operations must do, in terms of postings and sums only. *)
From Verif Require Import Base BookModel.

(** ** Totals. [total g l] is the sum of the amounts of the postings whose (date, payee, account, currency)
    satisfies [g]. *)
Definition keypred := Z -> str -> str -> str -> bool.
Definition on (g : keypred) (p : posting) : bool := g (p_date p) (p_payee p) (p_acct p) (p_ccy p).
Definition total (g : keypred) (l : list posting) : Qc := qsum (map p_val (filter (on g) l)).

(** The usual instances: exactly one key; one transaction and currency; one account and currency. *)
Definition at_key (d : Z) (pay a c : str) : keypred :=
  fun d' pay' a' c' => (d' =? d) && str_eqb pay' pay && str_eqb a' a && str_eqb c' c.
Definition in_trans (d : Z) (pay c : str) : keypred :=
  fun d' pay' _ c' => (d' =? d) && str_eqb pay' pay && str_eqb c' c.
Definition in_acct (a c : str) : keypred := fun _ _ a' c' => str_eqb a' a && str_eqb c' c.

(** Every transaction sums to zero in every currency. *)
Definition balanced (l : list posting) : Prop := forall d pay c, total (in_trans d pay c) l = 0%Qc.

(** ** Order *)
Definition dp (p : posting) : Z * str := (p_date p, p_payee p).
Definition dpcmp : Z * str -> Z * str -> comparison := lex Z.compare str_cmp.
Definition dplt (p q : posting) : Prop := dpcmp (dp p) (dp q) = Lt.
Definition pkey (p : posting) : Z * (str * (str * str)) := (p_date p, (p_payee p, (p_acct p, p_ccy p))).
Definition kcmp := lex Z.compare (lex str_cmp (lex str_cmp str_cmp)).
Definition klt (p q : posting) : Prop := kcmp (pkey p) (pkey q) = Lt.

(** Strictly increasing in (date, payee, account, currency) and no zero amount: the canonical form. *)
Definition canonical (l : list posting) : Prop :=
  StronglySorted klt l /\ Forall (fun p => p_val p <> 0%Qc) l.

(** ** Transactions: non-empty, one date and payee each, strictly increasing in (date, payee). *)
Definition well_grouped (ts : list trans) : Prop :=
  Forall (fun t => t <> [] /\ forall p q, In p t -> In q t -> dp p = dp q) ts /\
  StronglySorted (fun t u => forall p q, In p t -> In q u -> dplt p q) ts.

(** ** Running balance: the sum of the same account and currency up to and including the posting. *)
Definition running (l : list posting) : Prop :=
  forall l1 p l2, l = l1 ++ p :: l2 -> p_bal p = total (in_acct (p_acct p) (p_ccy p)) (l1 ++ [p]).

(** Ordinary postings (not the rows of a summary). *)
Definition plain (p : posting) : Prop := p_level p = 0 /\ p_sort p = [].

(** What every book made by Build and the operations satisfies. *)
Definition book_ok (b : book) : Prop :=
  Forall plain (bk_post b) /\ concat (bk_trans b) = bk_post b /\ well_grouped (bk_trans b)
  /\ balanced (bk_post b).

(** ** Builder calls: the transactions a client opens and the amounts it posts to each of them.
    Postings added before the first NewTransaction form a transaction of their own. *)
Fixpoint segments_from (cur : list (str * Qc)) (cs : list bcall) : list (list (str * Qc)) :=
  match cs with
  | [] => [cur]
  | CTrans _ _ _ :: cs' => cur :: segments_from [] cs'
  | CPost _ c v _ :: cs' => segments_from (cur ++ [(c, v)]) cs'
  | CPrice _ _ _ _ :: cs' => segments_from cur cs'
  end.
Definition segments (cs : list bcall) := segments_from [] cs.
Definition seg_sum (c : str) (seg : list (str * Qc)) : Qc :=
  qsum (map snd (filter (fun '(c', _) => str_eqb c' c) seg)).
Definition all_balanced (cs : list bcall) : Prop := forall seg c, In seg (segments cs) -> seg_sum c seg = 0%Qc.

(** Identity given to a new transaction: the payee as asked for if free on that date, otherwise with the
    least free number appended. *)
Definition numbered (p : str) (n : Z) : str := p ++ bs " (" ++ Dec.fmt_d n ++ bs ")".
Definition fresh_identity (used : list (Z * str)) (d : Z) (p q : str) : Prop :=
  (q = p /\ ~ In (d, p) used) \/
  (In (d, p) used /\ exists n, 2 <= n /\ q = numbered p n /\ ~ In (d, q) used /\
     forall k, 2 <= k < n -> In (d, numbered p k) used).
(** Identities given by the NewTransaction calls of a history, oldest first. *)
Fixpoint identities (b : builder) (cs : list bcall) : list (Z * str) :=
  match cs with
  | [] => []
  | c :: cs' => match bstep b c with
                | Ok b' => (match c with CTrans _ _ _ => [(bu_date b', bu_payee b')] | _ => [] end) ++ identities b' cs'
                | _ => []
                end
  end.
(** The postings a history posts, given the identities its NewTransaction calls received. *)
Fixpoint posted (cur : Z * str) (note : str) (ids : list (Z * str)) (cs : list bcall) : list posting :=
  match cs with
  | [] => []
  | CTrans _ _ n :: cs' => match ids with i :: ids' => posted i n ids' cs' | [] => [] end
  | CPost a c v n :: cs' => mkP (fst cur) (snd cur) note a c v n 0%Qc 0 [] [] :: posted cur note ids cs'
  | CPrice _ _ _ _ :: cs' => posted cur note ids cs'
  end.

(** ** Movements of money caused by Depreciate for one posting: (date, account, amount), all under the payee and
    currency of the posting. [due k] is the date of the k-th return, k = 0 .. n-1. *)
Definition moves (due : nat -> Z) (n : nat) (p : posting) (asset : str) : list (Z * str * Qc) :=
  (p_date p, p_acct p, - p_val p)%Qc :: (p_date p, asset, p_val p) ::
  flat_map (fun k => [(due k, asset, - (p_val p / qz (Z.of_nat n)))%Qc; (due k, p_acct p, p_val p / qz (Z.of_nat n))%Qc]) (seq 0 n).
(** The part of the movements that falls on the keys [g]. *)
Definition moved (g : keypred) (p : posting) (mv : list (Z * str * Qc)) : Qc :=
  qsum (map (fun '(d, a, v) => if g d (p_payee p) a (p_ccy p) then v else 0%Qc) mv).

(** Weighted total: the sum of [w date payee account currency] times the amount. *)
Definition wtotal (w : Z -> str -> str -> str -> Qc) (l : list posting) : Qc :=
  qsum (map (fun p => (w (p_date p) (p_payee p) (p_acct p) (p_ccy p) * p_val p)%Qc) l).

(** ** Reclassification. The counter-account of a two-posting transaction that uses [refacct]. *)
Inductive counter (refacct : str) : trans -> str -> Prop :=
| counter_first p q : p_acct p = refacct -> counter refacct [p; q] (p_acct q)
| counter_second p q : p_acct p <> refacct -> p_acct q = refacct -> counter refacct [p; q] (p_acct p).
(** [x] is the payee of a transaction among [rts] whose counter-account is [c]. *)
Definition seen (refacct : str) (rts : list trans) (x c : str) : Prop :=
  exists t, In t rts /\ counter refacct t c /\ Forall (fun p => p_payee p = x) t.
Definition with_acct (p : posting) (a : str) : posting :=
  mkP (p_date p) (p_payee p) (p_tnote p) a (p_ccy p) (p_val p) (p_note p) (p_bal p) (p_level p) (p_term p) (p_sort p).
(** [t'] is [t] with the account of the counter-posting replaced by [c]. *)
Inductive recounted (refacct : str) (c : str) : trans -> trans -> Prop :=
| rec_first p q : p_acct p = refacct -> recounted refacct c [p; q] [p; with_acct q c]
| rec_second p q : p_acct p <> refacct -> p_acct q = refacct -> recounted refacct c [p; q] [with_acct p c; q].
Definition has_payee (t : trans) (x : str) : Prop := t <> [] /\ Forall (fun p => p_payee p = x) t.
(** What may happen to a transaction: nothing if it has no counter-account or no reference payee is similar,
    otherwise the counter-account becomes one seen with a most similar payee. *)
Definition reclassified (dist : str -> str -> Qc) (refacct : str) (rts : list trans) (t t' : trans) : Prop :=
  (t' = t /\ ((forall c, ~ counter refacct t c) \/
              exists pay, has_payee t pay /\ forall x c, seen refacct rts x c -> (dist pay x <= 0)%Qc)) \/
  (exists pay x c, has_payee t pay /\ seen refacct rts x c /\ (0 < dist pay x)%Qc /\
     (forall x' c', seen refacct rts x' c' -> (dist pay x' <= dist pay x)%Qc) /\ recounted refacct c t t').
(** How often payee [x] was booked against [c]. *)
Definition counterb (refacct c x : str) (t : trans) : bool :=
  match t with
  | [p; q] => str_eqb (p_payee p) x &&
      (if str_eqb (p_acct p) refacct then str_eqb (p_acct q) c else str_eqb (p_acct q) refacct && str_eqb (p_acct p) c)
  | _ => false
  end.
Definition times (refacct : str) (rts : list trans) (x c : str) : nat := length (filter (counterb refacct c x) rts).

(** ** Decimals: [q] can be shown exactly with [k] decimals. *)
Definition exact_in (k : Z) (q : Qc) : Prop := exists n : Z, (q * qz (10 ^ k))%Qc = qz n.
