(** * ScriptSpec: what an add() call of a script means, from the user's side. *)
From Verif Require Import Base DateModel BookModel BookSpec ScriptModel.

(** The number an amount argument stands for. *)
Inductive amount (set_string : str -> option Qc) : value -> Qc -> Prop :=
| am_float q : amount set_string (VFloat (Some q)) q
| am_int z : amount set_string (VInt z) (qz z)
| am_str s q : set_string s = Some q -> amount set_string (VStr s) q.
(** The amounts that are not numbers and are reported as such. *)
Definition bad_amount (set_string : str -> option Qc) (v : value) : Prop :=
  v = VOther \/ exists s, v = VStr s /\ set_string s = None.

(** One posting: account, currency, amount. *)
Definition leg : Type := str * str * Qc.
Definition pair_of (acct cacct ccy : str) (v : Qc) : list leg := [(acct, ccy, v); (cacct, ccy, (- v)%Qc)].

Section Meaning.
  Variable set_string : str -> option Qc.
  Variable def : defaults.
  Definition choose (o : option str) (d : str) : str := match o with Some x => x | None => d end.
  Definition divisor (o : option Z) : Z := match o with Some x => x | None => 1 end.
  Definition counter (a : args) : str := choose (a_caccount a) (d_counter def).

  (** The entry of an add() call: its amount, divided by the denominator, on the account and against the counter
      account; with a second amount and account also that amount, in its own currency, against the counter account. *)
  Definition single (a : args) : Prop := a_amt2 a = VNone /\ a_account2 a = [].
  Inductive entry : args -> list leg -> Prop :=
  | en_one a v : amount set_string (a_amt a) v -> divisor (a_denom a) <> 0 -> single a ->
      entry a (pair_of (choose (a_account a) (d_account def)) (counter a) (choose (a_ccy a) (d_ccy def))
                       (v / qz (divisor (a_denom a)))%Qc)
  | en_two a v w : amount set_string (a_amt a) v -> divisor (a_denom a) <> 0 -> ~ single a ->
      amount set_string (a_amt2 a) w -> divisor (a_denom2 a) <> 0 ->
      entry a (pair_of (choose (a_account a) (d_account def)) (counter a) (choose (a_ccy a) (d_ccy def))
                       (v / qz (divisor (a_denom a)))%Qc
               ++ pair_of (a_account2 a) (counter a) (choose (a_ccy2 a) (d_ccy def))
                       (w / qz (divisor (a_denom2 a)))%Qc).

  (** Non-finite floats count as zero in this program; [finite] excludes them. *)
  Definition finite (a : args) : Prop := a_amt a <> VFloat None /\ a_amt2 a <> VFloat None.

  (** Calls that end the whole program instead of being reported. *)
  Definition crashes (today : Z) (a : args) : Prop :=
    date_from_string today (a_date a) <> 0 /\ ~ bad_amount set_string (a_amt a) /\
    (a_amt a = VNone \/ divisor (a_denom a) = 0 \/
     (~ single a /\ ~ bad_amount set_string (a_amt2 a) /\ (a_amt2 a = VNone \/ divisor (a_denom2 a) = 0))).
  (** Calls that are reported as an error. *)
  Definition rejected (today : Z) (a : args) : Prop :=
    date_from_string today (a_date a) = 0 \/ bad_amount set_string (a_amt a) \/
    (a_amt a <> VNone /\ divisor (a_denom a) <> 0 /\ bad_amount set_string (a_amt2 a)).

  Definition legs_total (g : str -> str -> bool) (ls : list leg) : Qc :=
    qsum (map snd (filter (fun '(a, c, _) => g a c) ls)).
End Meaning.
