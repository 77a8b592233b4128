(** * DateSpec: the (proleptic) Gregorian calendar, independently of the code. *)
From Verif Require Import Base.

Definition leap (y : Z) : bool := (y mod 4 =? 0) && (negb (y mod 100 =? 0) || (y mod 400 =? 0)).

(** Days in month m of year y. *)
Definition dim (y m : Z) : Z :=
  if m =? 2 then (if leap y then 29 else 28)
  else if (m =? 4) || (m =? 6) || (m =? 9) || (m =? 11) then 30 else 31.

Definition valid_ymd (y m d : Z) : Prop := 1 <= y /\ 1 <= m <= 12 /\ 1 <= d <= dim y m.

(** A date is written YYYYMMDD. *)
Definition ymd (y m d : Z) : Z := y * 10000 + m * 100 + d.
Definition valid_date (D : Z) : Prop := exists y m d, valid_ymd y m d /\ D = ymd y m d.

(** The calendar day after (y, m, d). *)
Definition tomorrow (y m d : Z) : Z :=
  if d <? dim y m then ymd y m (d + 1)
  else if m <? 12 then ymd y (m + 1) 1
  else ymd (y + 1) 1 1.

(** Period starts: months and quarters are counted from year 0, so "n periods later" is addition. *)
Definition month_start (k : Z) : Z := ymd (k / 12) (k mod 12 + 1) 1.
Definition quarter_start (k : Z) : Z := ymd (k / 4) (3 * (k mod 4) + 1) 1.
Definition year_start (k : Z) : Z := ymd k 1 1.
Definition month_index (y m : Z) : Z := 12 * y + (m - 1).
Definition quarter_index (y m : Z) : Z := 4 * y + (m - 1) / 3.

(** The three real period kinds: index of the period containing a day, and its first day. *)
Inductive period := Yearly | Quarterly | Monthly.
Definition period_name (p : period) : str :=
  match p with Yearly => bs "yearly" | Quarterly => bs "quarterly" | Monthly => bs "monthly" end.
Definition period_index (p : period) (y m : Z) : Z :=
  match p with Yearly => y | Quarterly => quarter_index y m | Monthly => month_index y m end.
Definition period_start (p : period) (k : Z) : Z :=
  match p with Yearly => year_start k | Quarterly => quarter_start k | Monthly => month_start k end.
