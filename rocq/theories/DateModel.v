(** * DateModel: /repo/book/date.go (dates as YYYYMMDD integers).

    [Date] and [int] are unbounded [Z] here: overflow of Go's 64-bit int is not modelled (a date would
    need more than 14 digits of year). Go's [/] and [%] truncate: [Z.quot], [Z.rem]. *)
From Verif Require Import Base Dec Regex.

(** date.go:162-163 [monthDays] *)
Definition monthDays : list Z := [31; 28; 31; 30; 31; 30; 31; 31; 30; 31; 30; 31].

(** date.go:232-235 [YearIsLeapYear]; the year is zero based. *)
Definition year_is_leap (year : Z) : bool :=
  (Z.rem (year + 1) 4 =? 0) && (negb (Z.rem (year + 1) 100 =? 0) || (Z.rem (year + 1) 400 =? 0)).

(** date.go:214-224, 245-256: the loop [for i := 0; i < month; i++] over [monthDays[i]]; an index of 12
    or more is a Go panic. [n] is the number of iterations left. *)
Fixpoint month_loop (n i : nat) (leap : bool) (days : Z) : outcome Z :=
  match n with
  | O => Ok days
  | S n' => match nth_error monthDays i with
            | None => Panic
            | Some m => month_loop n' (S i) leap (days + m + (if Nat.eqb i 1 && leap then 1 else 0))
            end
  end.

(** date.go:205-230 [Date.AsDays] *)
Definition as_days (date : Z) : outcome Z :=
  let year := Z.quot date 10000 - 1 in
  let month := Z.rem (Z.quot date 100) 100 - 1 in
  let day := Z.rem date 100 - 1 in
  let days := year * 365 + Z.quot year 4 + Z.quot year 400 - Z.quot year 100 in
  do days' <- month_loop (Z.to_nat month) 0 (year_is_leap year) days;
  Ok (days' + day).

(** date.go:149-152 [GetDate] *)
Definition get_date (year month day : Z) : Z := year * 10000 + month * 100 + day.

(** date.go:167-176: search for the year *)
Fixpoint year_search (fuel : nat) (days year : Z) : outcome (Z * Z) :=
  match fuel with
  | O => Diverge
  | S f => let leapDays := Z.quot year 4 + Z.quot year 400 - Z.quot year 100 in
           if year * 365 + leapDays <=? days then Ok (year, days - (year * 365 + leapDays))
           else year_search f days (year - 1)
  end.

(** date.go:178-200: subtract the months. [n] = 12 - month; running past the array is a panic. *)
Fixpoint month_search (n : nat) (month : nat) (year days : Z) : outcome (Z * Z) :=
  match nth_error monthDays month with
  | None => Panic
  | Some dm =>
      let daysInMonth := dm + (if Nat.eqb month 1 && year_is_leap year then 1 else 0) in
      if days <? daysInMonth then Ok (Z.of_nat month, days)
      else match n with
           | O => Panic
           | S n' => month_search n' (S month) year (days - daysInMonth)
           end
  end.

(** date.go:165-203 [GetDateFromDays] *)
Definition date_from_days (days : Z) : outcome Z :=
  do (year, rest) <- year_search (Z.to_nat (Z.abs days) / 365 + 2)%nat days (Z.quot days 365);
  do (month, day) <- month_search 12 0 year rest;
  Ok (get_date (year + 1) (month + 1) (day + 1)).

(** date.go:154-156 [DaysSince], 158-160 [AddDays] *)
Definition days_since (d d2 : Z) : outcome Z := do a <- as_days d; do b <- as_days d2; Ok (a - b).
Definition add_days (d n : Z) : outcome Z := do a <- as_days d; date_from_days (a + n).

(** date.go:50-57, 68-75: the two normalising loops of FloorMonth and FloorQuarter.
    Fuel is |month|+1; [norm_up_exit]/[norm_down_exit] in DateProofs show it is never exhausted. *)
Fixpoint norm_up (fuel : nat) (year month : Z) : Z * Z :=
  match fuel with
  | O => (year, month)
  | S f => if 11 <? month then norm_up f (year + 1) (month - 12) else (year, month)
  end.
Fixpoint norm_down (fuel : nat) (year month : Z) : Z * Z :=
  match fuel with
  | O => (year, month)
  | S f => if month <? 0 then norm_down f (year - 1) (month + 12) else (year, month)
  end.
Definition norm_month (year month : Z) : Z * Z :=
  let '(y, m) := norm_up (S (Z.to_nat (Z.abs month))) year month in
  norm_down (S (Z.to_nat (Z.abs m))) y m.

(** date.go:39-41 [FloorYear] *)
Definition floor_year (date diff : Z) : Z := (Z.quot date 10000 + diff) * 10000 + 101.

(** date.go:47-59 [FloorMonth] *)
Definition floor_month (date diff : Z) : Z :=
  let year := Z.quot date 10000 in
  let month := Z.rem (Z.quot date 100) 100 - 1 + diff in
  let '(y, m) := norm_month year month in
  y * 10000 + (m + 1) * 100 + 1.

(** date.go:65-77 [FloorQuarter] *)
Definition floor_quarter (date diff : Z) : Z :=
  let year := Z.quot date 10000 in
  let month := (Z.quot (Z.rem (Z.quot date 100) 100 - 1) 3 + diff) * 3 in
  let '(y, m) := norm_month year month in
  y * 10000 + (m + 1) * 100 + 1.

(** date.go:25-37 [FloorDiff]; [today] is the value of GetToday() (date.go:144-147). *)
Definition floor_diff (today : Z) (date : Z) (by_ : str) (diff : Z) : Z :=
  if str_eqb by_ (bs "yearly") then floor_year date diff
  else if str_eqb by_ (bs "quarterly") then floor_quarter date diff
  else if str_eqb by_ (bs "monthly") then floor_month date diff
  else if str_eqb by_ (bs "today") then today
  else date.
(** date.go:21-23 [Floor] *)
Definition floor (today date : Z) (by_ : str) : Z := floor_diff today date by_ 0.

(** date.go:271-276 [Date.String] *)
Definition date_string (date : Z) : str :=
  if date =? 0 then repeat 32 10
  else fmt_0d 4 (Z.quot date 10000) ++ [47] ++ fmt_0d 2 (Z.rem (Z.quot date 100) 100)
       ++ [47] ++ fmt_0d 2 (Z.rem date 100).

(** strconv.Atoi: optional sign, at least one digit, 64-bit range; [None] is the error. *)
Definition atoi (s : str) : option Z :=
  let '(neg, ds) := match s with
                    | c :: r => if c =? 45 then (true, r) else if c =? 43 then (false, r) else (false, s)
                    | [] => (false, s)
                    end in
  match ds with
  | [] => None
  | _ => if forallb is_dig ds
         then let v := if neg then - digval ds else digval ds in
              if (- 2 ^ 63 <=? v) && (v <? 2 ^ 63) then Some v else None
         else None
  end.
(** [x, _ := strconv.Atoi(s)]: 0 on a syntax error. (A range error, where Go yields the extreme value,
    needs more digits than the patterns allow.) *)
Definition atoi0 (s : str) : Z := match atoi s with Some v => v | None => 0 end.

(** date.go:79-81 the three patterns *)
Definition r_digit : re := RCls is_dig.
Definition r_sep : re := RCls (fun c => (c =? 45) || (c =? 47) || (c =? 46)).
Definition r_d12 : re := RSeq (ROpt r_digit) r_digit.
Definition r_d4 : re := RSeq r_digit (RSeq r_digit (RSeq r_digit r_digit)).
Definition dateYYYYMMDD : re :=
  RSeq (RCap 1 r_d4) (RSeq (ROpt r_sep) (RSeq (ROpt (RCap 2 r_d12)) (RSeq (ROpt r_sep) (ROpt (RCap 3 r_d12))))).
Definition dateDDMMYYYY : re :=
  RSeq (RCap 1 r_d12) (RSeq (ROpt r_sep) (RSeq (RCap 2 r_d12) (RSeq (ROpt r_sep) (RCap 3 r_d4)))).
Definition date_desc_re : re :=
  RSeq (RCap 1 (RAlt (RLit (bs "this")) (RAlt (RLit (bs "last")) (RLit (bs "next")))))
  (RSeq (RPlus (fun c => (c =? 46) || (c =? 95) || (c =? 32) || (c =? 9)))
        (RCap 2 (RAlt (RLit (bs "month")) (RAlt (RLit (bs "year")) (RLit (bs "quarter")))))).

(** date.go:92-142 [DateFromString] *)
Definition date_from_string (today : Z) (s : str) : Z :=
  match full_match dateYYYYMMDD s with
  | Some mat =>
      let year := atoi0 (group mat 1) in
      let month := atoi0 (group mat 2) in
      let month := if month =? 0 then 1 else month in
      let day := atoi0 (group mat 3) in
      let day := if day =? 0 then 1 else day in
      year * 10000 + month * 100 + day
  | None =>
  match full_match dateDDMMYYYY s with
  | Some mat => atoi0 (group mat 3) * 10000 + atoi0 (group mat 2) * 100 + atoi0 (group mat 1)
  | None =>
  match full_match date_desc_re s with
  | Some mat =>
      let diff := if str_eqb (group mat 1) (bs "last") then -1
                  else if str_eqb (group mat 1) (bs "next") then 1 else 0 in
      if str_eqb (group mat 2) (bs "year") then floor_year today diff
      else if str_eqb (group mat 2) (bs "quarter") then floor_quarter today diff
      else if str_eqb (group mat 2) (bs "month") then floor_month today diff
      else today
  | None => match atoi s with Some v => v | None => 0 end
  end end end.

(** date.go:238-264 [AsYears]. The result is a float64: [rnd] is the rounding of a real to a float64
    (date.go:263: one rounded division, one rounded addition; the integers involved are exact). *)
Definition as_years (rnd : Qc -> Qc) (date : Z) : outcome Qc :=
  let year := Z.quot date 10000 - 1 in
  let month := Z.rem (Z.quot date 100) 100 - 1 in
  let leap := year_is_leap year in
  do day <- month_loop (Z.to_nat month) 0 leap 0;
  let daysInYear := if leap then 366 else 365 in
  Ok (rnd (qz year + rnd (qz day / qz daysInYear))%Qc).
