(** * DateProps: properties C25-C29 and C65. Only theorems; proofs are in DateProofs*. *)
From Verif Require Import Base Dec Regex DateModel DateSpec DateProofs DateProofs2.

(** C25. AsDays numbers the days of the calendar consecutively from 0001-01-01 = 0 ... *)
Theorem C25_as_days_counts_days :
  as_days 10101 = Ok 0 /\
  (forall y m d, valid_ymd y m d ->
     valid_date (tomorrow y m d) /\
     exists n, as_days (ymd y m d) = Ok n /\ as_days (tomorrow y m d) = Ok (n + 1)) /\
  (forall D D' n n', valid_date D -> valid_date D' -> as_days D = Ok n -> as_days D' = Ok n' ->
     (D < D' <-> n < n') /\ (D = D' <-> n = n')) /\
  (forall D, valid_date D -> exists n, as_days D = Ok n /\ 0 <= n).
Proof. exact (conj eq_refl (conj as_days_tomorrow (conj as_days_iff as_days_ok))). Qed.
Print Assumptions C25_as_days_counts_days.

(** ... and GetDateFromDays is its inverse, total on the natural numbers. *)
Theorem C25_date_from_days_inverse :
  (forall D, valid_date D -> obind (as_days D) date_from_days = Ok D) /\
  (forall n, 0 <= n -> exists D, date_from_days n = Ok D /\ valid_date D /\ as_days D = Ok n).
Proof. exact (conj date_roundtrip date_from_days_valid). Qed.
Print Assumptions C25_date_from_days_inverse.

Example C25_nonvacuous : valid_date 20240229 /\ tomorrow 2024 2 29 = 20240301 /\ as_days 20240229 = Ok 738944
  /\ ~ valid_date 20230229.
Proof.
  split; [exists 2024, 2, 29; cbv; intuition congruence|]. split; [reflexivity|]. split; [reflexivity|].
  intros (y & m & d & V & E). pose proof (valid_bounds _ _ _ V) as B.
  assert (y = 2023 /\ m = 2 /\ d = 29) as (-> & -> & ->) by (unfold ymd in E; lia).
  destruct V as (_ & _ & _ & V). cbv in V. congruence.
Qed.

(** C26. Day arithmetic; [a] is the day number of D, so [0 <= a + n] says "not before 0001-01-01". *)
Theorem C26_day_arithmetic :
  (forall D n a, valid_date D -> as_days D = Ok a -> 0 <= a + n ->
     exists E, add_days D n = Ok E /\ valid_date E /\ days_since E D = Ok n) /\
  (forall D E, valid_date D -> valid_date E ->
     exists n, days_since E D = Ok n /\ add_days D n = Ok E) /\
  (forall D m n a, valid_date D -> as_days D = Ok a -> 0 <= a + m -> 0 <= a + m + n ->
     obind (add_days D m) (fun D' => add_days D' n) = add_days D (m + n)).
Proof. exact (conj add_days_spec (conj add_days_since add_days_compose)). Qed.
Print Assumptions C26_day_arithmetic.

Example C26_nonvacuous : add_days 20231231 60 = Ok 20240229 /\ days_since 20240229 20231231 = Ok 60.
Proof. split; reflexivity. Qed.

(** C27. FloorDiff(by, n) is the first day of the n-th following period; Floor is idempotent, monotone,
    not after the date, and the date lies before the start of the next period. *)
Theorem C27_floor :
  (forall today p y m d n, valid_ymd y m d ->
     floor_diff today (ymd y m d) (period_name p) n = period_start p (period_index p y m + n)) /\
  (forall today p D, valid_date D ->
     floor today D (period_name p) <= D < floor_diff today D (period_name p) 1) /\
  (forall today p D, valid_date D ->
     valid_date (floor today D (period_name p)) /\
     floor today (floor today D (period_name p)) (period_name p) = floor today D (period_name p)) /\
  (forall today p D D', valid_date D -> valid_date D' -> D <= D' ->
     floor today D (period_name p) <= floor today D' (period_name p)).
Proof.
  exact (conj (fun today p y m d n V => floor_diff_spec today p y m d n
                 (proj1 (valid_bounds _ _ _ V))
                 (conj (proj1 (proj1 (proj2 V))) (proj2 (proj1 (proj2 (valid_bounds _ _ _ V)))))
                 (proj2 (proj2 (valid_bounds _ _ _ V))))
        (conj floor_le (conj floor_idem floor_mono))).
Qed.
Print Assumptions C27_floor.

Example C27_nonvacuous :
  floor 0 20240229 (bs "quarterly") = 20240101 /\ floor_diff 0 20240229 (bs "monthly") (-14) = 20221201 /\
  floor_diff 0 20241130 (bs "quarterly") 1 = 20250101 /\ floor_diff 0 20241130 (bs "yearly") 3 = 20270101.
Proof. repeat split. Qed.

(** C28. *)
Theorem C28_date_string_roundtrip :
  (forall today D, valid_date D -> D < 100000000 -> date_from_string today (date_string D) = D) /\
  (forall D D', valid_date D -> valid_date D' -> D < 100000000 -> D' < 100000000 ->
     date_string D = date_string D' -> D = D').
Proof.
  exact (conj date_string_roundtrip
    (fun D D' V V' L L' E => eq_trans (eq_sym (date_string_roundtrip 0 D V L))
       (eq_trans (f_equal (date_from_string 0) E) (date_string_roundtrip 0 D' V' L')))).
Qed.
Print Assumptions C28_date_string_roundtrip.

Example C28_nonvacuous : date_string 20240229 = bs "2024/02/29" /\ date_from_string 0 (bs "2024/02/29") = 20240229
  /\ date_from_string 0 (bs "0001-01-01") = 10101.
Proof. repeat split. Qed.

(** C29. "DateFromString yields a real calendar date or 0" is false: month and day are not checked, eight
    digits in DDMMYYYY order are read as YYYYMMDD, and any integer is taken as a date. *)
Theorem C29_date_from_string_refuted :
  exists s, date_from_string 20240101 s <> 0 /\ ~ valid_date (date_from_string 20240101 s).
Proof.
  exists (bs "2024-13-45"). split; [vm_compute; congruence|].
  change (date_from_string 20240101 (bs "2024-13-45")) with 20241345.
  exact (fun '(ex_intro _ y (ex_intro _ m (ex_intro _ d (conj V E)))) =>
           ltac:(pose proof (valid_bounds _ _ _ V) as B; destruct V as (H1 & H2 & H3); unfold ymd in E; lia)).
Qed.
Print Assumptions C29_date_from_string_refuted.
Example C29_more_witnesses :
  date_from_string 20240101 (bs "31122024") = 31122024 (* 31.12.2024 read as year 3112, month 20 *)
  /\ date_from_string 20240101 (bs "-7") = -7.
Proof. split; reflexivity. Qed.

(** What does hold: YYYY-MM-DD with any of the separators - / . is read as exactly these fields, so a
    real date is read as that real date. Missing: rejection of the others (false). *)
Theorem C29_separated_dates_partial :
  forall today y m d s1 s2, valid_ymd y m d -> y < 10000 ->
    (s1 = 45 \/ s1 = 46 \/ s1 = 47) -> (s2 = 45 \/ s2 = 46 \/ s2 = 47) ->
    date_from_string today (fmt_0d 4 y ++ [s1] ++ fmt_0d 2 m ++ [s2] ++ fmt_0d 2 d) = ymd y m d.
Proof.
  exact (fun today y m d s1 s2 V L H1 H2 =>
    date_from_string_ymd today y m d s1 s2
      ltac:(destruct V; lia) ltac:(pose proof (valid_bounds _ _ _ V); destruct V as (_ & ? & _); lia)
      ltac:(pose proof (valid_bounds _ _ _ V); destruct V as (_ & _ & ?); lia)
      ltac:(destruct H1 as [->|[->| ->]]; reflexivity) ltac:(destruct H2 as [->|[->| ->]]; reflexivity)).
Qed.
Print Assumptions C29_separated_dates_partial.

(** C65. AsYears is non-decreasing, for every monotone rounding of the float64 arithmetic that keeps 0 and 1. *)
Theorem C65_as_years_monotone_partial :
  forall rnd D D', rounding rnd -> valid_date D -> valid_date D' -> D <= D' ->
  exists a b, as_years rnd D = Ok a /\ as_years rnd D' = Ok b /\ (a <= b)%Qc.
Proof. exact as_years_mono. Qed.
Print Assumptions C65_as_years_monotone_partial.
(** The day of the month is dropped (date.go:246 resets [day]): all days of a month get the same value. *)
Theorem C65_as_years_refuted :
  exists D D', valid_date D /\ valid_date D' /\ D < D' /\ forall rnd, as_years rnd D = as_years rnd D'.
Proof.
  exists 20200105, 20200120.
  assert (V1 : valid_ymd 2020 1 5) by (cbv; intuition congruence).
  assert (V2 : valid_ymd 2020 1 20) by (cbv; intuition congruence).
  split; [exists 2020, 1, 5; auto|]. split; [exists 2020, 1, 20; auto|]. split; [reflexivity|].
  exact (fun rnd => as_years_ignores_day rnd 2020 1 5 20 V1 V2).
Qed.
Print Assumptions C65_as_years_refuted.
Example C65_nonvacuous : rounding (fun q => q).
Proof. repeat split; auto. Qed.
