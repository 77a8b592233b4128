(** * DateProofs: lemmas about the date model. *)
From Verif Require Import Base Dec Regex DateModel DateSpec.
From Coq Require Import ZifyBool ZifyNat Zify.
Ltac Zify.zify_post_hook ::= Z.to_euclidean_division_equations.

(** ** Fields of an encoded date *)
Lemma ymd_year y m d : 0 <= y -> 0 <= m < 100 -> 0 <= d < 100 -> Z.quot (ymd y m d) 10000 = y.
Proof. unfold ymd. intros. lia. Qed.
Lemma ymd_month y m d : 0 <= y -> 0 <= m < 100 -> 0 <= d < 100 -> Z.rem (Z.quot (ymd y m d) 100) 100 = m.
Proof.
  unfold ymd. intros Hy Hm Hd.
  replace (Z.quot (y * 10000 + m * 100 + d) 100) with (y * 100 + m) by lia. lia.
Qed.
Lemma ymd_day y m d : 0 <= y -> 0 <= m < 100 -> 0 <= d < 100 -> Z.rem (ymd y m d) 100 = d.
Proof. unfold ymd. intros. lia. Qed.

Lemma dim_bounds y m : 28 <= dim y m <= 31.
Proof. unfold dim. destruct (m =? 2); [destruct (leap y); lia|]. destruct (_ || _); lia. Qed.
Lemma valid_bounds y m d : valid_ymd y m d -> 0 <= y /\ 0 <= m < 100 /\ 0 <= d < 100.
Proof. unfold valid_ymd. pose proof (dim_bounds y m). lia. Qed.

Lemma ymd_inj y m d y' m' d' :
  valid_ymd y m d -> valid_ymd y' m' d' -> ymd y m d = ymd y' m' d' -> y = y' /\ m = m' /\ d = d'.
Proof.
  intros H H' E. apply valid_bounds in H. apply valid_bounds in H'. unfold ymd in E. lia.
Qed.

Lemma leap_model y : 1 <= y -> year_is_leap (y - 1) = leap y.
Proof.
  intros H. unfold year_is_leap, leap. replace (y - 1 + 1) with y by lia.
  rewrite !Z.rem_mod_nonneg by lia. reflexivity.
Qed.

(** Days before 1 January of year y+1 (y complete years). *)
Definition Dy (y : Z) : Z := 365 * y + y / 4 + y / 400 - y / 100.
Lemma Dy_succ y : Dy (y + 1) = Dy y + 365 + (if leap (y + 1) then 1 else 0).
Proof.
  unfold Dy, leap.
  destruct ((y + 1) mod 4 =? 0) eqn:E4; destruct ((y + 1) mod 100 =? 0) eqn:E1;
    destruct ((y + 1) mod 400 =? 0) eqn:E0; cbn [negb andb orb]; lia.
Qed.
Lemma Dy_mono a b : a <= b -> Dy a <= Dy b.
Proof. unfold Dy. intros. lia. Qed.

(** Days before the first of month m. *)
Definition cum (lp : bool) (m : Z) : Z :=
  let x := if lp then 1 else 0 in
  if m =? 1 then 0 else if m =? 2 then 31 else if m =? 3 then 59 + x else if m =? 4 then 90 + x
  else if m =? 5 then 120 + x else if m =? 6 then 151 + x else if m =? 7 then 181 + x
  else if m =? 8 then 212 + x else if m =? 9 then 243 + x else if m =? 10 then 273 + x
  else if m =? 11 then 304 + x else 334 + x.

Ltac months m H :=
  assert (m = 1 \/ m = 2 \/ m = 3 \/ m = 4 \/ m = 5 \/ m = 6 \/ m = 7 \/ m = 8 \/ m = 9 \/ m = 10
          \/ m = 11 \/ m = 12) as H by lia;
  destruct H as [H|[H|[H|[H|[H|[H|[H|[H|[H|[H|[H|H]]]]]]]]]]]; subst m.

Lemma month_loop_cum lp m days : 1 <= m <= 12 ->
  month_loop (Z.to_nat (m - 1)) 0 lp days = Ok (days + cum lp m).
Proof.
  intros Hm. months m Hc;
    match goal with |- context [Z.to_nat ?e] =>
      let n := eval vm_compute in (Z.to_nat e) in change (Z.to_nat e) with n end;
    cbn [month_loop nth_error monthDays Nat.eqb andb]; f_equal; unfold cum; destruct lp;
    cbn [Z.eqb Pos.eqb]; lia.
Qed.

Lemma cum_next y m : 1 <= m <= 11 -> cum (leap y) (m + 1) = cum (leap y) m + dim y m.
Proof. intros Hm. unfold cum, dim. assert (Hm' : 1 <= m <= 12) by lia. months m Hc; try lia; cbn; destruct (leap y); reflexivity. Qed.
Lemma cum_last y : cum (leap y) 12 + dim y 12 = 365 + (if leap y then 1 else 0).
Proof. unfold cum, dim. cbn. destruct (leap y); reflexivity. Qed.
Lemma cum_mono y m m' : 1 <= m -> m < m' -> m' <= 12 -> cum (leap y) m + dim y m <= cum (leap y) m'.
Proof.
  intros H1 H2 H3. unfold cum, dim. assert (Hm : 1 <= m <= 12) by lia. assert (Hm' : 1 <= m' <= 12) by lia.
  months m Hc; months m' Hc'; try lia; cbn; destruct (leap y); lia.
Qed.
Lemma cum_bound y m d : 1 <= m <= 12 -> 1 <= d <= dim y m ->
  0 <= cum (leap y) m + (d - 1) < 365 + (if leap y then 1 else 0).
Proof.
  intros Hm Hd. split.
  - unfold cum. months m Hc; cbn [Z.eqb Pos.eqb]; destruct (leap y); lia.
  - rewrite <- cum_last. destruct (Z.eq_dec m 12) as [->|]; [lia|].
    pose proof (cum_mono y m 12). pose proof (dim_bounds y 12). lia.
Qed.

(** Closed form of [as_days]. *)
Lemma as_days_closed y m d : valid_ymd y m d ->
  as_days (ymd y m d) = Ok (Dy (y - 1) + cum (leap y) m + (d - 1)).
Proof.
  intros H. pose proof (valid_bounds _ _ _ H) as (Hy & Hm & Hd). destruct H as (Hy1 & Hm1 & Hd1).
  unfold as_days. rewrite ymd_year, ymd_month, ymd_day by assumption.
  rewrite leap_model by exact Hy1. rewrite month_loop_cum by exact Hm1. cbn [obind]. f_equal.
  unfold Dy. rewrite !Z.quot_div_nonneg by lia. ring.
Qed.

Lemma as_days_mono y m d y' m' d' :
  valid_ymd y m d -> valid_ymd y' m' d' ->
  ymd y m d < ymd y' m' d' ->
  Dy (y - 1) + cum (leap y) m + (d - 1) < Dy (y' - 1) + cum (leap y') m' + (d' - 1).
Proof.
  intros H H' Hlt. pose proof (valid_bounds _ _ _ H). pose proof (valid_bounds _ _ _ H').
  destruct H as (Hy & Hm & Hd), H' as (Hy' & Hm' & Hd'). unfold ymd in Hlt.
  assert (y < y' \/ (y = y' /\ (m < m' \/ (m = m' /\ d < d')))) as [C|[-> [C|[-> C]]]] by lia.
  - pose proof (cum_bound y m d Hm Hd). pose proof (cum_bound y' m' d' Hm' Hd').
    pose proof (Dy_succ (y - 1)) as E. replace (y - 1 + 1) with y in E by lia.
    pose proof (Dy_mono y (y' - 1)). lia.
  - pose proof (cum_mono y' m m'). lia.
  - lia.
Qed.

Lemma as_days_tomorrow y m d : valid_ymd y m d ->
  valid_date (tomorrow y m d) /\
  exists n, as_days (ymd y m d) = Ok n /\ as_days (tomorrow y m d) = Ok (n + 1).
Proof.
  intros H. pose proof H as (Hy & Hm & Hd). unfold tomorrow.
  pose proof (dim_bounds y (m + 1)). pose proof (dim_bounds (y + 1) 1).
  destruct (Z.ltb_spec d (dim y m)); [|destruct (Z.ltb_spec m 12)].
  - assert (V : valid_ymd y m (d + 1)) by (unfold valid_ymd; lia).
    split; [exists y, m, (d + 1); auto|].
    eexists. split; [apply as_days_closed; exact H|]. rewrite as_days_closed by exact V. f_equal. lia.
  - assert (V : valid_ymd y (m + 1) 1) by (unfold valid_ymd; lia).
    split; [exists y, (m + 1), 1; auto|].
    eexists. split; [apply as_days_closed; exact H|]. rewrite as_days_closed by exact V. f_equal.
    rewrite cum_next by lia. lia.
  - assert (m = 12) by lia. subst m.
    assert (V : valid_ymd (y + 1) 1 1) by (unfold valid_ymd; lia).
    split; [exists (y + 1), 1, 1; auto|].
    eexists. split; [apply as_days_closed; exact H|]. rewrite as_days_closed by exact V. f_equal.
    pose proof (cum_last y). pose proof (Dy_succ (y - 1)) as E. replace (y - 1 + 1) with y in E by lia.
    replace (y + 1 - 1) with y by lia. change (cum (leap (y + 1)) 1) with 0. lia.
Qed.

(** ** GetDateFromDays *)
Lemma year_search_spec fuel : forall n y, 0 <= n -> 0 <= y -> n < Dy (y + 1) -> (Z.to_nat y < fuel)%nat ->
  exists y', 0 <= y' /\ Dy y' <= n < Dy (y' + 1) /\ year_search fuel n y = Ok (y', n - Dy y').
Proof.
  induction fuel as [|f IH]; intros n y Hn Hy Hlt Hf; [lia|].
  cbn [year_search].
  assert (Eq1 : y * 365 + (Z.quot y 4 + Z.quot y 400 - Z.quot y 100) = Dy y).
  { unfold Dy. rewrite !Z.quot_div_nonneg by lia. ring. }
  rewrite Eq1. destruct (Z.leb_spec (Dy y) n) as [Hle|Hgt].
  - exists y. repeat split; auto.
  - destruct (Z.eq_dec y 0) as [->|Hnz]; [cbn in Hgt; lia|].
    destruct (IH n (y - 1)) as (y' & Hy' & Hb & E); try lia.
    + replace (y - 1 + 1) with y by lia. exact Hgt.
    + exists y'. auto.
Qed.

Lemma month_search_spec y r : 1 <= y -> 0 <= r < 365 + (if leap y then 1 else 0) ->
  exists m d, valid_ymd y m d /\ r = cum (leap y) m + (d - 1)
              /\ month_search 12 0 (y - 1) r = Ok (m - 1, d - 1).
Proof.
  intros Hy Hr.
  assert (Hstep : forall n k, (n + k = 12)%nat -> (1 <= n)%nat ->
            forall r0, cum (leap y) (Z.of_nat k + 1) + r0 = r -> 0 <= r0 ->
            exists m d, valid_ymd y m d /\ r = cum (leap y) m + (d - 1)
              /\ month_search n k (y - 1) r0 = Ok (m - 1, d - 1)).
  { induction n as [|n IH]; intros k Hk Hn1 r0 Hr0 Hpos; [lia|].
    set (m := Z.of_nat k + 1) in *.
    assert (Hm : 1 <= m <= 12) by lia.
    assert (Ed : exists dm, nth_error monthDays k = Some dm /\
                 dm + (if Nat.eqb k 1 && year_is_leap (y - 1) then 1 else 0) = dim y m).
    { rewrite leap_model by exact Hy. subst m.
      assert (k = 0 \/ k = 1 \/ k = 2 \/ k = 3 \/ k = 4 \/ k = 5 \/ k = 6 \/ k = 7 \/ k = 8 \/ k = 9
              \/ k = 10 \/ k = 11)%nat as C by lia.
      destruct C as [C|[C|[C|[C|[C|[C|[C|[C|[C|[C|[C|C]]]]]]]]]]]; subst k; eexists; (split; [reflexivity|]);
        unfold dim; cbn; destruct (leap y); reflexivity. }
    destruct Ed as (dm & E1 & E2). cbn [month_search]. rewrite E1, E2.
    destruct (Z.ltb_spec r0 (dim y m)) as [Hlt|Hge].
    - exists m, (r0 + 1). repeat split; try lia. f_equal. f_equal; lia.
    - destruct (Z.eq_dec m 12) as [E12|Hn12].
      + exfalso. pose proof (cum_last y). rewrite E12 in *. lia.
      + apply IH; try lia.
        replace (Z.of_nat (S k) + 1) with (m + 1) by lia. rewrite cum_next by lia. lia. }
  apply (Hstep 12%nat 0%nat); try lia. cbn. lia.
Qed.

Lemma date_from_days_spec n : 0 <= n ->
  exists y m d, valid_ymd y m d /\ date_from_days n = Ok (ymd y m d) /\ as_days (ymd y m d) = Ok n.
Proof.
  intros Hn. unfold date_from_days.
  rewrite (Z.quot_div_nonneg n 365) by lia.
  destruct (year_search_spec (Z.to_nat (Z.abs n) / 365 + 2) n (n / 365)) as (y & Hy & Hb & E); try lia.
  { pose proof (Dy_mono (n / 365 + 1) (n / 365 + 1)). unfold Dy. lia. }
  rewrite E. cbn [obind].
  destruct (month_search_spec (y + 1) (n - Dy y)) as (m & d & V & Hr & E2); try lia.
  { rewrite Dy_succ in Hb. lia. }
  replace (y + 1 - 1) with y in E2 by lia. rewrite E2. cbn [obind].
  exists (y + 1), m, d. split; [exact V|]. split.
  - unfold get_date, ymd. f_equal. lia.
  - rewrite as_days_closed by exact V. f_equal. replace (y + 1 - 1) with y by lia. lia.
Qed.

Lemma as_days_ok D : valid_date D -> exists n, as_days D = Ok n /\ 0 <= n.
Proof.
  intros (y & m & d & V & ->). eexists. split; [apply as_days_closed; exact V|].
  destruct V as (Hy & Hm & Hd). pose proof (cum_bound y m d Hm Hd). pose proof (Dy_mono 0 (y - 1)).
  change (Dy 0) with 0 in *. lia.
Qed.
Lemma as_days_lt D D' n n' : valid_date D -> valid_date D' -> as_days D = Ok n -> as_days D' = Ok n' ->
  D < D' -> n < n'.
Proof.
  intros (y & m & d & V & ->) (y' & m' & d' & V' & ->) E E' Hlt.
  rewrite as_days_closed in E by exact V. rewrite as_days_closed in E' by exact V'.
  injection E as <-. injection E' as <-. apply as_days_mono; assumption.
Qed.
Lemma as_days_iff D D' n n' : valid_date D -> valid_date D' -> as_days D = Ok n -> as_days D' = Ok n' ->
  (D < D' <-> n < n') /\ (D = D' <-> n = n').
Proof.
  intros V V' E E'.
  pose proof (as_days_lt D D' n n' V V' E E') as H1.
  pose proof (as_days_lt D' D n' n V' V E' E) as H2.
  destruct (Z.lt_trichotomy D D') as [C|[C|C]].
  - specialize (H1 C). lia.
  - subst D'. rewrite E in E'. injection E' as ->. lia.
  - specialize (H2 C). lia.
Qed.
Lemma date_from_days_valid n : 0 <= n ->
  exists D, date_from_days n = Ok D /\ valid_date D /\ as_days D = Ok n.
Proof.
  intros Hn. destruct (date_from_days_spec n Hn) as (y & m & d & V & E & Ea).
  exists (ymd y m d). repeat split; auto. exists y, m, d. auto.
Qed.
Lemma date_roundtrip D : valid_date D -> obind (as_days D) date_from_days = Ok D.
Proof.
  intros V. destruct (as_days_ok D V) as (n & E & Hn). rewrite E. cbn [obind].
  destruct (date_from_days_valid n Hn) as (D' & E' & V' & Ea).
  rewrite E'. f_equal. apply (as_days_iff D' D n n V' V Ea E). reflexivity.
Qed.

(** ** Day arithmetic *)
Lemma add_days_spec D n a : valid_date D -> as_days D = Ok a -> 0 <= a + n ->
  exists E, add_days D n = Ok E /\ valid_date E /\ days_since E D = Ok n.
Proof.
  intros V Ea Hn. unfold add_days. rewrite Ea. cbn [obind].
  destruct (date_from_days_valid (a + n) Hn) as (E & H1 & H2 & H3).
  exists E. repeat split; auto. unfold days_since. rewrite H3, Ea. cbn. f_equal. lia.
Qed.
Lemma add_days_since D E : valid_date D -> valid_date E ->
  exists n, days_since E D = Ok n /\ add_days D n = Ok E.
Proof.
  intros V V'. destruct (as_days_ok D V) as (a & Ea & Ha). destruct (as_days_ok E V') as (b & Eb & Hb).
  exists (b - a). unfold days_since, add_days. rewrite Ea, Eb. cbn. split; [reflexivity|].
  replace (a + (b - a)) with b by lia. pose proof (date_roundtrip E V') as H. rewrite Eb in H. exact H.
Qed.
Lemma add_days_compose D m n a : valid_date D -> as_days D = Ok a -> 0 <= a + m -> 0 <= a + m + n ->
  obind (add_days D m) (fun D' => add_days D' n) = add_days D (m + n).
Proof.
  intros V Ea H1 H2. unfold add_days at 1. rewrite Ea. cbn [obind].
  destruct (date_from_days_valid (a + m) H1) as (E & H3 & H4 & H5). rewrite H3. cbn [obind].
  unfold add_days. rewrite Ea, H5. cbn [obind]. f_equal. lia.
Qed.

(** ** Flooring *)
Lemma norm_up_spec fuel : forall y m, (Z.to_nat (Z.abs m) < fuel)%nat ->
  norm_up fuel y m = if 11 <? m then (y + m / 12, m mod 12) else (y, m).
Proof.
  induction fuel as [|f IH]; intros y m Hf; [lia|].
  cbn [norm_up]. destruct (Z.ltb_spec 11 m); [|reflexivity].
  rewrite IH by lia. destruct (Z.ltb_spec 11 (m - 12)); f_equal; lia.
Qed.
Lemma norm_down_spec fuel : forall y m, (Z.to_nat (- m) < fuel)%nat ->
  norm_down fuel y m = if m <? 0 then (y + m / 12, m mod 12) else (y, m).
Proof.
  induction fuel as [|f IH]; intros y m Hf; [lia|].
  cbn [norm_down]. destruct (Z.ltb_spec m 0); [|reflexivity].
  rewrite IH by lia. destruct (Z.ltb_spec (m + 12) 0); f_equal; lia.
Qed.
Lemma norm_month_spec y m : norm_month y m = (y + m / 12, m mod 12).
Proof.
  unfold norm_month. rewrite norm_up_spec by lia.
  destruct (Z.ltb_spec 11 m); rewrite norm_down_spec by lia.
  - destruct (Z.ltb_spec (m mod 12) 0); f_equal; lia.
  - destruct (Z.ltb_spec m 0); f_equal; lia.
Qed.
(** The two loops end because their condition is false, never because fuel runs out. *)
Lemma norm_up_exit y m : let r := norm_up (S (Z.to_nat (Z.abs m))) y m in snd r <= 11.
Proof. cbv zeta. rewrite norm_up_spec by lia. destruct (Z.ltb_spec 11 m); cbn [snd]; lia. Qed.
Lemma norm_down_exit y m : let r := norm_down (S (Z.to_nat (Z.abs m))) y m in 0 <= snd r.
Proof. cbv zeta. rewrite norm_down_spec by lia. destruct (Z.ltb_spec m 0); cbn [snd]; lia. Qed.

Lemma floor_month_spec y m d n : 0 <= y -> 0 <= m < 100 -> 0 <= d < 100 ->
  floor_month (ymd y m d) n = month_start (month_index y m + n).
Proof.
  intros Hy Hm Hd. unfold floor_month. rewrite ymd_year, ymd_month by assumption.
  rewrite norm_month_spec. unfold month_start, month_index, ymd.
  replace ((12 * y + (m - 1) + n) / 12) with (y + (m - 1 + n) / 12) by lia.
  replace ((12 * y + (m - 1) + n) mod 12) with ((m - 1 + n) mod 12) by lia. reflexivity.
Qed.
Lemma floor_quarter_spec y m d n : 0 <= y -> 1 <= m < 100 -> 0 <= d < 100 ->
  floor_quarter (ymd y m d) n = quarter_start (quarter_index y m + n).
Proof.
  intros Hy Hm Hd. unfold floor_quarter. rewrite ymd_year, ymd_month by lia.
  rewrite norm_month_spec. unfold quarter_start, quarter_index, ymd.
  rewrite (Z.quot_div_nonneg (m - 1) 3) by lia.
  set (q := (m - 1) / 3).
  replace ((4 * y + q + n) / 4) with (y + (q + n) * 3 / 12) by lia.
  replace ((q + n) * 3 mod 12) with (3 * ((4 * y + q + n) mod 4)) by lia. reflexivity.
Qed.
Lemma floor_year_spec y m d n : 0 <= y -> 0 <= m < 100 -> 0 <= d < 100 ->
  floor_year (ymd y m d) n = year_start (y + n).
Proof. intros Hy Hm Hd. unfold floor_year. rewrite ymd_year by assumption.
  unfold year_start, ymd. ring. Qed.
