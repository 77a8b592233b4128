(** * DateProofs2: flooring laws, printing and reading dates, AsYears. *)
From Verif Require Import Base Dec Regex DateModel DateSpec DateProofs.
From Coq Require Import ZifyBool ZifyNat Zify.
Ltac Zify.zify_post_hook ::= Z.to_euclidean_division_equations.

Lemma floor_diff_spec today p y m d n : 0 <= y -> 1 <= m < 100 -> 0 <= d < 100 ->
  floor_diff today (ymd y m d) (period_name p) n = period_start p (period_index p y m + n).
Proof.
  intros Hy Hm Hd. destruct p; unfold floor_diff; cbn -[floor_year floor_quarter floor_month].
  - apply floor_year_spec; lia.
  - apply floor_quarter_spec; lia.
  - apply floor_month_spec; lia.
Qed.

Lemma period_start_fields p k : exists y m, 1 <= m <= 12 /\ period_start p k = ymd y m 1
  /\ (0 <= k -> 0 <= y) /\ period_index p y m = k.
Proof.
  destruct p; cbn [period_start period_index].
  - exists k, 1. unfold year_start. repeat split; lia.
  - exists (k / 4), (3 * (k mod 4) + 1). unfold quarter_start, quarter_index. repeat split; try lia.
  - exists (k / 12), (k mod 12 + 1). unfold month_start, month_index. repeat split; try lia.
Qed.
Lemma period_start_mono p k k' : k < k' -> period_start p k < period_start p k'.
Proof.
  intros H. destruct p; cbn [period_start]; unfold year_start, quarter_start, month_start, ymd; try lia.
Qed.
Lemma period_start_valid p y m d n : valid_ymd y m d -> 1 <= (period_start p (period_index p y m + n)) / 10000 ->
  valid_date (period_start p (period_index p y m + n)).
Proof.
  intros V H. destruct (period_start_fields p (period_index p y m + n)) as (y' & m' & Hm' & E & _ & _).
  rewrite E in *. exists y', m', 1. split; [|reflexivity].
  pose proof (dim_bounds y' m'). unfold valid_ymd. unfold ymd in H. lia.
Qed.
Lemma period_index_mono p y m d y' m' d' : valid_ymd y m d -> valid_ymd y' m' d' ->
  ymd y m d <= ymd y' m' d' -> period_index p y m <= period_index p y' m'.
Proof.
  intros V V' H. apply valid_bounds in V as B. apply valid_bounds in V' as B'.
  destruct V as (Hy & Hm & Hd), V' as (Hy' & Hm' & Hd'). unfold ymd in H.
  assert (y < y' \/ (y = y' /\ m <= m')) as [C|[-> C]] by lia;
  destruct p; cbn [period_index]; unfold quarter_index, month_index; lia.
Qed.
Lemma period_contains p y m d : valid_ymd y m d ->
  period_start p (period_index p y m) <= ymd y m d < period_start p (period_index p y m + 1).
Proof.
  intros V. apply valid_bounds in V as B. destruct V as (Hy & Hm & Hd).
  destruct p; cbn [period_start period_index];
    unfold year_start, quarter_start, month_start, quarter_index, month_index, ymd.
  - lia.
  - replace ((4 * y + (m - 1) / 3) / 4) with y by lia.
    replace ((4 * y + (m - 1) / 3) mod 4) with ((m - 1) / 3) by lia. split; [lia|].
    destruct (Z.eq_dec ((m - 1) / 3) 3) as [E|E].
    + rewrite E. replace ((4 * y + 3 + 1) / 4) with (y + 1) by lia. lia.
    + replace ((4 * y + (m - 1) / 3 + 1) / 4) with y by lia.
      replace ((4 * y + (m - 1) / 3 + 1) mod 4) with ((m - 1) / 3 + 1) by lia. lia.
  - replace ((12 * y + (m - 1)) / 12) with y by lia.
    replace ((12 * y + (m - 1)) mod 12) with (m - 1) by lia. split; [lia|].
    destruct (Z.eq_dec m 12) as [->|E].
    + replace ((12 * y + (12 - 1) + 1) / 12) with (y + 1) by lia. lia.
    + replace ((12 * y + (m - 1) + 1) / 12) with y by lia.
      replace ((12 * y + (m - 1) + 1) mod 12) with m by lia. lia.
Qed.

Lemma floor_le today p D : valid_date D ->
  floor today D (period_name p) <= D < floor_diff today D (period_name p) 1.
Proof.
  intros (y & m & d & V & ->). apply valid_bounds in V as B. pose proof V as (Hy & Hm & Hd).
  unfold floor. rewrite !floor_diff_spec by lia. rewrite Z.add_0_r. apply (period_contains p y m d V).
Qed.
Lemma floor_mono today p D D' : valid_date D -> valid_date D' -> D <= D' ->
  floor today D (period_name p) <= floor today D' (period_name p).
Proof.
  intros (y & m & d & V & ->) (y' & m' & d' & V' & ->) H.
  apply valid_bounds in V as B. apply valid_bounds in V' as B'.
  pose proof V as (Hy & Hm & Hd). pose proof V' as (Hy' & Hm' & Hd').
  unfold floor. rewrite !floor_diff_spec by lia. rewrite !Z.add_0_r.
  pose proof (period_index_mono p _ _ _ _ _ _ V V' H) as Hi.
  destruct (Z.eq_dec (period_index p y m) (period_index p y' m')) as [->|Hn]; [lia|].
  pose proof (period_start_mono p (period_index p y m) (period_index p y' m')). lia.
Qed.
Lemma floor_idem today p D : valid_date D ->
  valid_date (floor today D (period_name p)) /\
  floor today (floor today D (period_name p)) (period_name p) = floor today D (period_name p).
Proof.
  intros (y & m & d & V & ->). apply valid_bounds in V as B. pose proof V as (Hy & Hm & Hd).
  unfold floor. rewrite floor_diff_spec by lia. rewrite Z.add_0_r.
  destruct (period_start_fields p (period_index p y m)) as (y' & m' & Hm' & E & Hy0 & Ei).
  assert (Hy' : 1 <= y').
  { destruct p; cbn [period_index] in Ei; unfold quarter_index, month_index in Ei; lia. }
  rewrite E. split.
  - exists y', m', 1. split; [|reflexivity]. pose proof (dim_bounds y' m'). unfold valid_ymd. lia.
  - rewrite floor_diff_spec by lia. rewrite Ei, Z.add_0_r. exact E.
Qed.

(** ** Printing and reading *)
Lemma atoi_digits ds : Forall (fun c => is_dig c = true) ds -> ds <> [] -> (length ds <= 18)%nat ->
  atoi ds = Some (digval ds).
Proof.
  intros Hd Hne Hlen. unfold atoi.
  destruct ds as [|c ds]; [congruence|].
  assert (Hc : is_dig c = true) by (inversion Hd; assumption).
  assert (c =? 45 = false /\ c =? 43 = false) as [E1 E2] by (unfold is_dig in Hc; lia).
  rewrite E1, E2.
  assert (Ef : forallb is_dig (c :: ds) = true) by (apply forallb_forall; rewrite Forall_forall in Hd; exact Hd).
  rewrite Ef. pose proof (digval_nonneg _ Hd) as Hb.
  assert (10 ^ Z.of_nat (length (c :: ds)) <= 10 ^ 18) by (apply Z.pow_le_mono_r; lia).
  assert ((- 2 ^ 63 <=? digval (c :: ds)) && (digval (c :: ds) <? 2 ^ 63) = true) as ->; [|reflexivity].
  apply andb_true_iff. split; [apply Z.leb_le | apply Z.ltb_lt]; lia.
Qed.

Definition is_sep (c : Z) : bool := (c =? 45) || (c =? 47) || (c =? 46).

(** The patterns on separated dates, for any separator of the class. *)
Lemma is_sep_not_dig c : is_sep c = true -> is_dig c = false.
Proof. unfold is_sep, is_dig. intros H. lia. Qed.
Opaque is_dig.
Lemma match_ymd a b c d s1 e f s2 g h :
  is_dig a = true -> is_dig b = true -> is_dig c = true -> is_dig d = true -> is_sep s1 = true ->
  is_dig e = true -> is_dig f = true -> is_sep s2 = true -> is_dig g = true -> is_dig h = true ->
  full_match dateYYYYMMDD [a; b; c; d; s1; e; f; s2; g; h] = Some [(3%nat, [g; h]); (2%nat, [e; f]); (1%nat, [a; b; c; d])].
Proof.
  intros Ha Hb Hc Hd H1 He Hf H2 Hg Hh. unfold full_match, dateYYYYMMDD, r_d4, r_sep, r_d12, r_digit.
  cbn [rmatch]. fold (is_sep s1). fold (is_sep s2).
  rewrite Ha, Hb, Hc, Hd, He, Hf, Hg, Hh.
  change ((s1 =? 45) || (s1 =? 47) || (s1 =? 46)) with (is_sep s1).
  change ((s2 =? 45) || (s2 =? 47) || (s2 =? 46)) with (is_sep s2).
  rewrite H1, H2. reflexivity.
Qed.
Transparent is_dig.

Lemma date_from_string_ymd today y m d s1 s2 :
  0 <= y < 10000 -> 1 <= m < 100 -> 1 <= d < 100 -> is_sep s1 = true -> is_sep s2 = true ->
  date_from_string today (fmt_0d 4 y ++ [s1] ++ fmt_0d 2 m ++ [s2] ++ fmt_0d 2 d) = ymd y m d.
Proof.
  intros Hy Hm Hd Hs1 Hs2. unfold fmt_0d.
  destruct (Z.ltb_spec y 0); [lia|]. destruct (Z.ltb_spec m 0); [lia|]. destruct (Z.ltb_spec d 0); [lia|].
  pose proof (zpad_digits 4 y ltac:(lia)) as Dy1. pose proof (zpad_digits 2 m ltac:(lia)) as Dm.
  pose proof (zpad_digits 2 d ltac:(lia)) as Dd.
  pose proof (zpad_length 4 y ltac:(lia) ltac:(lia) ltac:(lia)) as Ly.
  pose proof (zpad_length 2 m ltac:(lia) ltac:(lia) ltac:(lia)) as Lm.
  pose proof (zpad_length 2 d ltac:(lia) ltac:(lia) ltac:(lia)) as Ld.
  pose proof (zpad_val 4 y ltac:(lia)) as Vy. pose proof (zpad_val 2 m ltac:(lia)) as Vm.
  pose proof (zpad_val 2 d ltac:(lia)) as Vd.
  assert (Ay : atoi0 (zpad 4 (dec y)) = y).
  { unfold atoi0. rewrite atoi_digits; auto; [intros E; rewrite E in Ly; discriminate | lia]. }
  assert (Am : atoi0 (zpad 2 (dec m)) = m).
  { unfold atoi0. rewrite atoi_digits; auto; [intros E; rewrite E in Lm; discriminate | lia]. }
  assert (Ad : atoi0 (zpad 2 (dec d)) = d).
  { unfold atoi0. rewrite atoi_digits; auto; [intros E; rewrite E in Ld; discriminate | lia]. }
  destruct (zpad 4 (dec y)) as [|c1 [|c2 [|c3 [|c4 [|]]]]]; cbn in Ly; try discriminate.
  destruct (zpad 2 (dec m)) as [|c5 [|c6 [|]]]; cbn in Lm; try discriminate.
  destruct (zpad 2 (dec d)) as [|c7 [|c8 [|]]]; cbn in Ld; try discriminate.
  cbn [app]. repeat rewrite Forall_cons_iff in Dy1, Dm, Dd; rewrite !Forall_cons_iff in Dy1.
  unfold date_from_string. rewrite match_ymd by tauto. cbn [group Nat.eqb].
  rewrite Ay, Am, Ad.
  destruct (Z.eqb_spec m 0); [lia|]. destruct (Z.eqb_spec d 0); [lia|]. reflexivity.
Qed.

Lemma date_string_ymd y m d : 0 <= y -> 0 <= m < 100 -> 0 <= d < 100 -> ymd y m d <> 0 ->
  date_string (ymd y m d) = fmt_0d 4 y ++ [47] ++ fmt_0d 2 m ++ [47] ++ fmt_0d 2 d.
Proof.
  intros Hy Hm Hd Hnz. unfold date_string. rewrite (proj2 (Z.eqb_neq _ _) Hnz).
  rewrite ymd_year, ymd_month, ymd_day by assumption. reflexivity.
Qed.
Lemma date_string_roundtrip today D : valid_date D -> D < 100000000 ->
  date_from_string today (date_string D) = D.
Proof.
  intros (y & m & d & V & ->) Hlt. apply valid_bounds in V as B. pose proof V as (Hy & Hm & Hd).
  rewrite date_string_ymd by (try lia; unfold ymd; lia).
  apply date_from_string_ymd; try lia; try reflexivity. unfold ymd in Hlt. lia.
Qed.
(** Wider than valid dates: the reader of ledger files only needs 1 <= month, day < 100. *)
Lemma date_string_roundtrip_any today D :
  0 < D < 100000000 -> 1 <= Z.rem (Z.quot D 100) 100 -> 1 <= Z.rem D 100 ->
  date_from_string today (date_string D) = D.
Proof.
  intros Hb Hm Hd.
  assert (E : D = ymd (Z.quot D 10000) (Z.rem (Z.quot D 100) 100) (Z.rem D 100)) by (unfold ymd; lia).
  rewrite E at 1. rewrite date_string_ymd; try lia.
  rewrite date_from_string_ymd; try reflexivity; lia.
Qed.

(** ** AsYears *)
Definition rounding (rnd : Qc -> Qc) : Prop :=
  (forall a b, (a <= b)%Qc -> (rnd a <= rnd b)%Qc) /\ rnd 0%Qc = 0%Qc /\ rnd 1%Qc = 1%Qc.

Lemma qz_le a b : a <= b <-> (qz a <= qz b)%Qc.
Proof.
  unfold Qcle, qz, Q2Qc. cbn [this]. rewrite !Qred_correct. unfold Qle. cbn. lia.
Qed.
Lemma qz_le_up a b : a <= b -> (qz a <= qz b)%Qc.
Proof. intros H. exact (proj1 (qz_le a b) H). Qed.
Lemma qz_add a b : qz (a + b) = (qz a + qz b)%Qc.
Proof. apply Qc_is_canon. unfold qz, Qcplus, Q2Qc. cbn [this]. rewrite !Qred_correct. unfold inject_Z, Qeq; cbn. lia. Qed.
Lemma qz_mul a b : qz (a * b) = (qz a * qz b)%Qc.
Proof. apply Qc_is_canon. unfold qz, Qcmult, Q2Qc. cbn [this]. rewrite !Qred_correct. unfold inject_Z, Qeq; cbn. lia. Qed.
Lemma qz_inj a b : qz a = qz b -> a = b.
Proof. intros H. assert (qz a <= qz b /\ qz b <= qz a)%Qc as [H1 H2] by (rewrite H; split; apply Qcle_refl).
  apply qz_le in H1. apply qz_le in H2. lia. Qed.
Lemma qz_0 : qz 0 = 0%Qc. Proof. apply Qc_is_canon. reflexivity. Qed.
Lemma qz_1 : qz 1 = 1%Qc. Proof. apply Qc_is_canon. reflexivity. Qed.
Lemma qz_nz n : n <> 0 -> qz n <> 0%Qc.
Proof. intros H E. rewrite <- qz_0 in E. apply qz_inj in E. contradiction. Qed.

Lemma div_le_mono a b n : 0 < n -> a <= b -> (qz a / qz n <= qz b / qz n)%Qc.
Proof.
  intros Hn Hab. unfold Qcdiv. apply Qcmult_le_compat_r; [apply qz_le_up; exact Hab|].
  unfold Qcle, Qcinv, qz, Q2Qc. cbn [this]. rewrite !Qred_correct. unfold Qle, Qinv, inject_Z. cbn.
  destruct n; cbn; lia.
Qed.

Definition diy (y : Z) : Z := 365 + (if leap y then 1 else 0).
Lemma as_years_closed rnd y m d : valid_ymd y m d ->
  as_years rnd (ymd y m d) = Ok (rnd (qz (y - 1) + rnd (qz (cum (leap y) m) / qz (diy y)))%Qc).
Proof.
  intros V. pose proof (valid_bounds _ _ _ V) as (B1 & B2 & B3). pose proof V as (Hy & Hm & Hd).
  unfold as_years. rewrite ymd_year, ymd_month by assumption.
  rewrite leap_model by exact Hy. rewrite month_loop_cum by exact Hm. cbn [obind].
  replace (0 + cum (leap y) m) with (cum (leap y) m) by lia.
  unfold diy. destruct (leap y); reflexivity.
Qed.
Lemma cum_range y m : 1 <= m <= 12 -> 0 <= cum (leap y) m <= diy y.
Proof.
  intros Hm. pose proof (cum_bound y m 1 Hm). pose proof (dim_bounds y m). unfold diy. lia.
Qed.
Lemma as_years_mono rnd D D' : rounding rnd -> valid_date D -> valid_date D' -> D <= D' ->
  exists a b, as_years rnd D = Ok a /\ as_years rnd D' = Ok b /\ (a <= b)%Qc.
Proof.
  intros (Hmono & H0 & H1) (y & m & d & V & ->) (y' & m' & d' & V' & ->) Hle.
  do 2 eexists. split; [apply as_years_closed; exact V|]. split; [apply as_years_closed; exact V'|].
  apply Hmono.
  pose proof (valid_bounds _ _ _ V) as B. pose proof (valid_bounds _ _ _ V') as B'.
  pose proof V as (Hy & Hm & Hd). pose proof V' as (Hy' & Hm' & Hd'). unfold ymd in Hle.
  assert (Hpos : forall z, 0 < diy z) by (intros z; unfold diy; destruct (leap z); lia).
  assert (y < y' \/ (y = y' /\ m <= m')) as [C|[-> C]] by lia.
  - apply Qcle_trans with (qz (y - 1) + 1)%Qc.
    + apply Qcplus_le_compat; [apply Qcle_refl|]. rewrite <- H1. apply Hmono.
      apply Qcle_trans with (qz (diy y) / qz (diy y))%Qc.
      * apply div_le_mono; [apply Hpos | apply cum_range; exact Hm].
      * unfold Qcdiv. rewrite Qcmult_inv_r; [apply Qcle_refl|]. apply qz_nz. pose proof (Hpos y). lia.
    + rewrite <- qz_1, <- qz_add. apply Qcle_trans with (qz (y' - 1) + 0)%Qc.
      * rewrite Qcplus_0_r. apply qz_le_up. lia.
      * apply Qcplus_le_compat; [apply Qcle_refl|]. rewrite <- H0. apply Hmono.
        apply Qcle_trans with (qz 0 / qz (diy y'))%Qc.
        { rewrite qz_0. unfold Qcdiv. rewrite Qcmult_0_l. apply Qcle_refl. }
        apply div_le_mono; [apply Hpos|]. apply cum_range. exact Hm'.
  - apply Qcplus_le_compat; [apply Qcle_refl|]. apply Hmono. apply div_le_mono; [apply Hpos|].
    destruct (Z.eq_dec m m') as [->|Hn]; [lia|].
    pose proof (cum_mono y' m m'). pose proof (dim_bounds y' m). lia.
Qed.
Lemma as_years_ignores_day rnd y m d d' : valid_ymd y m d -> valid_ymd y m d' ->
  as_years rnd (ymd y m d) = as_years rnd (ymd y m d').
Proof. intros V V'. rewrite !as_years_closed by assumption. reflexivity. Qed.
