(** * IrrProofs3: dates as years. *)
From Coq Require Import Reals Lra Qreals.
From Verif Require Import Base DateSpec DateModel DateProofs DateProofs2 IrrModel IrrSpec IrrProofs IrrProofs2.
Local Open Scope R_scope.

Lemma cum_before y m : (1 <= m <= 12)%Z -> days_before y m = cum (leap y) m.
Proof.
  intros H. assert (m = 1 \/ m = 2 \/ m = 3 \/ m = 4 \/ m = 5 \/ m = 6 \/ m = 7 \/ m = 8 \/ m = 9 \/ m = 10 \/ m = 11 \/ m = 12)%Z as C by lia.
  unfold days_before, cum. repeat (destruct C as [->|C]); try subst m; cbn; unfold dim; cbn; destruct (leap y); reflexivity.
Qed.
Lemma diy_before y : days_before y 13 = diy y.
Proof. unfold days_before, diy. cbn. unfold dim. cbn. destruct (leap y); reflexivity. Qed.
Lemma Q2R_qz z : Q2R (this (qz z)) = IZR z.
Proof.
  unfold qz, Q2Qc. cbn [this]. rewrite (Qeq_eqR _ _ (Qred_correct _)). unfold Q2R, inject_Z. cbn. lra.
Qed.
Lemma Q2R_add a b : Q2R (this (a + b)%Qc) = Q2R (this a) + Q2R (this b).
Proof. unfold Qcplus, Q2Qc. cbn [this]. rewrite (Qeq_eqR _ _ (Qred_correct _)). apply Q2R_plus. Qed.
Lemma Q2R_div a b : Q2R (this b) <> 0 -> Q2R (this (a / b)%Qc) = Q2R (this a) / Q2R (this b).
Proof.
  intros H. unfold Qcdiv, Qcmult, Qcinv, Q2Qc. cbn [this]. rewrite (Qeq_eqR _ _ (Qred_correct _)), Q2R_mult, (Qeq_eqR _ _ (Qred_correct _)).
  rewrite Q2R_inv; [reflexivity|]. intros E. apply H. rewrite (Qeq_eqR _ _ E). unfold Q2R. cbn. lra.
Qed.
Lemma diy_pos y : 0 < IZR (diy y).
Proof. apply IZR_lt. unfold diy. destruct (leap y); lia. Qed.
Lemma years_of_time d t : time d t -> years_of d = Ok (t - 1).
Proof.
  intros (y & m & dd & V & -> & ->). unfold years_of. rewrite as_years_closed by exact V. cbn [obind].
  pose proof (diy_pos y) as Hd. rewrite Q2R_add, Q2R_div; rewrite !Q2R_qz; [|lra].
  unfold point. rewrite cum_before by (destruct V as (_ & ? & _); assumption). rewrite diy_before, minus_IZR. f_equal. lra.
Qed.
Lemma years_from_ok t0 ds (l : list (R * R)) : Forall2 (fun d yc => exists t, time d t /\ fst yc = t - t0) ds l -> years_from (t0 - 1) ds = Ok (map fst l).
Proof.
  intros F. induction F as [|d yc ds l (t & T & E) F IH]; [reflexivity|]. cbn [years_from map].
  rewrite (years_of_time _ _ T). cbn [obind]. rewrite IH. cbn [obind]. rewrite E. do 2 f_equal. lra.
Qed.
Lemma pair_up_ok (l : list (R * R)) : pair_up (map fst l) (map snd l) = Ok l.
Proof. induction l as [|[y c] l IH]; [reflexivity|]. cbn. rewrite IH. reflexivity. Qed.
Theorem irr_schedule d0 ds c0 cs l : schedule d0 ds cs l -> calculate_irr (d0 :: ds) (c0 :: cs) = Ok (irr_loop limit c0 l (Fin (1 / 10))).
Proof.
  intros (<- & t0 & T0 & F). unfold calculate_irr. rewrite (years_of_time _ _ T0). cbn [obind].
  rewrite (years_from_ok _ _ _ F). cbn [obind]. rewrite pair_up_ok. reflexivity.
Qed.
(** ** A year later *)
Lemma before_range y m : (1 <= m <= 12)%Z -> 0 <= IZR (days_before y m) / IZR (days_before y 13) < 1.
Proof.
  intros H. rewrite cum_before, diy_before by exact H. pose proof (cum_bound y m 1 H) as C. pose proof (dim_bounds y m). pose proof (diy_pos y) as K.
  assert (0 <= cum (leap y) m < diy y)%Z as [L U].
  { split; [apply (cum_range y m H)|]. unfold diy. lia. }
  apply IZR_le in L. apply IZR_lt in U. split.
  - apply Rmult_le_pos; [exact L|]. left. apply Rinv_0_lt_compat. exact K.
  - apply Rmult_lt_reg_r with (IZR (diy y)); [exact K|]. unfold Rdiv. rewrite Rmult_assoc, Rinv_l; lra.
Qed.
Lemma same_month y y' m : (1 <= m <= 12)%Z -> IZR (days_before y m) / IZR (days_before y 13) - 1 / 365 <= IZR (days_before y' m) / IZR (days_before y' 13).
Proof.
  intros H. rewrite (cum_before y), (cum_before y'), !diy_before by exact H.
  assert (m = 1 \/ m = 2 \/ m = 3 \/ m = 4 \/ m = 5 \/ m = 6 \/ m = 7 \/ m = 8 \/ m = 9 \/ m = 10 \/ m = 11 \/ m = 12)%Z as C by lia.
  unfold cum, diy. repeat (destruct C as [->|C]); try subst m; cbn; destruct (leap y), (leap y'); cbn; lra.
Qed.
Lemma month_le y m m' : (1 <= m)%Z -> (m <= m')%Z -> (m' <= 12)%Z -> IZR (days_before y m) / IZR (days_before y 13) <= IZR (days_before y m') / IZR (days_before y 13).
Proof.
  intros H1 H2 H3. rewrite (cum_before y m), (cum_before y m'), diy_before by lia. apply Rmult_le_compat_r; [left; apply Rinv_0_lt_compat, diy_pos|].
  apply IZR_le. destruct (Z.eq_dec m m') as [->|N]; [lia|]. pose proof (cum_mono y m m'). pose proof (dim_bounds y m). lia.
Qed.
Lemma year_later d0 d t0 t : time d0 t0 -> time d t -> (d0 + 10000 <= d)%Z -> 99 / 100 <= t - t0.
Proof.
  intros (y & m & dd & V & -> & ->) (y' & m' & dd' & V' & -> & ->) H.
  pose proof (valid_bounds _ _ _ V) as B. pose proof (valid_bounds _ _ _ V') as B'. pose proof V as (_ & Hm & _). pose proof V' as (_ & Hm' & _).
  unfold ymd in H. unfold point. pose proof (before_range y m Hm) as R. pose proof (before_range y' m' Hm') as R'.
  assert (y + 2 <= y' \/ (y' = y + 1 /\ m <= m'))%Z as [C|[-> C]] by lia.
  - apply IZR_le in C. rewrite plus_IZR in C. lra.
  - pose proof (same_month y (y + 1) m Hm). pose proof (month_le (y + 1) m m'). assert (IZR (days_before (y + 1) m) / IZR (days_before (y + 1) 13) <= IZR (days_before (y + 1) m') / IZR (days_before (y + 1) 13)) by (apply month_le; lia).
    rewrite plus_IZR. lra.
Qed.
Lemma not_before d0 d t0 t : time d0 t0 -> time d t -> (d0 <= d)%Z -> 0 <= t - t0.
Proof.
  intros (y & m & dd & V & -> & ->) (y' & m' & dd' & V' & -> & ->) H.
  pose proof (valid_bounds _ _ _ V) as B. pose proof (valid_bounds _ _ _ V') as B'. pose proof V as (_ & Hm & _). pose proof V' as (_ & Hm' & _).
  unfold ymd in H. unfold point. pose proof (before_range y m Hm) as R. pose proof (before_range y' m' Hm') as R'.
  assert (y + 1 <= y' \/ (y' = y /\ m <= m'))%Z as [C|[-> C]] by lia.
  - apply IZR_le in C. rewrite plus_IZR in C. lra.
  - assert (IZR (days_before y m) / IZR (days_before y 13) <= IZR (days_before y m') / IZR (days_before y 13)) by (apply month_le; lia). lra.
Qed.
