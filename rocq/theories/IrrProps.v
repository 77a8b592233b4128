(** * IrrProps: the internal rate of return (C102). *)
From Coq Require Import Reals Lra.
From Verif Require Import Base DateSpec DateModel DateProofs DateProofs2 IrrModel IrrSpec IrrProofs IrrProofs2 IrrProofs3.
Local Open Scope R_scope.

Lemma schedule_later d0 ds cs l : schedule d0 ds cs l -> Forall (fun d => (d0 + 10000 <= d)%Z) ds -> Forall (fun yc => 99 / 100 <= fst yc) l.
Proof.
  intros (_ & t0 & T0 & F) L. revert L. induction F as [|d yc ds l (t & T & E) F IH]; intros L; constructor; inversion L; subst; [|auto].
  rewrite E. apply (year_later d0 d); assumption.
Qed.
Lemma npv_f c0 l r : npv c0 l r = f (- c0) l (1 + r).
Proof. unfold npv, f. rewrite present_P. lra. Qed.
Lemma both (Q T : R * R -> Prop) l : Forall Q l -> Forall T l -> Forall (fun yc => Q yc /\ T yc) l.
Proof. rewrite !Forall_forall. auto. Qed.
Lemma start d0 ds c0 cs l : schedule d0 ds cs l -> investment c0 l -> Forall (fun d => (d0 + 10000 <= d)%Z) ds ->
  flows_ok l /\ slopes l /\ Forall (fun yc => 99 / 100 <= fst yc /\ 0 <= snd yc) l.
Proof.
  intros S (C & N & E) L. pose proof (schedule_later _ _ _ _ S L) as Y. pose proof (both _ _ _ Y N) as B. split; [|split; [|exact B]].
  - eapply Forall_impl; [|exact B]. cbn. intros; lra.
  - apply (slopes_of l (99 / 100)); [lra|exact B|exact E].
Qed.
Lemma newton_start c0 l : 0 < D (11 / 10) l -> Forall (fun yc => 99 / 100 <= fst yc /\ 0 <= snd yc) l -> - c0 <= 19 / 10 * present (1 / 10) l ->
  1 / 10 <= newton (- c0) l (11 / 10).
Proof.
  intros HD B H. rewrite present_P in H. replace (1 + 1 / 10) with (11 / 10) in H by lra.
  pose proof (D_lower (11 / 10) l (99 / 100) ltac:(lra) ltac:(lra) B) as L.
  unfold newton, f. set (p := P (11 / 10) l) in *. set (d := D (11 / 10) l) in *.
  assert (- d <= p - - c0) by lra.
  assert (-1 <= (p - - c0) / d); [|lra].
  apply Rmult_le_reg_r with d; [exact HD|]. unfold Rdiv. rewrite Rmult_assoc, Rinv_l; lra.
Qed.

Lemma weighted_P k x l : 0 < x -> k <> 0 -> P x (map (fun yc => (fst yc, (1 + fst yc / k) * snd yc)) l) = P x l + x / k * D x l.
Proof.
  intros Hx Hk. induction l as [|[y c] l IH]; cbn [map P D fst snd]; [lra|]. rewrite IH, D_term by lra. unfold Rdiv. field. pose proof (Rpower_nz x y). repeat split; (assumption || lra).
Qed.
Lemma schedule_from d0 ds cs l : schedule d0 ds cs l -> Forall (fun d => (d0 <= d)%Z) ds -> Forall (fun yc => 0 <= fst yc) l.
Proof.
  intros (_ & t0 & T0 & F) L. revert L. induction F as [|d yc ds l (t & T & E) F IH]; intros L; constructor; inversion L; subst; [|auto].
  rewrite E. apply (not_before d0 d); assumption.
Qed.

(** C102. Somebody pays an amount and later gets amounts back, at least one of them in a later month, and together, each multiplied by 1 + its years / 1.1 and discounted
    by 10%, worth at least the amount paid. Then CalculateIRR gives a rate of at least -90% at which the present values cancel out: up to 0.0001, or up to 0.01% of what is
    received per year of the longest time and unit of 1 + rate; or the rate of return is 110% and more and all rounds are used up. *)
Theorem C102_rate_found_partial :
  forall d0 ds c0 cs l, schedule d0 ds cs l -> investment c0 l -> Forall (fun d => (d0 <= d)%Z) ds -> Exists (fun yc => 0 < fst yc /\ 0 < snd yc) l ->
  - c0 <= present (1 / 10) (map (fun yc => (fst yc, (1 + fst yc / (11 / 10)) * snd yc)) l) ->
  exists r, calculate_irr (d0 :: ds) (c0 :: cs) = Ok (Fin r) /\ - (9 / 10) <= r
    /\ (Rabs (npv c0 l r) < 1 / 10000
        \/ (forall Y, Forall (fun yc => fst yc <= Y) l -> Rabs (npv c0 l r) < 1 / 10000 * (Y / (1 + r)) * present r l)
        \/ 11 / 10 <= r /\ 0 <= npv c0 l r).
Proof.
  intros d0 ds c0 cs l Hs I L X H. pose proof I as (_ & Hc & _). pose proof (schedule_from _ _ _ _ Hs L) as Hy.
  pose proof (both _ _ _ Hy Hc) as B. assert (F : flows_ok l) by exact B. pose proof (slopes_some l F X) as SL.
  assert (N : 1 / 10 <= newton (- c0) l (11 / 10)).
  { rewrite present_P in H. replace (1 + 1 / 10) with (11 / 10) in H by lra. rewrite weighted_P in H by lra. pose proof (SL (11 / 10) ltac:(lra)) as HD.
    unfold newton, f. set (p := P (11 / 10) l) in *. set (d := D (11 / 10) l) in *.
    assert (- d <= p - - c0) by lra. assert (-1 <= (p - - c0) / d); [|lra].
    apply Rmult_le_reg_r with d; [exact HD|]. unfold Rdiv. rewrite Rmult_assoc, Rinv_l; lra. }
  destruct (found (- c0) l F SL N) as (r & E & R & G & Fr). rewrite Ropp_involutive in E.
  exists r. rewrite (irr_schedule _ _ _ _ _ Hs), E. split; [reflexivity|]. split; [exact R|]. rewrite npv_f.
  assert (K : good (- c0) l r -> Rabs (f (- c0) l (1 + r)) < 1 / 10000
    \/ (forall Y, Forall (fun yc => fst yc <= Y) l -> Rabs (f (- c0) l (1 + r)) < 1 / 10000 * (Y / (1 + r)) * present r l)).
  { intros [K|K]; [left; exact K|right]. intros Y HY. eapply Rlt_le_trans; [exact K|]. rewrite present_P.
    pose proof (D_upper (1 + r) l Y ltac:(lra)) as U. unfold eps.
    assert (D (1 + r) l <= Y * P (1 + r) l / (1 + r)). { apply U. pose proof (both _ _ _ HY B) as B2. eapply Forall_impl; [|exact B2]. cbn. intros; lra. }
    replace (1 / 10000 * (Y / (1 + r)) * P (1 + r) l) with (1 / 10000 * (Y * P (1 + r) l / (1 + r))) by (field; lra).
    apply Rmult_le_compat_l; lra. }
  destruct G as [G|G]; [destruct (K G) as [K1|K1]; [left; exact K1|right; left; exact K1]|].
  destruct Fr as [Fr|[_ G2]]; [right; right; split; assumption|]. destruct (K G2) as [K1|K1]; [left; exact K1|right; left; exact K1].
Qed.
Print Assumptions C102_rate_found_partial.
(** If nothing comes back before a year has passed, it suffices that what comes back is worth 10/19 of the amount, discounted by 10%. *)
Lemma enough c0 l : Forall (fun yc => 99 / 100 <= fst yc /\ 0 <= snd yc) l -> - c0 <= 19 / 10 * present (1 / 10) l ->
  - c0 <= present (1 / 10) (map (fun yc => (fst yc, (1 + fst yc / (11 / 10)) * snd yc)) l).
Proof.
  intros B H. rewrite !present_P in *. replace (1 + 1 / 10) with (11 / 10) in * by lra. rewrite weighted_P by lra.
  pose proof (D_lower (11 / 10) l (99 / 100) ltac:(lra) ltac:(lra) B). lra.
Qed.
Theorem C102_rate_found_year_partial :
  forall d0 ds c0 cs l, schedule d0 ds cs l -> investment c0 l -> Forall (fun d => (d0 + 10000 <= d)%Z) ds -> - c0 <= 19 / 10 * present (1 / 10) l ->
  exists r, calculate_irr (d0 :: ds) (c0 :: cs) = Ok (Fin r) /\ - (9 / 10) <= r
    /\ (Rabs (npv c0 l r) < 1 / 10000
        \/ (forall Y, Forall (fun yc => fst yc <= Y) l -> Rabs (npv c0 l r) < 1 / 10000 * (Y / (1 + r)) * present r l)
        \/ 11 / 10 <= r /\ 0 <= npv c0 l r).
Proof.
  intros d0 ds c0 cs l Hs I L H. destruct (start _ _ _ _ _ Hs I L) as (F & SL & B).
  apply (C102_rate_found_partial d0 ds c0 cs l Hs I).
  - eapply Forall_impl; [|exact L]. cbn. intros; lia.
  - destruct I as (_ & _ & I). apply Exists_exists in I. destruct I as (yc & A1 & A2). apply Exists_exists. exists yc. split; [exact A1|].
    rewrite Forall_forall in B. specialize (B _ A1). lra.
  - apply enough; assumption.
Qed.
Print Assumptions C102_rate_found_year_partial.
(** ... and that is close to the rate of return, if that is 100% at most, of at least 1 paid and of less than 500 years. *)
Theorem C102_rate_close_partial :
  forall d0 ds c0 cs l z Y, schedule d0 ds cs l -> investment c0 l -> Forall (fun d => (d0 + 10000 <= d)%Z) ds -> - c0 <= 19 / 10 * present (1 / 10) l ->
  return_rate c0 l z -> z <= 1 -> c0 <= -1 -> Forall (fun yc => fst yc <= Y) l -> Y <= 500 ->
  exists r, calculate_irr (d0 :: ds) (c0 :: cs) = Ok (Fin r) /\ Rabs (z - r) <= 21 / 100000 * (1 + z) * (1 + Y / (1 + r)).
Proof.
  intros d0 ds c0 cs l z Y Hs I L H (Z1 & Zr) Z2 C1 HY Y2. destruct (start _ _ _ _ _ Hs I L) as (F & SL & B).
  pose proof (newton_start c0 l (SL (11 / 10) ltac:(lra)) B H) as N. rewrite npv_f in Zr.
  destruct (found (- c0) l F SL N) as (r & E & R & G & Fr). rewrite Ropp_involutive in E.
  exists r. rewrite (irr_schedule _ _ _ _ _ Hs), E. split; [reflexivity|].
  assert (Hx : 0 < 1 + r) by lra. assert (Hz : 0 < 1 + z) by lra.
  assert (B2 : Forall (fun yc => 99 / 100 <= fst yc <= Y /\ 0 <= snd yc) l).
  { eapply Forall_impl; [|exact (both _ _ _ HY B)]. cbn. intros; lra. }
  assert (Y0 : 99 / 100 <= Y). { destruct I as (_ & _ & I). destruct B2 as [|yc l' Hb _]; [inversion I|lra]. }
  assert (Q : 0 < Y / (1 + r)) by (apply Rdiv_lt_0_compat; lra).
  assert (W : 0 < (1 + z) * (Y / (1 + r))) by (apply Rmult_lt_0_compat; lra).
  assert (G' : good (- c0) l r).
  { destruct G as [G|G]; [exact G|]. destruct Fr as [Fr|[_ G2]]; [|exact G2].
    pose proof (below (- c0) l (1 + r) (1 + z) F SL Hx Hz Fr ltac:(lra)). lra. }
  destruct (Rle_dec 0 (f (- c0) l (1 + r))) as [P0|P0].
  - destruct G' as [G'|G'].
    + destruct (close_value (- c0) l (1 + r) (1 + z) (99 / 100) B ltac:(lra) F SL ltac:(lra) Hx Hz Zr P0 G') as [K1 K2].
      rewrite Rabs_pos_eq by lra.
      assert (eps * (1 + z) / (99 / 100 * - c0) <= 21 / 100000 * (1 + z)); [|lra].
      apply Rmult_le_reg_r with (99 / 100 * - c0); [lra|].
      replace (eps * (1 + z) / (99 / 100 * - c0) * (99 / 100 * - c0)) with (eps * (1 + z)) by (field; lra). unfold eps.
      assert ((1 + z) * 1 <= (1 + z) * - c0) by (apply Rmult_le_compat_l; lra). lra.
    + assert (HY2 : 2 * eps * Y <= 1 + r) by (unfold eps; lra).
      destruct (close (- c0) l (1 + r) (1 + z) Y (99 / 100) B2 ltac:(lra) F SL ltac:(lra) Hx Hz Zr P0 HY2 G') as [K1 K2].
      rewrite Rabs_pos_eq by lra.
      assert (2 * eps * (Y / (99 / 100)) * ((1 + z) / (1 + r)) <= 21 / 100000 * ((1 + z) * (Y / (1 + r)))).
      { replace (2 * eps * (Y / (99 / 100)) * ((1 + z) / (1 + r))) with (2 * eps * 100 / 99 * ((1 + z) * (Y / (1 + r)))) by (field; lra).
        apply Rmult_le_compat_r; [lra|]. unfold eps. lra. }
      lra.
  - assert (r = 1 / 10) as -> by (destruct Fr as [Fr|[Fr _]]; [lra|exact Fr]). replace (1 + 1 / 10) with (11 / 10) in * by lra.
    pose proof (P_tangent (11 / 10) (1 + z) l ltac:(lra) Hz F) as T. pose proof (SL (11 / 10) ltac:(lra)) as HD.
    pose proof (D_lower (11 / 10) l (99 / 100) ltac:(lra) ltac:(lra) B) as DL.
    unfold f in *. set (d := D (11 / 10) l) in *. set (p := P (11 / 10) l) in *.
    assert (T2 : d * (11 / 10 - (1 + z)) <= - c0 - p) by lra.
    assert (Z3 : 1 + z <= 11 / 10).
    { destruct (Rle_dec (1 + z) (11 / 10)); [assumption|].
      pose proof (P_tangent (1 + z) (11 / 10) l Hz ltac:(lra) F) as T3. pose proof (SL (1 + z) Hz) as HD3.
      fold p in T3. exfalso. 
      pose proof (below (- c0) l (1 + z) (11 / 10) F SL Hz ltac:(lra) ltac:(unfold f; lra) ltac:(unfold f; fold p; lra)). lra. }
    assert (T3 : 11 / 10 - (1 + z) <= 2 / 10000).
    { destruct G' as [G'|G']; replace (1 + 1 / 10) with (11 / 10) in G' by lra; unfold f in G'; fold p in G'; rewrite Rabs_left1 in G' by lra.
      - assert (8 / 10 <= d) by (unfold eps in G'; lra).
        assert (8 / 10 * (11 / 10 - (1 + z)) <= d * (11 / 10 - (1 + z))) by (apply Rmult_le_compat_r; lra). unfold eps in G'; lra.
      - fold d in G'. assert (d * (11 / 10 - (1 + z)) < d * eps) by lra. apply Rmult_lt_reg_l in H0; [|exact HD]. unfold eps in H0. lra. }
    rewrite Rabs_left1 by lra.
    assert (21 / 100000 * (1 + z) * 1 <= 21 / 100000 * (1 + z) * (1 + Y / (11 / 10)) ) by (apply Rmult_le_compat_l; lra). lra.
Qed.
Print Assumptions C102_rate_close_partial.

(** The full statement, that the rate of return is found, is false: when too little comes back, the first correction of the guess of 10% falls below -100%, the guess is
    put to -99.9999999%, and from there the next correction is below 0.0001, so that the loop ends. *)
Theorem C102_rate_lost_refuted :
  forall d0 ds c0 cs l, schedule d0 ds cs l -> investment c0 l -> Forall (fun d => (d0 + 10000 <= d)%Z) ds ->
  present (1 / 10) (map (fun yc => (fst yc, (1 + fst yc) * snd yc)) l) < - c0 -> npv c0 l (1 / 10) <= - (1 / 10000) ->
  0 <= npv c0 l (- (999999999 / 1000000000)) ->
  calculate_irr (d0 :: ds) (c0 :: cs) = Ok (Fin (- (999999999 / 1000000000))).
Proof.
  intros d0 ds c0 cs l Hs I L W F1 F0. destruct (start _ _ _ _ _ Hs I L) as (F & SL & B).
  rewrite (irr_schedule _ _ _ _ _ Hs). f_equal. pose proof I as (C0 & _ & _). rewrite npv_f in F1, F0.
  replace (1 + 1 / 10) with (11 / 10) in F1 by lra. rewrite present_P in W. replace (1 + 1 / 10) with (11 / 10) in W by lra.
  assert (E : P (11 / 10) (map (fun yc => (fst yc, (1 + fst yc) * snd yc)) l) = P (11 / 10) l + 11 / 10 * D (11 / 10) l).
  { clear. induction l as [|[y c] l IH]; cbn [map P D fst snd]; [lra|]. rewrite IH, D_term by lra. field. apply Rpower_nz. }
  rewrite E in W. pose proof (SL (11 / 10) ltac:(lra)) as HD.
  replace c0 with (- - c0) by lra. apply lost; try assumption.
  - eapply Forall_impl; [|exact B]. cbn. intros; lra.
  - unfold newton, f. set (p := P (11 / 10) l) in *. set (d := D (11 / 10) l) in *.
    assert ((p - - c0) / d < - (11 / 10)); [|lra]. apply Rmult_lt_reg_r with d; [exact HD|]. unfold Rdiv. rewrite Rmult_assoc, Rinv_l; lra.
  - lra.
Qed.
Print Assumptions C102_rate_lost_refuted.

(** ** Examples *)
Lemma new_year y : (1 <= y)%Z -> time (ymd y 1 1) (IZR y).
Proof.
  intros H. exists y, 1%Z, 1%Z. split; [unfold valid_ymd, dim; cbn; lia|]. split; [reflexivity|]. unfold point. cbn. lra.
Qed.
(** 100 paid in 2021, 50 and 150 back in 2022 and 2023: the rate of return is 50% *)
Example ex_schedule : schedule 20210101 [20220101; 20230101]%Z [50; 150] [(1, 50); (2, 150)].
Proof.
  split; [reflexivity|]. exists 2021. split; [apply (new_year 2021); lia|].
  repeat constructor; cbn; [exists 2022|exists 2023]; (split; [first [apply (new_year 2022); lia|apply (new_year 2023); lia]|lra]).
Qed.
Example ex_investment : investment (-100) [(1, 50); (2, 150)].
Proof. split; [lra|]. split; [repeat constructor; cbn; lra|]. constructor. cbn. lra. Qed.
Lemma Rpower_2' x : 0 < x -> Rpower x 2 = x * x.
Proof. intros H. replace 2 with (1 + 1) by lra. rewrite Rpower_plus, Rpower_1 by exact H. reflexivity. Qed.
Example ex_paid_back : - -100 <= 19 / 10 * present (1 / 10) [(1, 50); (2, 150)].
Proof. cbn. rewrite Rpower_1, Rpower_2' by lra. lra. Qed.
Example ex_rate : return_rate (-100) [(1, 50); (2, 150)] (1 / 2).
Proof. split; [lra|]. unfold npv. cbn. rewrite Rpower_1, Rpower_2' by lra. lra. Qed.
Example ex_close : exists r, calculate_irr [20210101; 20220101; 20230101]%Z [-100; 50; 150] = Ok (Fin r) /\ Rabs (1 / 2 - r) <= 1 / 1000.
Proof.
  destruct (C102_rate_close_partial 20210101 [20220101; 20230101]%Z (-100) [50; 150] [(1, 50); (2, 150)] (1 / 2) 2) as (r & E & C).
  - exact ex_schedule.
  - exact ex_investment.
  - repeat constructor; lia.
  - exact ex_paid_back.
  - exact ex_rate.
  - lra.
  - lra.
  - repeat constructor; cbn; lra.
  - lra.
  - exists r. split; [exact E|].
    destruct (C102_rate_found_year_partial 20210101 [20220101; 20230101]%Z (-100) [50; 150] [(1, 50); (2, 150)] ex_schedule ex_investment
      ltac:(repeat constructor; lia) ex_paid_back) as (r' & E' & R & _).
    rewrite E' in E. injection E as <-. assert (HQ : 0 < 1 + r') by lra.
    assert (Q : 1 + 2 / (1 + r') <= 21).
    { assert (2 / (1 + r') <= 20); [|lra]. apply Rmult_le_reg_r with (1 + r'); [exact HQ|]. unfold Rdiv. rewrite Rmult_assoc, Rinv_l; lra. }
    assert (C2 : Rabs (1 / 2 - r') <= 21 / 100000 * (1 + 1 / 2) * 21) by (eapply Rle_trans; [exact C|]; apply Rmult_le_compat_l; lra).
    assert (Q2 : 1 / 2 - r' <= 7 / 1000) by (pose proof (Rle_abs (1 / 2 - r')); lra).
    assert (Q3 : 1 + 2 / (1 + r') <= 24 / 10).
    { assert (2 / (1 + r') <= 14 / 10); [|lra]. apply Rmult_le_reg_r with (1 + r'); [exact HQ|]. unfold Rdiv. rewrite Rmult_assoc, Rinv_l; lra. }
    eapply Rle_trans; [exact C|]. apply Rle_trans with (21 / 100000 * (1 + 1 / 2) * (24 / 10)); [apply Rmult_le_compat_l; lra|lra].
Qed.
(** 100 paid, 20 back after a year: the rate of return is -80%, CalculateIRR gives -99.9999999% *)
Example ex_lost : return_rate (-100) [(1, 20)] (- (8 / 10)) /\ calculate_irr [20210101; 20220101]%Z [-100; 20] = Ok (Fin (- (999999999 / 1000000000))).
Proof.
  split; [split; [lra|unfold npv; cbn; rewrite Rpower_1 by lra; field]|].
  apply (C102_rate_lost_refuted 20210101 [20220101]%Z (-100) [20] [(1, 20)]).
  - split; [reflexivity|]. exists 2021. split; [apply (new_year 2021); lia|]. repeat constructor. exists 2022. cbn. split; [apply (new_year 2022); lia|lra].
  - split; [lra|]. split; [repeat constructor; cbn; lra|]. constructor. cbn. lra.
  - repeat constructor; lia.
  - cbn. rewrite Rpower_1 by lra. lra.
  - unfold npv. cbn. rewrite Rpower_1 by lra. lra.
  - unfold npv. cbn. rewrite Rpower_1 by lra. replace (1 + - (999999999 / 1000000000)) with (1 / 1000000000) by lra. lra.
Qed.
