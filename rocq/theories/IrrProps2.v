(** * IrrProps2: what the rate does not depend on (C103, C104). *)
From Coq Require Import Reals Lra.
From Verif Require Import Base DateSpec DateModel DateProofs DateProofs2 IrrModel IrrSpec IrrProofs IrrProofs2 IrrProofs3 IrrProps.
Local Open Scope R_scope.

(** ** Order *)
Lemma f_add_comm a b : f_add a b = f_add b a.
Proof. destruct a, b; cbn; try reflexivity. f_equal. lra. Qed.
Lemma f_add_assoc a b c : f_add (f_add a b) c = f_add a (f_add b c).
Proof. destruct a, b, c; cbn; try reflexivity. f_equal. lra. Qed.
Lemma residual_perm g l l' : Permutation l l' -> forall a, residual g a l = residual g a l'.
Proof.
  intros H. induction H as [|[y c] l l' H IH|[y c] [y' c'] l|l l1 l2 H1 IH1 H2 IH2]; intros a; cbn [residual]; [reflexivity|apply IH| |rewrite IH1; apply IH2].
  f_equal. rewrite !f_add_assoc. f_equal. apply f_add_comm.
Qed.
Lemma adjustment_perm g l l' : Permutation l l' -> forall a, adjustment g a l = adjustment g a l'.
Proof.
  intros H. induction H as [|[y c] l l' H IH|[y c] [y' c'] l|l l1 l2 H1 IH1 H2 IH2]; intros a; cbn [adjustment]; [reflexivity|apply IH| |rewrite IH1; apply IH2].
  f_equal. unfold f_sub. rewrite !f_add_assoc. f_equal. apply f_add_comm.
Qed.
Lemma loop_perm n c0 l l' : Permutation l l' -> forall g, irr_loop n c0 l g = irr_loop n c0 l' g.
Proof.
  intros H. induction n as [|n IH]; intros g; cbn [irr_loop]; [reflexivity|].
  rewrite (residual_perm g l l' H), (adjustment_perm g l l' H), IH. reflexivity.
Qed.
Fixpoint pairs (s : R) (l : list (Z * R)) : outcome (list (R * R)) :=
  match l with [] => Ok [] | (d, c) :: l' => do y <- years_of d; do r <- pairs s l'; Ok ((y - s, c) :: r) end.
Lemma month_loop_panic n i lp acc : (exists v, month_loop n i lp acc = Ok v) \/ month_loop n i lp acc = Panic.
Proof.
  revert i acc. induction n as [|n IH]; intros i acc; [left; eexists; reflexivity|]. cbn [month_loop].
  destruct (nth_error monthDays i); [apply IH|right; reflexivity].
Qed.
Lemma years_panic d : (exists t, years_of d = Ok t) \/ years_of d = Panic.
Proof.
  unfold years_of, as_years. match goal with |- context [month_loop ?n ?i ?lp ?acc] => destruct (month_loop_panic n i lp acc) as [[v E]|E]; rewrite E end;
    cbn [obind]; [left; eexists; reflexivity|right; reflexivity].
Qed.
Lemma pairs_ok s ds cs : length ds = length cs -> (do ys <- years_from s ds; pair_up ys cs) = pairs s (combine ds cs).
Proof.
  revert cs. induction ds as [|d ds IH]; intros [|c cs] H; try discriminate; [reflexivity|]. injection H as H. cbn [years_from combine pairs].
  destruct (years_panic d) as [[t ->]| ->]; cbn [obind]; [|reflexivity]. rewrite <- IH by exact H.
  destruct (years_from s ds); cbn [obind pair_up]; try reflexivity.
Qed.
Lemma pairs_perm s p p' : Permutation p p' ->
  (exists l l', pairs s p = Ok l /\ pairs s p' = Ok l' /\ Permutation l l') \/ (pairs s p = Panic /\ pairs s p' = Panic).
Proof.
  intros H. induction H as [|[d c] p p' H IH|[d c] [d' c'] p|p p1 p2 H1 IH1 H2 IH2]; cbn [pairs].
  - left. exists [], []. auto.
  - destruct (years_panic d) as [[t ->]| ->]; cbn [obind]; [|right; auto].
    destruct IH as [(l & l' & -> & -> & IH)|[-> ->]]; cbn [obind]; [left|right; auto]. do 2 eexists. split; [reflexivity|]. split; [reflexivity|]. constructor. exact IH.
  - destruct (years_panic d) as [[t E]|E], (years_panic d') as [[t' E']|E']; rewrite E, E'; cbn [obind]; try (right; auto; fail).
    assert (G : (exists l, pairs s p = Ok l) \/ pairs s p = Panic).
    { clear. induction p as [|[d c] p IH]; cbn [pairs]; [left; eexists; reflexivity|]. destruct (years_panic d) as [[t ->]| ->]; cbn [obind]; [|auto].
      destruct IH as [[l ->]| ->]; cbn [obind]; [left; eexists; reflexivity|auto]. }
    destruct G as [[l ->]| ->]; cbn [obind]; [left|right; auto]. do 2 eexists. split; [reflexivity|]. split; [reflexivity|]. constructor.
  - destruct IH1 as [(l & l' & A1 & A2 & A3)|[A1 A2]], IH2 as [(m & m' & B1 & B2 & B3)|[B1 B2]]; rewrite A2 in B1; try discriminate.
    + left. injection B1 as <-. exists l, m'. split; [exact A1|]. split; [exact B2|]. eapply Permutation_trans; eassumption.
    + right. auto.
Qed.
Lemma calc_pairs d0 ds c0 cs : length ds = length cs ->
  calculate_irr (d0 :: ds) (c0 :: cs) = do s <- years_of d0; do l <- pairs s (combine ds cs); Ok (irr_loop limit c0 l (Fin (1 / 10))).
Proof.
  intros H. unfold calculate_irr. destruct (years_of d0) as [s| | |]; cbn [obind]; try reflexivity. rewrite <- pairs_ok by exact H.
  destruct (years_from s ds); reflexivity.
Qed.
(** C104. The flows after the first may be given in any order. *)
Theorem C104_any_order :
  forall d0 ds c0 cs ds' cs', length ds = length cs -> length ds' = length cs' -> Permutation (combine ds cs) (combine ds' cs') ->
  calculate_irr (d0 :: ds) (c0 :: cs) = calculate_irr (d0 :: ds') (c0 :: cs').
Proof.
  intros d0 ds c0 cs ds' cs' H H' Q. rewrite !calc_pairs by assumption. destruct (years_of d0) as [s| | |]; cbn [obind]; try reflexivity.
  destruct (pairs_perm s _ _ Q) as [(l & l' & -> & -> & K)|[-> ->]]; cbn [obind]; [|reflexivity]. rewrite (loop_perm limit c0 l l' K). reflexivity.
Qed.
Print Assumptions C104_any_order.
(** ... and the day within the month is not looked at. *)
Theorem C104_day_of_month :
  forall y m d d' pre post cash, valid_ymd y m d -> valid_ymd y m d' ->
  calculate_irr (pre ++ ymd y m d :: post) cash = calculate_irr (pre ++ ymd y m d' :: post) cash.
Proof.
  intros y m d d' pre post cash V V'.
  assert (E : years_of (ymd y m d) = years_of (ymd y m d')) by (unfold years_of; rewrite (as_years_ignores_day _ y m d d' V V'); reflexivity).
  assert (F : forall s pre, years_from s (pre ++ ymd y m d :: post) = years_from s (pre ++ ymd y m d' :: post)).
  { intros s pre'. induction pre' as [|p pre' IH]; cbn [app years_from]; [rewrite E; reflexivity|rewrite IH; reflexivity]. }
  destruct pre as [|p pre]; cbn [app calculate_irr]; [rewrite E; reflexivity|]. destruct (years_of p); cbn [obind]; try reflexivity. rewrite F. reflexivity.
Qed.
Print Assumptions C104_day_of_month.

(** ** Signs *)
Definition neg (l : list (R * R)) : list (R * R) := map (fun yc => (fst yc, - snd yc)) l.
Lemma opp_add a b : f_add (f_opp a) (f_opp b) = f_opp (f_add a b).
Proof. destruct a, b; cbn; try reflexivity. f_equal. lra. Qed.
Lemma signed_opp x : signed (- x) = f_opp (signed x).
Proof. unfold signed. destruct (Rlt_dec 0 (- x)), (Rlt_dec (- x) 0), (Rlt_dec 0 x), (Rlt_dec x 0); cbn; try reflexivity; lra. Qed.
Lemma opp_div x b : f_div (Fin (- x)) b = f_opp (f_div (Fin x) b).
Proof.
  destruct b; cbn; try reflexivity; [|f_equal; lra|f_equal; lra]. destruct (Req_EM_T r 0); [apply signed_opp|]. cbn. f_equal. field. assumption.
Qed.
Lemma residual_neg g l : forall a, residual g (f_opp a) (neg l) = f_opp (residual g a l).
Proof.
  induction l as [|[y c] l IH]; intros a; cbn [residual neg map fst snd]; [reflexivity|]. rewrite opp_div, opp_add. apply IH.
Qed.
Lemma adjustment_neg g l : forall a, adjustment g (f_opp a) (neg l) = f_opp (adjustment g a l).
Proof.
  induction l as [|[y c] l IH]; intros a; cbn [adjustment neg map fst snd]; [reflexivity|]. unfold f_sub. cbn [f_mul].
  replace (y * - c) with (- (y * c)) by lra. rewrite opp_div, opp_add. apply IH.
Qed.
Lemma div_opp a b : b <> Fin 0 -> f_div (f_opp a) (f_opp b) = f_div a b.
Proof.
  intros H. destruct a as [x| | |], b as [y| | |]; cbn; try reflexivity.
  - destruct (Req_EM_T (- y) 0), (Req_EM_T y 0); [subst; exfalso; apply H; f_equal; lra|lra|lra|]. f_equal. field. assumption.
  - assert (y <> 0) by (intros ->; apply H; reflexivity). destruct (Rlt_dec (- y) 0), (Rlt_dec y 0); (reflexivity || lra).
  - assert (y <> 0) by (intros ->; apply H; reflexivity). destruct (Rlt_dec (- y) 0), (Rlt_dec y 0); (reflexivity || lra).
Qed.
Lemma abs_opp a : f_abs (f_opp a) = f_abs a.
Proof. destruct a; cbn; try reflexivity. f_equal. apply Rabs_Ropp. Qed.
(** The guesses that can occur *)
Definition guess_ok (g : fl) : Prop := match g with Fin g => -1 <= g | NaN => True | _ => False end.
Definition sunk (a : fl) : Prop := a = MInf \/ a = NaN.
Lemma adjustment_sunk g l : flows_ok l -> (g = Fin (-1) \/ g = NaN) -> forall a, sunk a -> sunk (adjustment g a l).
Proof.
  intros F G. induction F as [|[y c] l [Hy Hc] F IH]; intros a A; cbn [adjustment]; [exact A|]. apply IH. cbn in Hy, Hc.
  assert (K : 0 <= y * c) by (apply Rmult_le_pos; assumption).
  destruct G as [-> | ->]; cbn [f_add f_mul]; unfold f_pow.
  - destruct (Req_EM_T (y + 1) 0); [lra|]. replace (1 + -1) with 0 by lra. destruct (Rlt_dec 0 0); [lra|]. destruct (Req_EM_T 0 0); [|lra].
    destruct (Rlt_dec 0 (y + 1)); [|lra]. cbn [f_div]. destruct (Req_EM_T 0 0); [|lra]. unfold signed.
    destruct (Rlt_dec 0 (y * c)); [|destruct (Rlt_dec (y * c) 0); [lra|]]; destruct A as [-> | ->]; cbn; unfold sunk; auto.
  - destruct (Req_EM_T (y + 1) 0); [lra|]. cbn. destruct A as [-> | ->]; cbn; unfold sunk; auto.
Qed.
Lemma adjustment_end g l : flows_ok l -> l <> [] -> (g = Fin (-1) \/ g = NaN) -> sunk (adjustment g (Fin 0) l).
Proof.
  intros F N G. destruct l as [|[y c] l]; [contradiction|]. inversion F as [|? ? [Hy Hc] F']; subst. cbn in Hy, Hc. cbn [adjustment].
  apply adjustment_sunk; [exact F'|exact G|].
  assert (K : 0 <= y * c) by (apply Rmult_le_pos; assumption).
  destruct G as [-> | ->]; cbn [f_add f_mul]; unfold f_pow.
  - destruct (Req_EM_T (y + 1) 0); [lra|]. replace (1 + -1) with 0 by lra. destruct (Rlt_dec 0 0); [lra|]. destruct (Req_EM_T 0 0); [|lra].
    destruct (Rlt_dec 0 (y + 1)); [|lra]. cbn [f_div]. destruct (Req_EM_T 0 0); [|lra]. unfold signed.
    destruct (Rlt_dec 0 (y * c)); [|destruct (Rlt_dec (y * c) 0); [lra|]]; cbn; unfold sunk; auto.
  - destruct (Req_EM_T (y + 1) 0); [lra|]. cbn. unfold sunk; auto.
Qed.
Lemma loop_neg c0 l : flows_ok l -> slopes l -> l <> [] -> forall n g, guess_ok g -> irr_loop n (- c0) (neg l) g = irr_loop n c0 l g.
Proof.
  intros F SL N. induction n as [|n IH]; intros g G; [reflexivity|]. cbn [irr_loop].
  assert (A : adjustment g (Fin 0) l <> Fin 0 /\
    guess_ok (let newRate := f_sub g (f_div (residual g (Fin c0) l) (adjustment g (Fin 0) l)) in
              if f_lt newRate (Fin (-1)) then Fin (- (999999999 / 1000000000)) else newRate)).
  { assert (B : (exists x, g = Fin x /\ 0 < 1 + x) \/ g = Fin (-1) \/ g = NaN).
    { destruct g as [x| | |]; try contradiction; [|auto]. destruct (Req_EM_T x (-1)) as [->|]; [auto|]. left. exists x. cbn in G. split; [reflexivity|lra]. }
    destruct B as [(x & -> & Hx)|B].
    - rewrite adjustment_fin, residual_fin by exact Hx. pose proof (SL _ Hx) as HD. split; [intros E; injection E as E; lra|].
      rewrite div_fin by lra. cbv zeta. unfold f_sub. cbn [f_opp f_add f_lt].
      match goal with |- context [Rlt_dec ?u ?v] => destruct (Rlt_dec u v) end; cbn [guess_ok]; lra.
    - pose proof (adjustment_end g l F N B) as K. split; [destruct K as [-> | ->]; discriminate|]. cbv zeta.
      destruct K as [-> | ->].
      + destruct B as [-> | ->]; [|destruct (f_div (residual NaN (Fin c0) l) MInf); exact I].
        destruct (residual (Fin (-1)) (Fin c0) l); cbn [f_div f_sub f_opp f_add f_lt]; unfold f_sub; cbn; try exact I. destruct (Rlt_dec (-1 + - 0) (-1)); cbn; lra.
      + assert (E : forall v, f_div v NaN = NaN) by (intros []; reflexivity). rewrite E. destruct B as [-> | ->]; exact I. }
  destruct A as [A1 A2]. cbv zeta in A2.
  assert (R1 : residual g (Fin (- c0)) (neg l) = f_opp (residual g (Fin c0) l)) by apply (residual_neg g l (Fin c0)).
  assert (R2 : adjustment g (Fin 0) (neg l) = f_opp (adjustment g (Fin 0) l)).
  { rewrite <- (adjustment_neg g l (Fin 0)). cbn [f_opp]. do 2 f_equal. lra. }
  rewrite R1, R2, abs_opp, div_opp by exact A1. rewrite IH by exact A2. reflexivity.
Qed.
Lemma schedule_neg d0 ds cs l : schedule d0 ds cs l -> schedule d0 ds (map Ropp cs) (neg l).
Proof.
  intros (<- & t0 & T & F). split; [unfold neg; rewrite !map_map; reflexivity|]. exists t0. split; [exact T|].
  unfold neg. induction F as [|d yc ds l H F IH]; cbn; constructor; [exact H|exact IH].
Qed.
(** C103. What is the rate of an investment to the one is that of a loan to the other: with all signs reversed the answer is the same, for a first flow and later flows that all
    have the same sign, one of them in a later month. *)
Theorem C103_loan_partial :
  forall d0 ds c0 cs l, schedule d0 ds cs l -> Forall (fun yc => 0 <= fst yc /\ 0 <= snd yc) l -> Exists (fun yc => 0 < fst yc /\ 0 < snd yc) l ->
  calculate_irr (d0 :: ds) (map Ropp (c0 :: cs)) = calculate_irr (d0 :: ds) (c0 :: cs).
Proof.
  intros d0 ds c0 cs l H F E. cbn [map]. rewrite (irr_schedule d0 ds c0 cs l H), (irr_schedule d0 ds (- c0) (map Ropp cs) (neg l) (schedule_neg _ _ _ _ H)).
  apply f_equal. generalize limit. intros n. apply loop_neg; [exact F|apply slopes_some; assumption|intros ->; inversion E|cbn; lra].
Qed.
Print Assumptions C103_loan_partial.
(** It is not so for all flows: 100 paid and 110 back in the same month is said to be a rate of -99.9999999%; with the signs reversed it is infinite. *)
Lemma pow_0 x : f_pow x 0 = Fin 1.
Proof. unfold f_pow. destruct (Req_EM_T 0 0); [reflexivity|lra]. Qed.
Lemma abs_big a : 1 <= Rabs a -> f_lt (f_abs (Fin a)) epsilon = false.
Proof. intros H. apply lt_fin_false. lra. Qed.
Lemma same_month_gain n : forall g, -1 < g -> irr_loop (S n) (-100) [(0, 110)] (Fin g) = Fin floor_rate.
Proof.
  assert (Step : forall n g, -1 < g -> irr_loop (S n) (-100) [(0, 110)] (Fin g) = irr_loop n (-100) [(0, 110)] (Fin floor_rate)).
  { clear n. intros n g G. cbn [irr_loop]. rewrite adjustment_fin by lra. cbn [residual f_add]. rewrite pow_0, div_fin by lra. cbn [f_add D].
    rewrite abs_big by (replace (-100 + 110 / 1) with 10 by lra; rewrite Rabs_pos_eq; lra).
    replace (0 - (0 * 110 / Rpower (1 + g) (0 + 1) + 0)) with 0 by (field; apply Rpower_nz).
    cbn [f_div]. destruct (Req_EM_T 0 0); [|lra]. unfold signed. destruct (Rlt_dec 0 (-100 + 110 / 1)); [|lra]. reflexivity. }
  induction n as [|n IH]; intros g G; rewrite Step by exact G; [reflexivity|]. apply IH. unfold floor_rate. lra.
Qed.
Lemma same_month_loss n : irr_loop (S n) 100 [(0, -110)] (Fin (1 / 10)) = PInf.
Proof.
  assert (Stay : forall n, irr_loop n 100 [(0, -110)] PInf = PInf).
  { clear n. induction n as [|n IH]; [reflexivity|]. cbn [irr_loop residual adjustment f_add f_mul]. rewrite pow_0, div_fin by lra. cbn [f_add].
    rewrite abs_big by (replace (100 + -110 / 1) with (-10) by lra; rewrite Rabs_left1; lra).
    assert (E : f_pow PInf (0 + 1) = PInf). { unfold f_pow. destruct (Req_EM_T (0 + 1) 0); [lra|]. destruct (Rlt_dec 0 (0 + 1)); [reflexivity|lra]. }
    rewrite E. unfold f_sub. cbn [f_div f_opp f_add]. destruct (Req_EM_T (0 + - 0) 0); [|lra]. unfold signed.
    destruct (Rlt_dec 0 (100 + -110 / 1)); [lra|]. destruct (Rlt_dec (100 + -110 / 1) 0); [|lra]. cbn [f_opp f_add f_abs f_lt]. exact IH. }
  cbn [irr_loop]. rewrite adjustment_fin by lra. cbn [residual f_add]. rewrite pow_0, div_fin by lra. cbn [f_add D].
  rewrite abs_big by (replace (100 + -110 / 1) with (-10) by lra; rewrite Rabs_left1; lra).
  replace (0 - (0 * -110 / Rpower (1 + 1 / 10) (0 + 1) + 0)) with 0 by (field; apply Rpower_nz).
  cbn [f_div]. destruct (Req_EM_T 0 0); [|lra]. unfold signed. destruct (Rlt_dec 0 (100 + -110 / 1)); [lra|]. destruct (Rlt_dec (100 + -110 / 1) 0); [|lra].
  unfold f_sub. cbn [f_opp f_add f_abs f_lt epsilon]. apply Stay.
Qed.
Lemma in_january c : schedule 20210101 [20210131]%Z [c] [(0, c)].
Proof.
  split; [reflexivity|]. exists 2021. split; [apply (new_year 2021); lia|]. repeat constructor. exists 2021. cbn. split; [|lra].
  exists 2021%Z, 1%Z, 31%Z. split; [unfold valid_ymd; cbn; lia|]. split; [reflexivity|]. unfold point. cbn. lra.
Qed.
Theorem C103_sign_refuted :
  calculate_irr [20210101; 20210131]%Z [-100; 110] = Ok (Fin (- (999999999 / 1000000000)))
  /\ calculate_irr [20210101; 20210131]%Z [100; -110] = Ok PInf.
Proof.
  rewrite (irr_schedule 20210101 [20210131]%Z (-100) [110] [(0, 110)] (in_january 110)), (irr_schedule 20210101 [20210131]%Z 100 [-110] [(0, -110)] (in_january (-110))), limit_S.
  split; apply f_equal; [apply same_month_gain; lra|apply same_month_loss].
Qed.
Print Assumptions C103_sign_refuted.
(** Nor does the unit of the amounts not matter: flows that, discounted by 10%, leave less than 0.0001 are said to be a rate of 10%. *)
Theorem C103_small_amounts_refuted :
  forall d0 ds c0 cs l, schedule d0 ds cs l -> Rabs (npv c0 l (1 / 10)) < 1 / 10000 -> calculate_irr (d0 :: ds) (c0 :: cs) = Ok (Fin (1 / 10)).
Proof.
  intros d0 ds c0 cs l H N. rewrite (irr_schedule _ _ _ _ _ H), limit_S. apply f_equal. cbn [irr_loop]. rewrite residual_fin by lra. cbn [f_abs].
  unfold npv in N. rewrite present_P in N. unfold epsilon. rewrite (proj2 (lt_fin _ _) N). reflexivity.
Qed.
Print Assumptions C103_small_amounts_refuted.
Lemma one_year c : schedule 20210101 [20220101]%Z [c] [(1, c)].
Proof.
  split; [reflexivity|]. exists 2021. split; [apply (new_year 2021); lia|]. repeat constructor. exists 2022. cbn. split; [apply (new_year 2022); lia|lra].
Qed.
(** 50 that become 100 in a year are about 100%, 0.00005 that become 0.0001 are 10% *)
Example ex_unit : calculate_irr [20210101; 20220101]%Z [-50; 100] <> calculate_irr [20210101; 20220101]%Z (map (Rmult (1 / 1000000)) [-50; 100]).
Proof.
  cbn [map]. rewrite (C103_small_amounts_refuted _ _ (1 / 1000000 * -50) _ _ (one_year (1 / 1000000 * 100))).
  - destruct (C102_rate_close_partial 20210101 [20220101]%Z (-50) [100] [(1, 100)] 1 1) as (r & E & C).
    + apply one_year.
    + split; [lra|]. split; [repeat constructor; cbn; lra|]. constructor. cbn. lra.
    + repeat constructor; lia.
    + cbn. rewrite Rpower_1 by lra. lra.
    + split; [lra|]. unfold npv. cbn. rewrite Rpower_1 by lra. lra.
    + lra.
    + lra.
    + repeat constructor; cbn; lra.
    + lra.
    + rewrite E. intros Q. injection Q as ->. rewrite Rabs_pos_eq in C by lra. lra.
  - unfold npv. cbn. rewrite Rpower_1 by lra. apply Rabs_def1; lra.
Qed.
(** The hypotheses of [C103_loan_partial] and [C104_any_order] are met *)
Example ex_loan : calculate_irr [20210101; 20220101; 20230101]%Z [100; -50; -150] = calculate_irr [20210101; 20220101; 20230101]%Z [-100; 50; 150].
Proof.
  rewrite <- (C103_loan_partial 20210101 [20220101; 20230101]%Z (-100) [50; 150] [(1, 50); (2, 150)]).
  - cbn [map]. do 2 f_equal. lra.
  - exact ex_schedule.
  - repeat constructor; cbn; lra.
  - constructor. cbn. lra.
Qed.
Example ex_order : calculate_irr [20210101; 20230101; 20220101]%Z [-100; 150; 50] = calculate_irr [20210101; 20220101; 20230101]%Z [-100; 50; 150].
Proof. apply C104_any_order; try reflexivity. cbn [combine]. apply perm_swap. Qed.
Example ex_day : calculate_irr [20210101; 20220101]%Z [-100; 150] = calculate_irr [20210101; 20220131]%Z [-100; 150].
Proof. apply (C104_day_of_month 2022 1 1 31 [20210101]%Z []); unfold valid_ymd; cbn; lia. Qed.
