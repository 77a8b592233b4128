(** * IrrProofs2: the rounds of the loop, for an investment. *)
From Coq Require Import Reals Lra.
From Verif Require Import Base DateSpec DateModel IrrModel IrrSpec IrrProofs.
Local Open Scope R_scope.

Definition slopes (l : list (R * R)) : Prop := forall x, 0 < x -> 0 < D x l.
Lemma slopes_of l m : 0 < m -> Forall (fun yc => m <= fst yc /\ 0 <= snd yc) l -> Exists (fun yc => 0 < snd yc) l -> slopes l.
Proof.
  intros Hm F E x Hx. pose proof (D_lower x l m Hx (Rlt_le _ _ Hm) F) as L.
  assert (0 < P x l). { apply P_pos; [|exact E]. eapply Forall_impl; [|exact F]. cbn. tauto. }
  assert (0 < m * P x l / x) by (apply Rdiv_lt_0_compat; [apply Rmult_lt_0_compat; lra|lra]). lra.
Qed.
Lemma slopes_some l : flows_ok l -> Exists (fun yc => 0 < fst yc /\ 0 < snd yc) l -> slopes l.
Proof.
  intros F E x Hx. revert E. induction F as [|[y c] l [Hy Hc] F IH]; intros E; [inversion E|]. cbn [D]. cbn in Hy, Hc.
  pose proof (Rinv_0_lt_compat _ (Rpower_pos x (y + 1))) as K.
  assert (N : 0 <= D x l).
  { clear - F. induction F as [|[y c] l [Hy Hc] F IH]; cbn [D]; [lra|]. cbn in Hy, Hc. pose proof (Rinv_0_lt_compat _ (Rpower_pos x (y + 1))) as K.
    assert (0 <= y * c * / Rpower x (y + 1)) by (apply Rmult_le_pos; [apply Rmult_le_pos; assumption|lra]). unfold Rdiv. lra. }
  inversion E as [? ? [A B]|? ? E']; subst; cbn in *.
  - assert (0 < y * c * / Rpower x (y + 1)) by (apply Rmult_lt_0_compat; [apply Rmult_lt_0_compat; assumption|exact K]). unfold Rdiv. lra.
  - assert (0 <= y * c * / Rpower x (y + 1)) by (apply Rmult_le_pos; [apply Rmult_le_pos; assumption|lra]). unfold Rdiv. specialize (IH E'). lra.
Qed.
Lemma newton_above A l x : flows_ok l -> slopes l -> 0 < x -> 0 < newton A l x -> 0 <= f A l (newton A l x).
Proof.
  intros F S Hx Hn. pose proof (P_tangent x _ l Hx Hn F) as T. specialize (S x Hx).
  unfold newton, f in *. replace (D x l * (x + (P x l - A) / D x l - x)) with (P x l - A) in T by (field; lra). lra.
Qed.
Lemma below A l x z : flows_ok l -> slopes l -> 0 < x -> 0 < z -> 0 <= f A l x -> f A l z <= 0 -> x <= z.
Proof.
  intros F S Hx Hz Fx Fz. pose proof (P_tangent x z l Hx Hz F) as T. specialize (S x Hx). unfold f in *.
  destruct (Rle_dec x z) as [|N]; [assumption|exfalso]. assert (0 < D x l * (x - z)) by (apply Rmult_lt_0_compat; lra). lra.
Qed.
Definition good (A : R) (l : list (R * R)) (r : R) : Prop := Rabs (f A l (1 + r)) < eps \/ Rabs (f A l (1 + r)) < eps * D (1 + r) l.
Lemma small_step A l x : slopes l -> 0 < x -> Rabs (newton A l x - x) < eps -> Rabs (f A l x) < eps * D x l.
Proof.
  intros S Hx H. specialize (S x Hx). unfold newton in H.
  replace (x + f A l x / D x l - x) with (f A l x / D x l) in H by lra.
  unfold Rdiv in H. rewrite Rabs_mult, (Rabs_pos_eq (/ D x l)) in H by (left; apply Rinv_0_lt_compat; exact S).
  apply (Rmult_lt_compat_r (D x l)) in H; [|exact S]. rewrite Rmult_assoc, Rinv_l, Rmult_1_r in H by lra. exact H.
Qed.
Lemma climb A l : flows_ok l -> slopes l -> forall n g, 0 < 1 + g -> 0 <= f A l (1 + g) ->
  exists r, irr_loop n (- A) l (Fin g) = Fin r /\ g <= r /\ 0 <= f A l (1 + r) /\ (good A l r \/ g + INR n * eps <= r).
Proof.
  intros F S. induction n as [|n IH]; intros g Hg Hf.
  - exists g. split; [reflexivity|]. split; [lra|]. split; [exact Hf|]. right. cbn. lra.
  - pose proof (S _ Hg) as HD. rewrite loop_step by lra. cbv zeta.
    destruct (Rlt_dec (Rabs (f A l (1 + g))) eps) as [C|C]; [exists g; repeat split; [lra|exact Hf|left; left; exact C]|].
    destruct (Rlt_dec (Rabs (newton A l (1 + g) - (1 + g))) eps) as [C2|C2];
      [exists g; repeat split; [lra|exact Hf|left; right; apply small_step; assumption]|].
    assert (G : 1 + g <= newton A l (1 + g)).
    { unfold newton. assert (0 <= f A l (1 + g) / D (1 + g) l); [|lra]. apply Rmult_le_pos; [exact Hf|]. left. apply Rinv_0_lt_compat. exact HD. }
    assert (G2 : eps <= newton A l (1 + g) - (1 + g)) by (rewrite Rabs_pos_eq in C2 by lra; lra).
    destruct (Rlt_dec (newton A l (1 + g)) 0) as [N|_]; [lra|].
    destruct (IH (newton A l (1 + g) - 1)) as (r & E & L & Fr & C3).
    + lra.
    + replace (1 + (newton A l (1 + g) - 1)) with (newton A l (1 + g)) by lra. apply newton_above; (assumption || lra).
    + exists r. split; [exact E|]. split; [lra|]. split; [exact Fr|]. destruct C3 as [C3|C3]; [left; exact C3|right].
      rewrite S_INR. lra.
Qed.

(** The first guess, 10%, and the rounds after it *)
Lemma limit_S : limit = S (Z.to_nat 9999).
Proof. unfold limit. rewrite <- Z2Nat.inj_succ by lia. reflexivity. Qed.
Lemma INR_to_nat z : (0 <= z)%Z -> INR (Z.to_nat z) = IZR z.
Proof. intros H. rewrite INR_IZR_INZ, Z2Nat.id by exact H. reflexivity. Qed.
Lemma good_close A l x : flows_ok l -> slopes l -> 0 < x -> 0 <= f A l x -> f A l (11 / 10) < 0 -> 11 / 10 - x <= eps -> good A l (x - 1).
Proof.
  intros F S Hx Fx F1 L. right. replace (1 + (x - 1)) with x by lra. rewrite Rabs_pos_eq by exact Fx.
  pose proof (P_tangent x (11 / 10) l Hx ltac:(lra) F) as T. specialize (S x Hx). unfold f in *.
  assert (D x l * (11 / 10 - x) <= D x l * eps) by (apply Rmult_le_compat_l; lra). lra.
Qed.
Theorem found A l : flows_ok l -> slopes l -> 1 / 10 <= newton A l (11 / 10) ->
  exists r, irr_loop limit (- A) l (Fin (1 / 10)) = Fin r /\ - (9 / 10) <= r
    /\ (good A l r \/ 11 / 10 <= r) /\ (0 <= f A l (1 + r) \/ r = 1 / 10 /\ good A l r).
Proof.
  intros F S N.
  destruct (Rle_dec 0 (f A l (11 / 10))) as [C|C].
  - destruct (climb A l F S limit (1 / 10)) as (r & E & L & Fr & G); [lra|replace (1 + 1 / 10) with (11 / 10) by lra; exact C|].
    exists r. split; [exact E|]. split; [lra|]. split; [|left; exact Fr].
    destruct G as [G|G]; [left; exact G|right]. unfold limit in G. rewrite INR_to_nat in G by lia. unfold eps in G. lra.
  - rewrite limit_S. pose proof (S (11 / 10) ltac:(lra)) as HD.
    rewrite loop_step by (replace (1 + 1 / 10) with (11 / 10) by lra; lra). cbv zeta. replace (1 + 1 / 10) with (11 / 10) by lra.
    destruct (Rlt_dec (Rabs (f A l (11 / 10))) eps) as [C1|C1].
    { exists (1 / 10). split; [reflexivity|]. split; [lra|].
      assert (G : good A l (1 / 10)) by (left; replace (1 + 1 / 10) with (11 / 10) by lra; exact C1). tauto. }
    destruct (Rlt_dec (Rabs (newton A l (11 / 10) - 11 / 10)) eps) as [C2|C2].
    { exists (1 / 10). split; [reflexivity|]. split; [lra|].
      assert (G : good A l (1 / 10)) by (right; replace (1 + 1 / 10) with (11 / 10) by lra; apply small_step; (assumption || lra)). tauto. }
    destruct (Rlt_dec (newton A l (11 / 10)) 0) as [B|_]; [lra|].
    destruct (climb A l F S (Z.to_nat 9999) (newton A l (11 / 10) - 1)) as (r & E & L & Fr & G).
    + lra.
    + replace (1 + (newton A l (11 / 10) - 1)) with (newton A l (11 / 10)) by lra. apply newton_above; (assumption || lra).
    + exists r. split; [exact E|]. split; [lra|]. split; [|left; exact Fr]. left.
      destruct G as [G|G]; [exact G|]. rewrite INR_to_nat in G by lia.
      replace r with ((1 + r) - 1) by lra. apply good_close; try assumption; unfold eps in *; lra.
Qed.
(** ... and when the first correction falls below -100% *)
Theorem lost A l : flows_ok l -> slopes l -> Forall (fun yc => 1 / 1000 <= fst yc /\ 0 <= snd yc) l ->
  newton A l (11 / 10) < 0 -> f A l (11 / 10) <= - eps -> 0 <= f A l (1 + floor_rate) -> 0 < A ->
  irr_loop limit (- A) l (Fin (1 / 10)) = Fin floor_rate.
Proof.
  intros F S M N F1 F0 HA. pose proof (S (11 / 10) ltac:(lra)) as HD. rewrite limit_S.
  rewrite loop_step by (replace (1 + 1 / 10) with (11 / 10) by lra; lra). cbv zeta. replace (1 + 1 / 10) with (11 / 10) by lra.
  assert (0 < eps) by (unfold eps; lra).
  destruct (Rlt_dec (Rabs (f A l (11 / 10))) eps) as [C|_]; [rewrite Rabs_left1 in C by lra; lra|].
  destruct (Rlt_dec (Rabs (newton A l (11 / 10) - 11 / 10)) eps) as [C|_]; [rewrite Rabs_left1 in C by lra; unfold eps in C; lra|].
  destruct (Rlt_dec (newton A l (11 / 10)) 0) as [_|C]; [|contradiction].
  replace (Z.to_nat 9999) with (Datatypes.S (Z.to_nat 9998)) by (rewrite <- Z2Nat.inj_succ by lia; reflexivity).
  assert (Hx : 0 < 1 + floor_rate) by (unfold floor_rate; lra).
  pose proof (S _ Hx) as HD2. rewrite loop_step by lra. cbv zeta.
  destruct (Rlt_dec (Rabs (f A l (1 + floor_rate))) eps); [reflexivity|].
  destruct (Rlt_dec (Rabs (newton A l (1 + floor_rate) - (1 + floor_rate))) eps) as [|C]; [reflexivity|exfalso; apply C].
  unfold newton. replace (1 + floor_rate + f A l (1 + floor_rate) / D (1 + floor_rate) l - (1 + floor_rate)) with (f A l (1 + floor_rate) / D (1 + floor_rate) l) by lra.
  rewrite Rabs_pos_eq by (apply Rmult_le_pos; [exact F0|left; apply Rinv_0_lt_compat; exact HD2]).
  pose proof (D_lower _ l (1 / 1000) Hx ltac:(lra) M) as L. set (x := 1 + floor_rate) in *. set (d := D x l) in *. set (p := P x l) in *.
  assert (f A l x < p) by (unfold f, p; lra).
  apply Rmult_lt_reg_r with d; [exact HD2|]. unfold Rdiv at 1. rewrite Rmult_assoc, Rinv_l, Rmult_1_r by lra.
  assert (Ex : x = 1 / 1000000000) by (unfold x, floor_rate; lra). rewrite Ex in L.
  assert (0 <= p) by (unfold p; apply P_nonneg; exact F).
  replace (1 / 1000 * p / (1 / 1000000000)) with (1000000 * p) in L by lra. unfold eps. lra.
Qed.

(** ** How close to the rate of return *)
Lemma close A l x z Y m : Forall (fun yc => m <= fst yc <= Y /\ 0 <= snd yc) l -> 0 < m -> flows_ok l -> slopes l -> 0 < A -> 0 < x -> 0 < z ->
  f A l z = 0 -> 0 <= f A l x -> 2 * eps * Y <= x -> Rabs (f A l x) < eps * D x l -> x <= z /\ z - x <= 2 * eps * (Y / m) * (z / x).
Proof.
  intros B Hm F S HA Hx Hz Fz Fx HY G. split; [apply (below A l); (assumption || lra)|].
  rewrite Rabs_pos_eq in G by exact Fx.
  pose proof (P_tangent z x l Hz Hx F) as T.
  pose proof (D_lower z l m Hz (Rlt_le _ _ Hm) ltac:(eapply Forall_impl; [|exact B]; cbn; intros; lra)) as DL.
  pose proof (D_upper x l Y Hx ltac:(eapply Forall_impl; [|exact B]; cbn; intros; lra)) as DU.
  unfold f in *. assert (Pz : P z l = A) by lra. rewrite Pz in *.
  pose proof (P_nonneg x l F) as P0.
  (* P x <= 2 A *)
  assert (E1 : eps * D x l <= P x l / 2).
  { apply Rle_trans with (eps * (Y * P x l / x)); [apply Rmult_le_compat_l; [unfold eps; lra|exact DU]|].
    replace (eps * (Y * P x l / x)) with ((2 * eps * Y) * / x * (P x l / 2)) by (field; lra).
    rewrite <- (Rmult_1_l (P x l / 2)) at 2. apply Rmult_le_compat_r; [lra|].
    apply Rmult_le_reg_r with x; [exact Hx|]. rewrite Rmult_assoc, Rinv_l, Rmult_1_l, Rmult_1_r by lra. exact HY. }
  assert (E2 : P x l <= 2 * A) by lra.
  destruct l as [|yc l']; [exfalso; cbn in Pz; lra|].
  assert (HYp : 0 < Y) by (inversion B; subst; lra). set (l := yc :: l') in *.
  assert (E3 : (z - x) * (m * A / z) <= 2 * eps * Y * A / x).
  { destruct (Rle_dec 0 (z - x)) as [C|C].
    - apply Rle_trans with ((z - x) * D z l); [apply Rmult_le_compat_l; assumption|].
      apply Rle_trans with (P x l - A); [lra|]. left. eapply Rlt_le_trans; [exact G|].
      apply Rle_trans with (eps * (Y * P x l / x)); [apply Rmult_le_compat_l; [unfold eps; lra|exact DU]|].
      replace (eps * (Y * P x l / x)) with (eps * Y / x * P x l) by (field; lra).
      replace (2 * eps * Y * A / x) with (eps * Y / x * (2 * A)) by (field; lra).
      apply Rmult_le_compat_l; [|exact E2]. left. apply Rdiv_lt_0_compat; [apply Rmult_lt_0_compat; [unfold eps; lra|exact HYp]|exact Hx].
    - assert (0 < m * A / z) by (apply Rdiv_lt_0_compat; [apply Rmult_lt_0_compat|]; assumption).
      assert (0 < 2 * eps * Y * A / x) by (apply Rdiv_lt_0_compat; [repeat apply Rmult_lt_0_compat; (assumption || unfold eps; lra)|assumption]).
      assert (0 < (x - z) * (m * A / z)) by (apply Rmult_lt_0_compat; lra). lra. }
  apply Rmult_le_reg_r with (m * A / z); [apply Rdiv_lt_0_compat; [apply Rmult_lt_0_compat|]; assumption|].
  eapply Rle_trans; [exact E3|]. right. field. lra.
Qed.
Lemma close_value A l x z m : Forall (fun yc => m <= fst yc /\ 0 <= snd yc) l -> 0 < m -> flows_ok l -> slopes l -> 0 < A -> 0 < x -> 0 < z ->
  f A l z = 0 -> 0 <= f A l x -> Rabs (f A l x) < eps -> x <= z /\ z - x <= eps * z / (m * A).
Proof.
  intros B Hm F S HA Hx Hz Fz Fx G. split; [apply (below A l); (assumption || lra)|].
  rewrite Rabs_pos_eq in G by exact Fx.
  pose proof (P_tangent z x l Hz Hx F) as T. pose proof (D_lower z l m Hz (Rlt_le _ _ Hm) B) as DL.
  unfold f in *. assert (Pz : P z l = A) by lra. rewrite Pz in *.
  assert (x <= z) by (apply (below A l); (assumption || unfold f; lra)).
  assert (K : 0 < m * A / z) by (apply Rdiv_lt_0_compat; [apply Rmult_lt_0_compat|]; assumption).
  apply Rmult_le_reg_r with (m * A / z); [exact K|].
  apply Rle_trans with ((z - x) * D z l); [apply Rmult_le_compat_l; lra|].
  apply Rle_trans with eps; [lra|]. right. field. lra.
Qed.
