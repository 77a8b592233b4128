(** * IrrProofs: Newton's method on present values. *)
From Coq Require Import Reals Lra.
From Verif Require Import Base DateSpec DateModel IrrModel IrrSpec.
Local Open Scope R_scope.

(** ** Present values and their slope, as functions of x = 1 + rate *)
Fixpoint P (x : R) (l : list (R * R)) : R := match l with [] => 0 | (y, c) :: l' => c / Rpower x y + P x l' end.
Fixpoint D (x : R) (l : list (R * R)) : R := match l with [] => 0 | (y, c) :: l' => y * c / Rpower x (y + 1) + D x l' end.
Lemma present_P r l : present r l = P (1 + r) l.
Proof. induction l as [|[y c] l IH]; cbn; [reflexivity|rewrite IH; reflexivity]. Qed.
Lemma Rpower_pos x y : 0 < Rpower x y.
Proof. apply exp_pos. Qed.
Lemma Rpower_nz x y : Rpower x y <> 0.
Proof. pose proof (Rpower_pos x y). lra. Qed.

Lemma pow_fin x y : 0 < x -> f_pow (Fin x) y = Fin (Rpower x y).
Proof.
  intros H. unfold f_pow. destruct (Req_EM_T y 0) as [->|]; [rewrite Rpower_O by exact H; reflexivity|].
  destruct (Rlt_dec 0 x); [reflexivity|lra].
Qed.
Lemma div_fin a b : b <> 0 -> f_div (Fin a) (Fin b) = Fin (a / b).
Proof. intros H. cbn. destruct (Req_EM_T b 0); [contradiction|reflexivity]. Qed.
Lemma residual_fin g l : 0 < 1 + g -> forall a, residual (Fin g) (Fin a) l = Fin (a + P (1 + g) l).
Proof.
  intros Hg. induction l as [|[y c] l IH]; intros a; cbn [residual P]; [f_equal; lra|].
  cbn [f_add]. rewrite pow_fin, div_fin by (auto using Rpower_nz). cbn [f_add]. rewrite IH. f_equal. lra.
Qed.
Lemma adjustment_fin g l : 0 < 1 + g -> forall a, adjustment (Fin g) (Fin a) l = Fin (a - D (1 + g) l).
Proof.
  intros Hg. induction l as [|[y c] l IH]; intros a; cbn [adjustment D]; [f_equal; lra|].
  cbn [f_add f_mul]. rewrite pow_fin, div_fin by (auto using Rpower_nz). unfold f_sub. cbn [f_opp f_add]. rewrite IH. f_equal. lra.
Qed.

(** ** Convexity *)
Lemma power_tangent x z y : 0 < x -> 0 < z -> 0 <= y -> / Rpower x y - y * (z - x) / Rpower x (y + 1) <= / Rpower z y.
Proof.
  intros Hx Hz Hy.
  assert (E1 : / Rpower z y = / Rpower x y * exp (- (y * ln (z / x)))).
  { unfold Rpower. rewrite <- !exp_Ropp, <- exp_plus. f_equal. unfold Rdiv. rewrite ln_mult, ln_Rinv by (auto using Rinv_0_lt_compat). lra. }
  assert (E2 : / Rpower x (y + 1) = / Rpower x y * / x).
  { rewrite Rpower_plus, Rpower_1 by exact Hx. rewrite Rinv_mult. reflexivity. }
  pose proof (Rpower_pos x y) as Hp. apply Rinv_0_lt_compat in Hp.
  assert (T : 0 < z / x) by (apply Rdiv_lt_0_compat; assumption).
  pose proof (exp_ineq1_le (ln (z / x))) as L. rewrite exp_ln in L by exact T.
  pose proof (exp_ineq1_le (- (y * ln (z / x)))) as L2.
  assert (L3 : y * ln (z / x) <= y * (z / x - 1)) by (apply Rmult_le_compat_l; lra).
  rewrite E1. unfold Rdiv at 1. rewrite E2.
  replace (/ Rpower x y - y * (z - x) * (/ Rpower x y * / x)) with (/ Rpower x y * (1 - y * (z / x - 1))) by (field; split; [lra|apply Rpower_nz]).
  apply Rmult_le_compat_l; lra.
Qed.
Definition flows_ok (l : list (R * R)) : Prop := Forall (fun yc => 0 <= fst yc /\ 0 <= snd yc) l.
Lemma P_tangent x z l : 0 < x -> 0 < z -> flows_ok l -> P x l - D x l * (z - x) <= P z l.
Proof.
  intros Hx Hz F. induction F as [|[y c] l [Hy Hc] F IH]; cbn [P D]; [lra|]. cbn in Hy, Hc.
  pose proof (power_tangent x z y Hx Hz Hy) as T. apply (Rmult_le_compat_l c) in T; [|exact Hc].
  unfold Rdiv in *. lra.
Qed.
Lemma P_nonneg x l : flows_ok l -> 0 <= P x l.
Proof.
  intros F. induction F as [|[y c] l [Hy Hc] F IH]; cbn [P]; [lra|]. cbn in Hy, Hc.
  pose proof (Rinv_0_lt_compat _ (Rpower_pos x y)). assert (0 <= c * / Rpower x y) by (apply Rmult_le_pos; lra). unfold Rdiv. lra.
Qed.
Lemma D_term x y c : 0 < x -> y * c / Rpower x (y + 1) = y * (c / Rpower x y) / x.
Proof. intros H. rewrite Rpower_plus, Rpower_1 by exact H. field. split; (apply Rpower_nz || lra). Qed.
(** The slope lies between the shortest and the longest time *)
Lemma D_upper x l Y : 0 < x -> Forall (fun yc => 0 <= fst yc <= Y /\ 0 <= snd yc) l -> D x l <= Y * P x l / x.
Proof.
  intros Hx F. induction F as [|[y c] l [Hy Hc] F IH]; cbn [P D]; [unfold Rdiv; rewrite Rmult_0_r, Rmult_0_l; lra|]. cbn in Hy, Hc. rewrite D_term by exact Hx.
  pose proof (Rinv_0_lt_compat _ (Rpower_pos x y)). assert (0 <= c / Rpower x y) by (apply Rmult_le_pos; lra).
  assert (y * (c / Rpower x y) <= Y * (c / Rpower x y)) by (apply Rmult_le_compat_r; lra).
  pose proof (Rinv_0_lt_compat _ Hx).
  assert (y * (c / Rpower x y) / x <= Y * (c / Rpower x y) / x) by (apply Rmult_le_compat_r; lra).
  replace (Y * (c / Rpower x y + P x l) / x) with (Y * (c / Rpower x y) / x + Y * P x l / x) by lra. lra.
Qed.
Lemma D_lower x l m : 0 < x -> 0 <= m -> Forall (fun yc => m <= fst yc /\ 0 <= snd yc) l -> m * P x l / x <= D x l.
Proof.
  intros Hx Hm F. induction F as [|[y c] l [Hy Hc] F IH]; cbn [P D]; [unfold Rdiv; rewrite Rmult_0_r, Rmult_0_l; lra|]. cbn in Hy, Hc. rewrite D_term by exact Hx.
  pose proof (Rinv_0_lt_compat _ (Rpower_pos x y)). assert (0 <= c / Rpower x y) by (apply Rmult_le_pos; lra).
  assert (m * (c / Rpower x y) <= y * (c / Rpower x y)) by (apply Rmult_le_compat_r; lra).
  pose proof (Rinv_0_lt_compat _ Hx).
  assert (m * (c / Rpower x y) / x <= y * (c / Rpower x y) / x) by (apply Rmult_le_compat_r; lra).
  replace (m * (c / Rpower x y + P x l) / x) with (m * (c / Rpower x y) / x + m * P x l / x) by lra. lra.
Qed.
Lemma P_pos x l : Forall (fun yc : R * R => 0 <= snd yc) l -> Exists (fun yc : R * R => 0 < snd yc) l -> 0 < P x l.
Proof.
  intros F. induction F as [|[y c] l Hc F IH]; intros E; [inversion E|]. cbn [P]. cbn in Hc.
  pose proof (Rinv_0_lt_compat _ (Rpower_pos x y)) as Hp. 
  assert (N : 0 <= P x l).
  { clear - F. induction F as [|[y c] l Hc F IH]; cbn [P]; [lra|]. cbn in Hc. pose proof (Rinv_0_lt_compat _ (Rpower_pos x y)) as Hp.
    assert (0 <= c * / Rpower x y) by (apply Rmult_le_pos; lra). unfold Rdiv. lra. }
  inversion E; subst; cbn in *.
  - assert (0 < c * / Rpower x y) by (apply Rmult_lt_0_compat; lra). unfold Rdiv. lra.
  - assert (0 <= c * / Rpower x y) by (apply Rmult_le_pos; lra). unfold Rdiv. specialize (IH H0). lra.
Qed.

(** ** One round of the loop *)
Definition eps : R := 1 / 10000.
Definition f (A : R) (l : list (R * R)) (x : R) : R := P x l - A.
Definition newton (A : R) (l : list (R * R)) (x : R) : R := x + f A l x / D x l.
Lemma lt_fin a b : f_lt (Fin a) (Fin b) = true <-> a < b.
Proof. cbn. destruct (Rlt_dec a b); split; intros; (discriminate || auto || contradiction). Qed.
Lemma lt_fin_false a b : b <= a -> f_lt (Fin a) (Fin b) = false.
Proof. intros H. cbn. destruct (Rlt_dec a b); [lra|reflexivity]. Qed.
Definition floor_rate : R := - (999999999 / 1000000000).
Lemma loop_step n A l g : 0 < 1 + g -> D (1 + g) l <> 0 ->
  irr_loop (S n) (- A) l (Fin g) =
    let x := 1 + g in
    if Rlt_dec (Rabs (f A l x)) eps then Fin g else
    if Rlt_dec (Rabs (newton A l x - x)) eps then Fin g else
    irr_loop n (- A) l (Fin (if Rlt_dec (newton A l x) 0 then floor_rate else newton A l x - 1)).
Proof.
  intros Hg HD. cbn [irr_loop]. rewrite residual_fin, adjustment_fin by exact Hg.
  rewrite div_fin by lra. cbn [f_abs f_sub f_opp f_add]. unfold epsilon, f_lt, f_sub. cbn [f_opp f_add f_abs].
  replace (- A + P (1 + g) l) with (f A l (1 + g)) by (unfold f; lra).
  replace (g + - (f A l (1 + g) / (0 - D (1 + g) l))) with (newton A l (1 + g) - 1) by (unfold newton; field; lra).
  replace (newton A l (1 + g) - 1 + - g) with (newton A l (1 + g) - (1 + g)) by lra.
  cbv zeta. fold eps.
  destruct (Rlt_dec (Rabs (f A l (1 + g))) eps); [reflexivity|].
  destruct (Rlt_dec (Rabs (newton A l (1 + g) - (1 + g))) eps); [reflexivity|].
  destruct (Rlt_dec (newton A l (1 + g) - 1) (-1)), (Rlt_dec (newton A l (1 + g)) 0); (lra || reflexivity).
Qed.
