(** * F64Proofs: the conversion to float64 rounds to the nearest. *)
From Coq Require Import Qround Qabs Qpower Lqa.
From Verif Require Import Base Dec ExportModel ExportSpec ExportProofs F64Model F64Spec.

Notation two := (2 # 1)%Q.
Lemma two_nz : ~ (two == 0)%Q. Proof. discriminate. Qed.
Lemma this_inv a : (this (/ a)%Qc == / this a)%Q. Proof. apply Qred_correct. Qed.
Lemma this_div a b : (this (a / b)%Qc == this a / this b)%Q. Proof. unfold Qcdiv. rewrite this_mult, this_inv. reflexivity. Qed.
Lemma inject_pow x : 0 <= x -> (inject_Z (2 ^ x) == two ^ x)%Q. Proof. intros H. apply (Zpower_Qpower 2 x H). Qed.
Lemma this_pow2 x : (this (pow2 x) == two ^ x)%Q.
Proof.
  unfold pow2. destruct (Z.leb_spec 0 x) as [H|H]; [rewrite this_qz; apply inject_pow; exact H|]. rewrite this_inv, this_qz, inject_pow by lia. rewrite <- Qpower_opp, Z.opp_involutive. reflexivity.
Qed.
Lemma pw_pos x : (0 < two ^ x)%Q. Proof. apply Qpower_0_lt. reflexivity. Qed.
Lemma pw_add x y : (two ^ (x + y) == two ^ x * two ^ y)%Q. Proof. apply Qpower_plus. apply two_nz. Qed.
Lemma pw_le x y : x <= y -> (two ^ x <= two ^ y)%Q. Proof. intros H. apply Qpower_le_compat_l; [exact H|discriminate]. Qed.
Lemma pw_lt x y : x < y -> (two ^ x < two ^ y)%Q. Proof. intros H. apply Qpower_lt_compat_l; [exact H|reflexivity]. Qed.

(** ** Rounding to integers *)
Lemma round_even_half x : (Qabs (this x - inject_Z (round_even x)) <= 1 # 2)%Q /\ ((Qabs (this x - inject_Z (round_even x)) == 1 # 2)%Q -> Z.even (round_even x) = true).
Proof.
  unfold round_even. pose proof (Qfloor_le (this x)) as F1. pose proof (Qlt_floor (this x)) as F2. set (f := Qfloor (this x)) in *.
  assert (Hd : (this (x - qz f)%Qc == this x - inject_Z f)%Q) by (rewrite this_minus, this_qz; reflexivity).
  rewrite inject_Z_plus in F2. change (inject_Z 1) with 1%Q in F2.
  destruct (x - qz f ?= Q2Qc (1 # 2))%Qc eqn:E; unfold Qccompare in E.
  - apply Qeq_alt in E. rewrite Hd in E. change (this (Q2Qc (1 # 2))) with (1 # 2)%Q in E. destruct (Z.even f) eqn:Ev.
    + split; [apply Qabs_Qle_condition; split; lra|intros _; exact Ev].
    + rewrite inject_Z_plus. change (inject_Z 1) with 1%Q. split; [apply Qabs_Qle_condition; split; lra|]. intros _. rewrite Z.even_add, Ev. reflexivity.
  - apply Qlt_alt in E. rewrite Hd in E. change (this (Q2Qc (1 # 2))) with (1 # 2)%Q in E. rewrite Qabs_pos by lra. split; [lra|]. intros E'. lra.
  - apply Qgt_alt in E. rewrite Hd in E. change (this (Q2Qc (1 # 2))) with (1 # 2)%Q in E. rewrite inject_Z_plus. change (inject_Z 1) with 1%Q. rewrite Qabs_neg by lra. split; [lra|]. intros E'. lra.
Qed.
Lemma round_even_best x n : (Qabs (this x - inject_Z (round_even x)) <= Qabs (this x - inject_Z n))%Q.
Proof.
  destruct (Z.eq_dec n (round_even x)) as [->|N]; [apply Qle_refl|]. destruct (round_even_half x) as [H _]. apply Qle_trans with (1 # 2)%Q; [exact H|]. apply Qabs_Qle_condition in H as [H1 H2].
  assert (D : n <= round_even x - 1 \/ round_even x + 1 <= n) by lia. destruct D as [D|D]; rewrite Zle_Qle in D.
  - change (round_even x - 1) with (round_even x + -1) in D. rewrite inject_Z_plus in D. change (inject_Z (-1)) with (-1 # 1)%Q in D. rewrite Qabs_pos; lra.
  - rewrite inject_Z_plus in D. change (inject_Z 1) with 1%Q in D. rewrite Qabs_neg; lra.
Qed.
Lemma round_even_tie x n : n <> round_even x -> (Qabs (this x - inject_Z n) == Qabs (this x - inject_Z (round_even x)))%Q -> Z.even (round_even x) = true.
Proof.
  intros N E. destruct (round_even_half x) as [H H']. apply H'. apply Qle_antisym; [exact H|]. rewrite <- E. apply Qabs_Qle_condition in H as [H1 H2].
  assert (D : n <= round_even x - 1 \/ round_even x + 1 <= n) by lia. destruct D as [D|D]; rewrite Zle_Qle in D.
  - change (round_even x - 1) with (round_even x + -1) in D. rewrite inject_Z_plus in D. change (inject_Z (-1)) with (-1 # 1)%Q in D. rewrite Qabs_pos; lra.
  - rewrite inject_Z_plus in D. change (inject_Z 1) with 1%Q in D. rewrite Qabs_neg; lra.
Qed.

(** ** The leading bit *)
Lemma ilog2_spec q : (0 < this q)%Q -> (two ^ (ilog2 q) <= this q)%Q /\ (this q < two ^ (ilog2 q + 1))%Q.
Proof.
  intros Hq. unfold ilog2. set (n := Qnum (this q)). set (d := Qden (this q)).
  assert (Hn : 0 < n) by (unfold n; unfold Qlt in Hq; cbn [Qnum Qden] in Hq; lia).
  destruct (Z.log2_spec n Hn) as [N1 N2]. destruct (Z.log2_spec (Zpos d) eq_refl) as [D1 D2]. pose proof (Z.log2_nonneg n) as Ln. pose proof (Z.log2_nonneg (Zpos d)) as Ld.
  set (a := Z.log2 n) in *. set (b := Z.log2 (Zpos d)) in *.
  assert (Eq : (this q * inject_Z (Zpos d) == inject_Z n)%Q). { unfold n, d. destruct (this q) as [n0 d0]. cbn [Qnum Qden]. unfold Qeq, Qmult, inject_Z. cbn [Qnum Qden]. lia. }
  assert (N1' : (two ^ a <= inject_Z n)%Q) by (rewrite <- inject_pow by lia; rewrite <- Zle_Qle; exact N1).
  assert (N2' : (inject_Z n < two ^ (a + 1))%Q) by (rewrite <- inject_pow by lia; rewrite <- Zlt_Qlt; exact N2).
  assert (D1' : (two ^ b <= inject_Z (Zpos d))%Q) by (rewrite <- inject_pow by lia; rewrite <- Zle_Qle; exact D1).
  assert (D2' : (inject_Z (Zpos d) < two ^ (b + 1))%Q) by (rewrite <- inject_pow by lia; rewrite <- Zlt_Qlt; exact D2).
  assert (Up : (this q < two ^ (a - b + 1))%Q).
  { apply Qnot_le_lt. intros H. apply (Qlt_not_le _ _ N2'). rewrite <- Eq. replace (a + 1) with (a - b + 1 + b) by lia. rewrite pw_add. apply Qmult_le_compat_nonneg; split; try assumption; apply Qlt_le_weak, pw_pos. }
  assert (Low : (two ^ (a - b - 1) < this q)%Q).
  { apply Qnot_le_lt. intros H. apply (Qlt_not_le _ _ D2'). apply Qmult_lt_0_le_reg_r with (two ^ (a - b - 1))%Q; [apply pw_pos|]. rewrite <- pw_add. replace (b + 1 + (a - b - 1)) with a by lia.
    apply Qle_trans with (inject_Z n); [exact N1'|]. rewrite <- Eq, Qmult_comm. rewrite (Qmult_comm (inject_Z _) (two ^ _)). rewrite (Qmult_comm (inject_Z _) (this q)). apply Qmult_le_compat_r; [exact H|]. apply Qlt_le_weak. reflexivity. }
  destruct (pow2 (a - b) ?= q)%Qc eqn:E; unfold Qccompare in E.
  - apply Qeq_alt in E. rewrite this_pow2 in E. split; [rewrite E; apply Qle_refl|exact Up].
  - apply Qlt_alt in E. rewrite this_pow2 in E. split; [apply Qlt_le_weak; exact E|exact Up].
  - apply Qgt_alt in E. rewrite this_pow2 in E. split; [apply Qlt_le_weak; exact Low|]. replace (a - b - 1 + 1) with (a - b) by lia. exact E.
Qed.

(** ** Float64 numbers *)
Lemma scaled_iff m x v : scaled m x v <-> (this v == inject_Z m * two ^ x)%Q.
Proof.
  unfold scaled. split.
  - intros [H1 H2]. destruct (Z.le_gt_cases 0 x) as [H|H].
    + rewrite (H1 H), this_qz, inject_Z_mult, inject_pow by exact H. reflexivity.
    + pose proof (f_equal this (H2 H)) as E. assert (E' : (this v * two ^ (- x) == inject_Z m)%Q) by (rewrite <- inject_pow by lia; rewrite <- (this_qz (2 ^ _)), <- this_mult, E; apply this_qz).
      rewrite <- E', <- Qmult_assoc, <- pw_add. replace (- x + x) with 0 by lia. rewrite Qpower_0_r. ring.
  - intros E. split; intros H; apply Qc_is_canon.
    + rewrite this_qz, inject_Z_mult, inject_pow by exact H. exact E.
    + rewrite this_mult, !this_qz, inject_pow by lia. rewrite E, <- Qmult_assoc, <- pw_add. replace (x + - x) with 0 by lia. rewrite Qpower_0_r. ring.
Qed.
Lemma scaled_opp m x v : scaled m x v -> scaled (- m) x (- v)%Qc.
Proof. rewrite !scaled_iff. intros E. rewrite this_opp, E, inject_Z_opp. ring. Qed.
Lemma float64_opp v : float64 v -> float64 (- v)%Qc.
Proof. intros (m & x & H1 & H2 & H3). exists (- m), x. rewrite Z.abs_opp. split; [exact H1|]. split; [exact H2|apply scaled_opp; exact H3]. Qed.

Section Positive.
  Variable q : Qc.
  Hypothesis Hq : (0 < this q)%Q.
  Let e := ilog2 q.
  Let x := Z.max (e - 52) (-1074).
  Let y := (q / pow2 x)%Qc.
  Let m := round_even y.
  Lemma He : (two ^ e <= this q)%Q /\ (this q < two ^ (e + 1))%Q. Proof. apply ilog2_spec. exact Hq. Qed.
  Lemma Hy : (this y * two ^ x == this q)%Q.
  Proof. unfold y. rewrite this_div, this_pow2. field. apply Qpower_not_0. apply two_nz. Qed.
  Lemma Hv : (this (f64_pos q) == inject_Z m * two ^ x)%Q.
  Proof. unfold f64_pos. fold e x y m. rewrite this_mult, this_qz, this_pow2. reflexivity. Qed.
  Lemma err z : (Qabs (this y - inject_Z z) * two ^ x == Qabs (inject_Z z * two ^ x - this q))%Q.
  Proof. rewrite <- Hy. rewrite Qabs_Qminus. setoid_replace (inject_Z z * two ^ x - this y * two ^ x)%Q with ((inject_Z z - this y) * two ^ x)%Q by ring. rewrite Qabs_Qmult. rewrite (Qabs_pos (two ^ x)) by (apply Qlt_le_weak, pw_pos). reflexivity. Qed.
  Lemma m_bounds : 0 <= m <= 2 ^ 53.
  Proof.
    destruct He as [H1 H2]. assert (Y0 : (0 < this y)%Q). { apply Qnot_le_lt. intros H. apply (Qlt_not_le _ _ Hq). rewrite <- Hy. setoid_replace 0%Q with (0 * two ^ x)%Q by ring. apply Qmult_le_compat_r; [exact H|apply Qlt_le_weak, pw_pos]. }
    assert (Y1 : (this y < two ^ 53)%Q).
    { apply Qnot_le_lt. intros H. apply (Qlt_not_le _ _ H2). rewrite <- Hy. apply Qle_trans with (two ^ 53 * two ^ x)%Q; [rewrite <- pw_add; apply pw_le; unfold x; lia|]. apply Qmult_le_compat_r; [exact H|apply Qlt_le_weak, pw_pos]. }
    destruct (round_even_half y) as [H _]. fold m in H. apply Qabs_Qle_condition in H as [A B].
    rewrite <- (inject_pow 53) in Y1 by lia. split.
    - assert (C : (inject_Z (-1) < inject_Z m)%Q) by (change (inject_Z (-1)) with (-1 # 1)%Q; lra). rewrite <- Zlt_Qlt in C. lia.
    - assert (C : (inject_Z m < inject_Z (2 ^ 53 + 1))%Q) by (rewrite inject_Z_plus; change (inject_Z 1) with 1%Q; lra). rewrite <- Zlt_Qlt in C. lia.
  Qed.
  Lemma m_big : e - 52 >= -1074 -> 2 ^ 52 <= m.
  Proof.
    intros Hx. destruct He as [H1 H2]. assert (Ex : x = e - 52) by (unfold x; lia).
    assert (Y : (two ^ 52 <= this y)%Q). { apply Qmult_lt_0_le_reg_r with (two ^ x)%Q; [apply pw_pos|]. rewrite Hy, <- pw_add, Ex. replace (52 + (e - 52)) with e by lia. exact H1. }
    rewrite <- (inject_pow 52) in Y by lia. destruct (round_even_half y) as [H _]. fold m in H. apply Qabs_Qle_condition in H as [A B].
    assert (C : (inject_Z (2 ^ 52 - 1) < inject_Z m)%Q) by (change (2 ^ 52 - 1) with (2 ^ 52 + -1); rewrite inject_Z_plus; change (inject_Z (-1)) with (-1 # 1)%Q; lra). rewrite <- Zlt_Qlt in C. lia.
  Qed.
  Lemma pos_float : float64 (f64_pos q).
  Proof.
    pose proof m_bounds as [B1 B2]. destruct (Z.eq_dec m (2 ^ 53)) as [E|N].
    - exists (2 ^ 52), (x + 1). split; [reflexivity|]. split; [unfold x; lia|]. apply scaled_iff. rewrite Hv, E, pw_add. change (two ^ 1)%Q with two. change (inject_Z (2 ^ 53)) with (9007199254740992 # 1)%Q. change (inject_Z (2 ^ 52)) with (4503599627370496 # 1)%Q. ring.
    - exists m, x. split; [lia|]. split; [unfold x; lia|]. apply scaled_iff, Hv.
  Qed.
  (** a float64 is a multiple of 2^x, or below the leading bit *)
  Lemma other w : float64 w -> (exists n, (this w == inject_Z n * two ^ x)%Q) \/ (x = e - 52 /\ (this w < two ^ e)%Q).
  Proof.
    intros (n & k & H1 & H2 & H3). apply scaled_iff in H3. destruct (Z.le_gt_cases x k) as [H|H].
    - left. exists (n * 2 ^ (k - x)). rewrite H3, inject_Z_mult, inject_pow by lia. rewrite <- Qmult_assoc, <- pw_add. replace (k - x + x) with k by lia. reflexivity.
    - right. assert (Ex : x = e - 52) by (unfold x in *; lia). split; [exact Ex|]. rewrite H3.
      apply Qlt_le_trans with (two ^ 53 * two ^ k)%Q; [|rewrite <- pw_add; apply pw_le; lia]. apply Qmult_lt_r; [apply pw_pos|]. rewrite <- (inject_pow 53) by lia. rewrite <- Zlt_Qlt. lia.
  Qed.
  Lemma edge : x = e - 52 -> (Qabs (this (f64_pos q) - this q) <= this q - two ^ e)%Q.
  Proof.
    intros Ex. destruct He as [H1 _]. rewrite Hv, <- err. apply Qle_trans with (Qabs (this y - inject_Z (2 ^ 52)) * two ^ x)%Q; [apply Qmult_le_compat_r; [apply round_even_best|apply Qlt_le_weak, pw_pos]|].
    rewrite err, inject_pow by lia. rewrite <- pw_add, Ex. replace (52 + (e - 52)) with e by lia. rewrite Qabs_neg by lra. lra.
  Qed.
  Lemma pos_near w : float64 w -> (Qabs (this (f64_pos q) - this q) <= Qabs (this w - this q))%Q.
  Proof.
    intros H. destruct (other w H) as [(n & E)|(Ex & L)].
    - rewrite Hv, E, <- !err. apply Qmult_le_compat_r; [apply round_even_best|apply Qlt_le_weak, pw_pos].
    - apply Qle_trans with (this q - two ^ e)%Q; [apply edge; exact Ex|]. destruct He as [H1 _]. rewrite Qabs_neg by lra. lra.
  Qed.
  Lemma pos_tie w : float64 w -> ~ (this w == this (f64_pos q))%Q -> (Qabs (this w - this q) == Qabs (this (f64_pos q) - this q))%Q -> Z.even m = true.
  Proof.
    intros H N E. destruct (other w H) as [(n & En)|(Ex & L)].
    - assert (Nm : n <> m) by (intros ->; apply N; rewrite En, Hv; reflexivity). apply (round_even_tie y n Nm). rewrite En, Hv, <- !err in E.
      apply (Qmult_inj_r _ _ (two ^ x)%Q); [apply Qpower_not_0, two_nz|exact E].
    - exfalso. pose proof (edge Ex) as Ed. destruct He as [H1 _]. rewrite <- E in Ed. rewrite Qabs_neg in Ed by lra. lra.
  Qed.
  Lemma pos_err : -1022 <= e -> (Qabs (this (f64_pos q) - this q) * two ^ 53 <= this q)%Q.
  Proof.
    intros H. assert (Ex : x = e - 52) by (unfold x; lia). rewrite Hv, <- err. destruct (round_even_half y) as [A _]. fold m in A. destruct He as [H1 _].
    apply Qle_trans with ((1 # 2) * two ^ x * two ^ 53)%Q.
    - apply Qmult_le_compat_r; [|apply Qlt_le_weak, pw_pos]. apply Qmult_le_compat_r; [exact A|apply Qlt_le_weak, pw_pos].
    - rewrite <- Qmult_assoc, <- pw_add, Ex. replace (e - 52 + 53) with (e + 1) by lia. rewrite pw_add. change (two ^ 1)%Q with two. setoid_replace ((1 # 2) * (two ^ e * two))%Q with (two ^ e)%Q by ring. exact H1.
  Qed.
End Positive.

Lemma qabs_Q a b : (qabs (a - b) <= qabs b)%Qc <-> (Qabs (this a - this b) <= Qabs (this b))%Q.
Proof. unfold Qcle. rewrite !this_qabs, this_minus. reflexivity. Qed.
Lemma to_f64_opp q : to_f64 (- q) = (- to_f64 q)%Qc.
Proof.
  unfold to_f64. destruct (q ?= 0)%Qc eqn:E; unfold Qccompare in E.
  - apply Qceq_alt in E. subst q. reflexivity.
  - apply Qlt_alt in E. change (this 0%Qc) with 0%Q in E. assert (G : (- q ?= 0)%Qc = Gt) by (apply (proj1 (Qgt_alt _ _)); rewrite this_opp; change (this 0%Qc) with 0%Q; lra). rewrite G. ring.
  - apply Qgt_alt in E. change (this 0%Qc) with 0%Q in E. assert (G : (- q ?= 0)%Qc = Lt) by (apply (proj1 (Qlt_alt _ _)); rewrite this_opp; change (this 0%Qc) with 0%Q; lra). rewrite G. replace (- - q)%Qc with q by ring. reflexivity.
Qed.
Lemma this_zero_float : float64 0%Qc.
Proof. exists 0, 0. split; [reflexivity|]. split; [lia|]. apply scaled_iff. reflexivity. Qed.
Lemma nearest_pos q : (0 < this q)%Q -> nearest_f64 q (f64_pos q).
Proof.
  intros H. split; [apply pos_float; exact H|]. split.
  - intros w Hw. unfold Qcle. rewrite !this_qabs, !this_minus. apply pos_near; assumption.
  - intros w Hw N E. assert (Ev : Z.even (round_even (q / pow2 (Z.max (ilog2 q - 52) (-1074)))%Qc) = true).
    { apply (pos_tie q H w Hw); [intros Eq; apply N; apply Qc_is_canon; exact Eq|]. pose proof (f_equal this E) as E'. rewrite <- !this_minus. rewrite <- !this_qabs. rewrite E'. reflexivity. }
    set (x := Z.max (ilog2 q - 52) (-1074)) in *. pose proof (m_bounds q H) as [B1 B2]. pose proof (m_big q H) as B3. pose proof (Hv q) as V. cbv zeta in B1, B2, B3, V. fold x in B1, B2, B3, V. set (m := round_even (q / pow2 x)%Qc) in *.
    destruct (Z.eq_dec m (2 ^ 53)) as [E53|N53].
    + exists (2 ^ 52), (x + 1). split; [reflexivity|]. split; [unfold x; lia|]. split; [|split; [reflexivity|left; lia]]. apply scaled_iff. rewrite V, E53, pw_add. change (two ^ 1)%Q with two. change (inject_Z (2 ^ 53)) with (9007199254740992 # 1)%Q. change (inject_Z (2 ^ 52)) with (4503599627370496 # 1)%Q. ring.
    + exists m, x. split; [lia|]. split; [unfold x; lia|]. split; [apply scaled_iff; exact V|]. split; [exact Ev|].
      destruct (Z.le_gt_cases (-1074) (ilog2 q - 52)) as [L|L]; [|right; unfold x; lia]. left. specialize (B3 ltac:(lia)). lia.
Qed.
Lemma nearest_opp q v : nearest_f64 q v -> nearest_f64 (- q) (- v).
Proof.
  assert (A : forall a b, qabs (- a - - b)%Qc = qabs (a - b)%Qc). { intros a b. apply Qc_is_canon. rewrite !this_qabs, !this_minus, !this_opp. setoid_replace (- this a - - this b)%Q with (- (this a - this b))%Q by ring. apply Qabs_opp. }
  assert (B : forall w, w = (- - w)%Qc) by (intros w; ring).
  intros (H1 & H2 & H3). split; [apply float64_opp; exact H1|]. split.
  - intros w Hw. rewrite (B w), !A. apply H2. apply float64_opp. exact Hw.
  - intros w Hw N E. rewrite (B w), !A in E. destruct (H3 (- w)%Qc (float64_opp _ Hw)) as (m & x & K0 & K1 & K2 & K3 & K4); [intros E2; apply N; rewrite <- E2; ring|exact E|].
    exists (- m), x. split; [rewrite Z.abs_opp; exact K0|]. split; [exact K1|]. split; [apply scaled_opp; exact K2|]. split; [rewrite Z.even_opp; exact K3|rewrite Z.abs_opp; exact K4].
Qed.
Lemma to_f64_nearest q : nearest_f64 q (to_f64 q).
Proof.
  unfold to_f64. destruct (q ?= 0)%Qc eqn:E; unfold Qccompare in E.
  - apply Qceq_alt in E. subst q. split; [apply this_zero_float|]. split.
    + intros w Hw. replace (0 - 0)%Qc with 0%Qc by ring. unfold Qcle. rewrite !this_qabs. apply Qabs_nonneg.
    + intros w Hw N E. exfalso. apply N. replace (0 - 0)%Qc with 0%Qc in E by ring. replace (w - 0)%Qc with w in E by ring. apply (f_equal this) in E. assert (E2 : (Qabs (this w) == 0)%Q) by (rewrite <- this_qabs, E; reflexivity). apply Qc_is_canon. change (this 0%Qc) with 0%Q.
      pose proof (Qle_Qabs (this w)). pose proof (Qle_Qabs (- this w)) as H2. rewrite Qabs_opp in H2. apply Qle_antisym; lra.
  - apply Qlt_alt in E. change (this 0%Qc) with 0%Q in E. rewrite <- (Qcopp_involutive q) at 1. apply nearest_opp. apply nearest_pos. rewrite this_opp. lra.
  - apply Qgt_alt in E. apply nearest_pos. exact E.
Qed.
(** A float64 stays what it is. *)
Lemma to_f64_id q : float64 q -> to_f64 q = q.
Proof.
  intros H. destruct (to_f64_nearest q) as (_ & N & _). specialize (N q H). replace (q - q)%Qc with 0%Qc in N by ring. unfold Qcle in N. rewrite this_qabs, this_minus in N. change (this (qabs 0)) with 0%Q in N. apply Qc_is_canon.
  pose proof (Qle_Qabs (this (to_f64 q) - this q)). pose proof (Qle_Qabs (- (this (to_f64 q) - this q))) as H2. rewrite Qabs_opp in H2. apply Qle_antisym; lra.
Qed.
Lemma to_f64_float q : float64 (to_f64 q). Proof. apply to_f64_nearest. Qed.
Lemma to_f64_idem q : to_f64 (to_f64 q) = to_f64 q. Proof. apply to_f64_id, to_f64_float. Qed.

Lemma pos_ok q : (0 < this q)%Q -> (/ inject_Z (10 ^ 300) <= this q)%Q -> (Qabs (this (f64_pos q) - this q) * two ^ 53 <= this q)%Q.
Proof.
  intros H L. apply pos_err; [exact H|]. destruct (ilog2_spec q H) as [_ U]. destruct (Z.le_gt_cases (-1022) (ilog2 q)) as [G|G]; [exact G|exfalso].
  assert (C : (two ^ (ilog2 q + 1) <= two ^ (-1021))%Q) by (apply pw_le; lia). assert (D : (two ^ (-1021) < / inject_Z (10 ^ 300))%Q) by (vm_compute; reflexivity). lra.
Qed.
Lemma to_f64_ok : float64_ok to_f64.
Proof.
  split; [reflexivity|]. intros q L _. unfold Qcle in *. rewrite this_mult, !this_qabs, this_qz, this_minus, inject_pow by lia. rewrite this_qabs, this_inv, this_qz in L.
  unfold to_f64. destruct (q ?= 0)%Qc eqn:E; unfold Qccompare in E.
  - apply Qceq_alt in E. subst q. exfalso. revert L. change (Qabs (this 0%Qc)) with 0%Q. vm_compute. congruence.
  - apply Qlt_alt in E. change (this 0%Qc) with 0%Q in E. rewrite Qabs_neg in L by lra. assert (P : (0 < this (- q)%Qc)%Q) by (rewrite this_opp; lra). pose proof (pos_ok (- q)%Qc P) as K. rewrite this_opp in K. specialize (K L).
    rewrite this_opp. setoid_replace (- this (f64_pos (- q)) - this q)%Q with (- (this (f64_pos (- q)) - - this q))%Q by ring. rewrite Qabs_opp. rewrite (Qabs_neg (this q)) by lra. exact K.
  - apply Qgt_alt in E. change (this 0%Qc) with 0%Q in E. rewrite (Qabs_pos (this q)) in L by lra. rewrite (Qabs_pos (this q)) by lra. apply pos_ok; assumption.
Qed.

(** ** The specification determines the result. *)
Lemma same_distance a b v w : (this v < this w)%Q -> qabs (w - a)%Qc = qabs (v - a)%Qc -> b = a -> (this b - this v == this w - this b)%Q.
Proof.
  intros L E ->. apply (f_equal this) in E. assert (E' : (Qabs (this w - this a) == Qabs (this v - this a))%Q) by (rewrite <- !this_minus, <- !this_qabs, E; reflexivity).
  destruct (Qlt_le_dec (this w - this a) 0) as [A|A]; destruct (Qlt_le_dec (this v - this a) 0) as [B|B]; [rewrite (Qabs_neg (this w - _)), (Qabs_neg (this v - _)) in E' by lra; lra|lra|rewrite (Qabs_pos (this w - _)), (Qabs_neg (this v - _)) in E' by lra; lra|rewrite (Qabs_pos (this w - _)), (Qabs_pos (this v - _)) in E' by lra; lra].
Qed.
Definition even_form (v : Qc) : Prop := exists m x, Z.abs m < 2 ^ 53 /\ -1074 <= x /\ scaled m x v /\ Z.even m = true /\ (2 ^ 52 <= Z.abs m \/ x = -1074).
Lemma no_two_evens v w : (0 <= this v)%Q -> (this v < this w)%Q -> even_form v -> even_form w ->
  exists u, float64 u /\ (this v < this u)%Q /\ (this u < this w)%Q.
Proof.
  intros H0 H (m & x & A1 & A2 & A3 & A4 & A5) (m' & x' & B1 & B2 & B3 & B4 & B5). rewrite scaled_iff in A3, B3. pose proof (pw_pos x) as Px. pose proof (pw_pos x') as Px'.
  assert (M0 : 0 <= m). { rewrite A3 in H0. apply Znot_gt_le. intros G. apply (Qle_not_lt _ _ H0). setoid_replace 0%Q with (0 * two ^ x)%Q by ring. apply Qmult_lt_r; [exact Px|]. change 0%Q with (inject_Z 0). rewrite <- Zlt_Qlt. lia. }
  assert (M1 : 0 < m'). { apply Znot_ge_lt. intros G. assert (G' : m' <= 0) by lia. rewrite Zle_Qle in G'. apply (Qmult_le_compat_r _ _ (two ^ x')) in G'; [|apply Qlt_le_weak; exact Px']. rewrite <- B3 in G'. change (inject_Z 0) with 0%Q in G'. rewrite Qmult_0_l in G'. lra. }
  assert (Hx : x <= x').
  { destruct (Z.le_gt_cases x x') as [L|L]; [exact L|exfalso]. assert (m_ge : 2 ^ 52 <= m) by lia. apply (Qlt_not_le _ _ H). rewrite A3, B3. replace x with (x - x' + x') by lia. rewrite pw_add, Qmult_assoc. apply Qmult_le_compat_r; [|apply Qlt_le_weak; exact Px'].
    apply Qle_trans with (inject_Z (m * 2)); [rewrite <- Zle_Qle; lia|]. rewrite inject_Z_mult. rewrite !(Qmult_comm (inject_Z m)). apply Qmult_le_compat_r; [|change 0%Q with (inject_Z 0); rewrite <- Zle_Qle; exact M0]. change (inject_Z 2) with (two ^ 1)%Q. apply pw_le. lia. }
  assert (W : (this w == inject_Z (m' * 2 ^ (x' - x)) * two ^ x)%Q). { rewrite B3, inject_Z_mult, inject_pow by lia. rewrite <- Qmult_assoc, <- pw_add. replace (x' - x + x) with x' by lia. reflexivity. }
  assert (Nn : m + 1 < m' * 2 ^ (x' - x)).
  { assert (L : m < m' * 2 ^ (x' - x)). { rewrite A3, W in H. apply Qmult_lt_r in H; [|exact Px]. rewrite <- Zlt_Qlt in H. exact H. }
    assert (Ev : Z.even (m' * 2 ^ (x' - x)) = true) by (rewrite Z.even_mul, B4; reflexivity). assert (Ne : m' * 2 ^ (x' - x) <> m + 1) by (intros E; rewrite E, Z.even_add, A4 in Ev; discriminate Ev). lia. }
  exists (Q2Qc (inject_Z (m + 1) * two ^ x)). assert (U : (this (Q2Qc (inject_Z (m + 1) * two ^ x)) == inject_Z (m + 1) * two ^ x)%Q) by apply Qred_correct. split.
  - exists (m + 1), x. split; [|split; [exact A2|apply scaled_iff; exact U]]. assert (m <> 2 ^ 53 - 1) by (intros ->; discriminate A4). lia.
  - rewrite U, A3, W. split; (apply Qmult_lt_r; [exact Px|]); rewrite <- Zlt_Qlt; lia.
Qed.
Lemma nearest_below q v w : (this v < this w)%Q -> nearest_f64 q v -> nearest_f64 q w -> False.
Proof.
  intros L (V1 & V2 & V3) (W1 & W2 & W3).
  assert (E : qabs (w - q)%Qc = qabs (v - q)%Qc) by (apply Qcle_antisym; [apply W2; exact V1|apply V2; exact W1]).
  assert (Nvw : w <> v) by (intros ->; apply (Qlt_irrefl _ L)).
  pose proof (V3 w W1 Nvw E) as EV. pose proof (W3 v V1 (not_eq_sym Nvw) (eq_sym E)) as EW.
  assert (Mid : forall u, float64 u -> (this v < this u)%Q -> (this u < this w)%Q -> False).
  { intros u Hu U1 U2. pose proof (same_distance q q v w L E eq_refl) as S. specialize (V2 u Hu). unfold Qcle in V2. rewrite !this_qabs, !this_minus in V2. rewrite (Qabs_neg (this v - this q)) in V2 by lra.
    destruct (Qlt_le_dec (this u - this q) 0) as [A|A]; [rewrite Qabs_neg in V2 by lra|rewrite Qabs_pos in V2 by lra]; lra. }
  destruct (Qlt_le_dec (this v) 0) as [Hv0|Hv0].
  - destruct (Qlt_le_dec 0 (this w)) as [Hw0|Hw0]; [exact (Mid 0%Qc this_zero_float Hv0 Hw0)|].
    assert (OP : forall a, even_form a -> even_form (- a)%Qc). { intros a (m & x & K0 & K1 & K2 & K3 & K4). exists (- m), x. rewrite Z.abs_opp, Z.even_opp. auto using scaled_opp. }
    destruct (no_two_evens (- w)%Qc (- v)%Qc) as (u & U1 & U2 & U3); [rewrite this_opp; lra|rewrite !this_opp; lra|apply OP; exact EW|apply OP; exact EV|]. rewrite this_opp in U2, U3.
    apply (Mid (- u)%Qc); [apply float64_opp; exact U1|rewrite this_opp; lra|rewrite this_opp; lra].
  - destruct (no_two_evens v w Hv0 L EV EW) as (u & U1 & U2 & U3). exact (Mid u U1 U2 U3).
Qed.
Lemma nearest_unique q v w : nearest_f64 q v -> nearest_f64 q w -> v = w.
Proof.
  intros V W. apply Qc_is_canon. destruct (Q_dec (this v) (this w)) as [[L|L]|L]; [exfalso; exact (nearest_below q v w L V W)|exfalso; exact (nearest_below q w v L W V)|exact L].
Qed.

(** ** Printing a number that is nearly a decimal one *)
Lemma round_near x n : (Qabs (this x - inject_Z n) < 1 # 2)%Q -> round_even x = n.
Proof.
  intros H. pose proof (round_even_best x n) as B. apply Qabs_Qlt_condition in H as [H1 H2]. assert (B' : (Qabs (this x - inject_Z (round_even x)) < 1 # 2)%Q) by (apply Qle_lt_trans with (1 := B); apply Qabs_Qlt_condition; lra).
  apply Qabs_Qlt_condition in B' as [B1 B2]. assert (L1 : (inject_Z (round_even x) < inject_Z (n + 1))%Q) by (rewrite inject_Z_plus; change (inject_Z 1) with 1%Q; lra). assert (L2 : (inject_Z n < inject_Z (round_even x + 1))%Q) by (rewrite inject_Z_plus; change (inject_Z 1) with 1%Q; lra).
  rewrite <- Zlt_Qlt in L1, L2. lia.
Qed.
Definition digits_of (k n : Z) : str := grouped (dec (Z.abs n / 10 ^ k)) ++ (if k =? 0 then [] else [46] ++ zpad (Z.to_nat k) (dec (Z.abs n mod 10 ^ k))).
Lemma fmt_near k v n : 0 <= k -> (Qabs (this v * inject_Z (10 ^ k) - inject_Z n) < 1 # 2)%Q ->
  fmt_float k v = (if (if n =? 0 then match (v ?= 0)%Qc with Lt => true | _ => false end else n <? 0) then [45] else []) ++ digits_of k n.
Proof.
  intros Hk H. pose proof (Z.pow_pos_nonneg 10 k ltac:(lia) Hk) as HP. assert (HPq : (0 < inject_Z (10 ^ k))%Q) by (change 0%Q with (inject_Z 0); rewrite <- Zlt_Qlt; exact HP).
  apply Qabs_Qlt_condition in H as [H1 H2]. unfold fmt_float, digits_of.
  assert (R : round_even ((if match (v ?= 0)%Qc with Lt => true | _ => false end then - v else v) * qz (10 ^ k))%Qc = Z.abs n /\ (n <> 0 -> match (v ?= 0)%Qc with Lt => true | _ => false end = (n <? 0))).
  { destruct (v ?= 0)%Qc eqn:E; unfold Qccompare in E.
    - apply Qeq_alt in E. change (this 0%Qc) with 0%Q in E. rewrite E in H1, H2. assert (n = 0). { assert (L1 : (inject_Z n < inject_Z 1)%Q) by (change (inject_Z 1) with 1%Q; lra). assert (L2 : (inject_Z (-1) < inject_Z n)%Q) by (change (inject_Z (-1)) with (-1 # 1)%Q; lra). rewrite <- Zlt_Qlt in L1, L2. lia. }
      subst n. split; [|intros C; contradiction]. apply round_near. rewrite this_mult, this_qz, E. reflexivity.
    - apply Qlt_alt in E. change (this 0%Qc) with 0%Q in E. assert (V : (this v * inject_Z (10 ^ k) < 0)%Q). { setoid_replace 0%Q with (0 * inject_Z (10 ^ k))%Q by ring. apply Qmult_lt_r; assumption. }
      assert (n <= 0). { assert (L1 : (inject_Z n < inject_Z 1)%Q) by (change (inject_Z 1) with 1%Q; lra). rewrite <- Zlt_Qlt in L1. lia. }
      split; [|intros C; symmetry; apply Z.ltb_lt; lia]. apply round_near. rewrite this_mult, this_qz, this_opp, Z.abs_neq by lia. rewrite inject_Z_opp. apply Qabs_Qlt_condition. split; lra.
    - apply Qgt_alt in E. change (this 0%Qc) with 0%Q in E. assert (V : (0 < this v * inject_Z (10 ^ k))%Q). { setoid_replace 0%Q with (0 * inject_Z (10 ^ k))%Q by ring. apply Qmult_lt_r; assumption. }
      assert (0 <= n). { assert (L1 : (inject_Z (-1) < inject_Z n)%Q) by (change (inject_Z (-1)) with (-1 # 1)%Q; lra). rewrite <- Zlt_Qlt in L1. lia. }
      split; [|intros C; symmetry; apply Z.ltb_ge; lia]. apply round_near. rewrite this_mult, this_qz, Z.abs_eq by lia. apply Qabs_Qlt_condition. split; lra. }
  destruct R as [R1 R2]. rewrite R1. destruct (Z.eqb_spec n 0) as [E|N]; [reflexivity|]. rewrite (R2 N). reflexivity.
Qed.
(** relative error of one conversion; for numbers of any size the error is at most the number itself *)
Lemma err_rel q : (/ inject_Z (10 ^ 300) <= Qabs (this q))%Q -> (Qabs (this q) <= inject_Z (10 ^ 300))%Q -> (Qabs (this (to_f64 q) - this q) * inject_Z (2 ^ 53) <= Qabs (this q))%Q.
Proof.
  intros H1 H2. destruct to_f64_ok as [_ F]. specialize (F q). unfold Qcle in F. rewrite this_mult, !this_qabs, !this_qz, this_inv, this_qz, this_minus in F. apply F; assumption.
Qed.
Lemma err_abs q : (Qabs (this (to_f64 q) - this q) <= Qabs (this q))%Q.
Proof.
  destruct (to_f64_nearest q) as (_ & N & _). specialize (N 0%Qc this_zero_float). unfold Qcle in N. rewrite !this_qabs, !this_minus in N. change (this 0%Qc) with 0%Q in N.
  setoid_replace (0 - this q)%Q with (- this q)%Q in N by ring. rewrite Qabs_opp in N. exact N.
Qed.
Lemma small_ge k : 0 <= k <= 17 -> (/ inject_Z (10 ^ 300) <= (1 # 2) / inject_Z (10 ^ k))%Q /\ (inject_Z (10 ^ 16) / inject_Z (10 ^ k) <= inject_Z (10 ^ 300))%Q.
Proof.
  intros Hk. assert (P : 1 <= 10 ^ k <= 10 ^ 17). { split; [change 1 with (10 ^ 0)|]; apply Z.pow_le_mono_r; lia. }
  assert (P' : (inject_Z 1 <= inject_Z (10 ^ k))%Q /\ (inject_Z (10 ^ k) <= inject_Z (10 ^ 17))%Q) by (rewrite <- !Zle_Qle; exact P). destruct P' as [P1 P2]. change (inject_Z 1) with 1%Q in P1. set (T := inject_Z (10 ^ k)) in *. split.
  - apply Qle_shift_div_l; [lra|]. apply Qle_trans with (/ inject_Z (10 ^ 300) * inject_Z (10 ^ 17))%Q; [|vm_compute; congruence]. rewrite !(Qmult_comm (/ inject_Z (10 ^ 300))). apply Qmult_le_compat_r; [exact P2|vm_compute; congruence].
  - apply Qle_shift_div_r; [lra|]. apply Qle_trans with (inject_Z (10 ^ 300) * 1)%Q; [vm_compute; congruence|]. rewrite !(Qmult_comm (inject_Z (10 ^ 300))). apply Qmult_le_compat_r; [exact P1|vm_compute; congruence].
Qed.
(** one conversion, in units of the last decimal *)
Lemma conv_units k q u : 0 <= k <= 17 -> (1 # 2 <= u)%Q -> (u <= inject_Z (10 ^ 16))%Q -> (Qabs (this q * inject_Z (10 ^ k)) <= u)%Q -> (Qabs (this q * inject_Z (10 ^ k)) == 0 \/ 1 # 2 <= Qabs (this q * inject_Z (10 ^ k)))%Q ->
  (Qabs (this (to_f64 q) * inject_Z (10 ^ k) - this q * inject_Z (10 ^ k)) * inject_Z (2 ^ 53) <= u)%Q.
Proof.
  intros Hk U1 U2 U3 U4. destruct (small_ge k Hk) as [S1 S2]. pose proof (pow_inj_pos k ltac:(lia)) as HT. set (T := inject_Z (10 ^ k)) in *.
  assert (AT : forall z, (Qabs (z * T) == Qabs z * T)%Q) by (intros z; rewrite Qabs_Qmult, (Qabs_pos T) by lra; reflexivity). setoid_replace (this (to_f64 q) * T - this q * T)%Q with ((this (to_f64 q) - this q) * T)%Q by ring. rewrite AT in *.
  destruct U4 as [Z|G].
  - assert (Z' : (Qabs (this q) == 0)%Q). { apply Qmult_integral in Z as [Z|Z]; [exact Z|lra]. } pose proof (err_abs q) as E. rewrite Z' in E. pose proof (Qabs_nonneg (this (to_f64 q) - this q)) as E0. assert (E1 : (Qabs (this (to_f64 q) - this q) == 0)%Q) by (apply Qle_antisym; assumption). rewrite E1. setoid_replace (0 * T * inject_Z (2 ^ 53))%Q with 0%Q by ring. lra.
  - assert (E : (Qabs (this (to_f64 q) - this q) * inject_Z (2 ^ 53) <= Qabs (this q))%Q).
    { apply err_rel.
      - apply Qle_trans with (1 := S1). apply Qle_shift_div_r; [exact HT|exact G].
      - apply Qle_trans with (2 := S2). apply Qle_shift_div_l; [exact HT|]. lra. }
    apply Qle_trans with (Qabs (this q) * T)%Q; [|exact U3]. setoid_replace (Qabs (this (to_f64 q) - this q) * T * inject_Z (2 ^ 53))%Q with (Qabs (this (to_f64 q) - this q) * inject_Z (2 ^ 53) * T)%Q by ring. apply Qmult_le_compat_r; [exact E|lra].
Qed.

(** ** Sums of converted numbers *)
Fixpoint zsum_abs (l : list Z) : Z := match l with [] => 0 | n :: l' => Z.abs n + zsum_abs l' end.
Fixpoint zsum (l : list Z) : Z := match l with [] => 0 | n :: l' => n + zsum l' end.
Lemma zsum_abs_nonneg l : 0 <= zsum_abs l. Proof. induction l; cbn [zsum_abs]; lia. Qed.
Lemma zsum_le l : Z.abs (zsum l) <= zsum_abs l. Proof. induction l; cbn [zsum_abs zsum]; lia. Qed.
Lemma units_of k q n : (q * qz (10 ^ k))%Qc = qz n -> (this q * inject_Z (10 ^ k) == inject_Z n)%Q.
Proof. intros E. rewrite <- (this_qz (10 ^ k)), <- this_mult, E. apply this_qz. Qed.
Lemma sum_units k qs ns : Forall2 (fun q n => (q * qz (10 ^ k))%Qc = qz n) qs ns -> (qsum qs * qz (10 ^ k))%Qc = qz (zsum ns).
Proof.
  induction 1 as [|q n qs ns H Hs IH]; [unfold qsum; cbn [fold_right zsum]; change (qz 0) with 0%Qc; ring|]. rewrite qsum_cons. cbn [zsum]. rewrite Qcmult_plus_distr_l, H, IH. apply Qc_is_canon. rewrite this_plus, !this_qz, inject_Z_plus. reflexivity.
Qed.
Lemma sum_err k qs ns : 0 <= k <= 17 -> Forall2 (fun q n => (q * qz (10 ^ k))%Qc = qz n) qs ns -> zsum_abs ns <= 10 ^ 15 ->
  (Qabs (this (qsum (map to_f64 qs)) * inject_Z (10 ^ k) - inject_Z (zsum ns)) * inject_Z (2 ^ 53) <= inject_Z (zsum_abs ns))%Q.
Proof.
  intros Hk H. induction H as [|q n qs ns Hq Hs IH]; intros Hn.
  - cbn [map zsum zsum_abs]. vm_compute. congruence.
  - cbn [map zsum zsum_abs] in *. rewrite qsum_cons, this_plus, inject_Z_plus, inject_Z_plus. pose proof (zsum_abs_nonneg ns). specialize (IH ltac:(lia)). apply units_of in Hq. set (T := inject_Z (10 ^ k)) in *. set (S := this (qsum (map to_f64 qs))) in *.
    assert (E1 : (Qabs (this (to_f64 q) * T - inject_Z n) * inject_Z (2 ^ 53) <= inject_Z (Z.abs n))%Q).
    { rewrite <- Hq. destruct (Z.eq_dec n 0) as [->|N].
      - change (inject_Z 0) with 0%Q in Hq. assert (Zq : (this q == 0)%Q). { apply Qmult_integral in Hq as [Z|Z]; [exact Z|]. pose proof (pow_inj_pos k ltac:(lia)). unfold T in Z. lra. } assert (q = 0%Qc) by (apply Qc_is_canon; exact Zq). subst q. change (to_f64 0) with 0%Qc. change (this 0%Qc) with 0%Q. setoid_replace (0 * T - 0 * T)%Q with 0%Q by ring. vm_compute. congruence.
      - assert (A : 1 <= Z.abs n) by lia. assert (A' : (1 <= inject_Z (Z.abs n))%Q) by (change 1%Q with (inject_Z 1); rewrite <- Zle_Qle; exact A).
        assert (AE : (Qabs (this q * T) == inject_Z (Z.abs n))%Q). { rewrite Hq. reflexivity. }
        apply (conv_units k q (inject_Z (Z.abs n)) Hk); [lra|rewrite <- Zle_Qle; lia|fold T; rewrite AE; apply Qle_refl|right; fold T; rewrite AE; lra]. }
    setoid_replace ((this (to_f64 q) + S) * T - (inject_Z n + inject_Z (zsum ns)))%Q with ((this (to_f64 q) * T - inject_Z n) + (S * T - inject_Z (zsum ns)))%Q by ring.
    pose proof (Qabs_triangle (this (to_f64 q) * T - inject_Z n) (S * T - inject_Z (zsum ns))) as Tr. set (A := Qabs (this (to_f64 q) * T - inject_Z n)) in *. set (B := Qabs (S * T - inject_Z (zsum ns))) in *. set (C := Qabs (_ + _)%Q) in *.
    apply Qle_trans with ((A + B) * inject_Z (2 ^ 53))%Q; [apply Qmult_le_compat_r; [exact Tr|vm_compute; congruence]|]. rewrite Qmult_plus_distr_l. lra.
Qed.
(** a number close to [q], which has [k] decimals, is printed like [q] *)
Lemma near_prints k s q n : 0 <= k <= 17 -> (q * qz (10 ^ k))%Qc = qz n -> Z.abs n <= 10 ^ 15 -> (Qabs (this s * inject_Z (10 ^ k) - inject_Z n) <= 1 # 9)%Q ->
  fmt_float k (to_f64 s) = fmt_float k (to_f64 q) \/ (q = 0%Qc /\ fmt_float k (to_f64 s) = [45] ++ fmt_float k (to_f64 q)).
Proof.
  intros Hk U Hz E'. rewrite (fmt_exact to_f64 k q n to_f64_ok Hk U Hz). fold (digits_of k n). apply units_of in U. rename n into N. set (T := inject_Z (10 ^ k)) in *.
  apply Qabs_Qle_condition in E' as [E1 E2].
  assert (V : (Qabs (this (to_f64 s) * T - inject_Z N) < 1 # 2)%Q).
  { destruct (Z.eq_dec N 0) as [->|NN].
    - change (inject_Z 0) with 0%Q in *. pose proof (err_abs s) as A. pose proof (pow_inj_pos k ltac:(lia)) as HT. fold T in HT.
      assert (B : (Qabs (this (to_f64 s) * T - this s * T) <= Qabs (this s * T))%Q). { setoid_replace (this (to_f64 s) * T - this s * T)%Q with ((this (to_f64 s) - this s) * T)%Q by ring. rewrite !Qabs_Qmult. apply Qmult_le_compat_r; [exact A|apply Qabs_nonneg]. }
      assert (C : (Qabs (this s * T) <= 1 # 9)%Q) by (apply Qabs_Qle_condition; lra). assert (D : (Qabs (this (to_f64 s) * T - this s * T) <= 1 # 9)%Q) by lra. apply Qabs_Qle_condition in D as [D1 D2]. apply Qabs_Qlt_condition. lra.
    - assert (A : (1 <= Qabs (inject_Z N))%Q). { change (Qabs (inject_Z N)) with (inject_Z (Z.abs N)). change 1%Q with (inject_Z 1). rewrite <- Zle_Qle. lia. }
      assert (A2 : (Qabs (inject_Z N) <= inject_Z (10 ^ 15))%Q). { change (Qabs (inject_Z N)) with (inject_Z (Z.abs N)). rewrite <- Zle_Qle. lia. }
      assert (Lo : (1 # 2 <= Qabs (this s * T))%Q). { destruct (Qlt_le_dec (inject_Z N) 0) as [G|G]; [rewrite Qabs_neg in A by lra; rewrite Qabs_neg by lra|rewrite Qabs_pos in A by lra; rewrite Qabs_pos by lra]; lra. }
      assert (Hi : (Qabs (this s * T) <= inject_Z (10 ^ 15 + 1))%Q). { rewrite inject_Z_plus. change (inject_Z 1) with 1%Q. apply Qabs_Qle_condition in A2 as [A3 A4]. apply Qabs_Qle_condition. lra. }
      pose proof (conv_units k s (inject_Z (10 ^ 15 + 1)) Hk ltac:(vm_compute; congruence) ltac:(vm_compute; congruence) Hi (or_intror Lo)) as W. fold T in W.
      assert (W' : (Qabs (this (to_f64 s) * T - this s * T) <= 1 # 8)%Q). { apply Qmult_lt_0_le_reg_r with (inject_Z (2 ^ 53)); [reflexivity|]. apply Qle_trans with (1 := W). vm_compute. congruence. }
      apply Qabs_Qle_condition in W' as [W1 W2]. apply Qabs_Qlt_condition. lra. }
  rewrite (fmt_near k (to_f64 s) N ltac:(lia) V). destruct (Z.eqb_spec N 0) as [Z0|NZ]; [|left; reflexivity]. rewrite Z0 in *. change (0 <? 0) with false. cbn [app].
  destruct (to_f64 s ?= 0)%Qc; [left; reflexivity| |left; reflexivity]. right. split; [|reflexivity].
  apply Qc_is_canon. change (this 0%Qc) with 0%Q. change (inject_Z 0) with 0%Q in U. apply Qmult_integral in U as [U|U]; [exact U|]. pose proof (pow_inj_pos k ltac:(lia)) as HT. unfold T in U. lra.
Qed.
Lemma sum_prints k qs ns : 0 <= k <= 17 -> Forall2 (fun q n => (q * qz (10 ^ k))%Qc = qz n) qs ns -> zsum_abs ns <= 10 ^ 15 ->
  fmt_float k (to_f64 (qsum (map to_f64 qs))) = fmt_float k (to_f64 (qsum qs)) \/
  (qsum qs = 0%Qc /\ fmt_float k (to_f64 (qsum (map to_f64 qs))) = [45] ++ fmt_float k (to_f64 (qsum qs))).
Proof.
  intros Hk H Hn. pose proof (sum_err k qs ns Hk H Hn) as E. pose proof (sum_units k qs ns H) as U. pose proof (zsum_le ns) as Hz. apply (near_prints k _ _ (zsum ns) Hk U ltac:(lia)).
  apply Qmult_lt_0_le_reg_r with (inject_Z (2 ^ 53)); [reflexivity|]. apply Qle_trans with (1 := E). apply Qle_trans with (inject_Z (10 ^ 15)); [rewrite <- Zle_Qle; exact Hn|vm_compute; congruence].
Qed.
