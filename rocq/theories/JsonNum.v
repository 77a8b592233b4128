(** * JsonNum: the shortest decimal of a float64 reads back as that float64. *)
From Coq Require Import Qround Qabs Qpower Lqa.
From Verif Require Import Base Dec ExportModel ExportSpec ExportProofs F64Model F64Spec F64Proofs JsonModel JsonSpec.

Lemma canonical f : (0 < this f)%Q -> float64 f -> exists m x, 0 < m < 2 ^ 53 /\ -1074 <= x /\ (2 ^ 52 <= m \/ x = -1074) /\ (this f == inject_Z m * two ^ x)%Q.
Proof.
  intros H F. assert (E : f64_pos f = f). { pose proof (to_f64_id f F) as T. unfold to_f64 in T. destruct (f ?= 0)%Qc eqn:C; unfold Qccompare in C; [apply Qeq_alt in C|apply Qlt_alt in C|exact T]; change (this 0%Qc) with 0%Q in C; lra. }
  pose proof (Hv f) as V. rewrite E in V. pose proof (m_bounds f H) as B. pose proof (m_big f H) as G. pose proof (He f H) as [_ U].
  set (x := Z.max (ilog2 f - 52) (-1074)) in *. set (m := round_even (f / pow2 x)%Qc) in *.
  assert (M : m <> 2 ^ 53). { intros M. rewrite V, M in U. apply (Qlt_not_le _ _ U). rewrite (inject_pow 53) by lia. rewrite <- pw_add. apply pw_le. unfold x. lia. }
  assert (M0 : m <> 0). { intros M0. rewrite V, M0 in H. change (inject_Z 0) with 0%Q in H. lra. }
  exists m, x. split; [lia|]. split; [unfold x; lia|]. split; [|exact V]. destruct (Z.le_gt_cases (-1074) (ilog2 f - 52)); [left; apply G; lia|right; unfold x; lia].
Qed.
Lemma gap f w : (0 < this f)%Q -> float64 f -> float64 w -> ~ (this w == this f)%Q -> (this f <= Qabs (this w - this f) * inject_Z (2 ^ 53))%Q.
Proof.
  intros H F (n & k & W1 & W2 & W3) N. apply scaled_iff in W3. destruct (canonical f H F) as (m & x & M1 & X1 & C & V). pose proof (pw_pos x) as Px.
  destruct (Z.le_gt_cases x k) as [L|L].
  - assert (E : (this w == inject_Z (n * 2 ^ (k - x)) * two ^ x)%Q). { rewrite W3, inject_Z_mult, inject_pow by lia. rewrite <- Qmult_assoc, <- pw_add. replace (k - x + x) with k by lia. reflexivity. }
    set (z := n * 2 ^ (k - x)) in *. assert (z <> m) by (intros Z; apply N; rewrite E, V, Z; reflexivity).
    assert (D : (1 <= Qabs (inject_Z z - inject_Z m))%Q). { destruct (Z.le_gt_cases z m) as [B|B]; [assert (B' : z + 1 <= m) by lia|assert (B' : m + 1 <= z) by lia]; rewrite Zle_Qle, inject_Z_plus in B'; change (inject_Z 1) with 1%Q in B'; [rewrite Qabs_neg by lra|rewrite Qabs_pos by lra]; lra. }
    rewrite E, V. setoid_replace (inject_Z z * two ^ x - inject_Z m * two ^ x)%Q with ((inject_Z z - inject_Z m) * two ^ x)%Q by ring. rewrite Qabs_Qmult, (Qabs_pos (two ^ x)) by lra.
    setoid_replace (Qabs (inject_Z z - inject_Z m) * two ^ x * inject_Z (2 ^ 53))%Q with (Qabs (inject_Z z - inject_Z m) * inject_Z (2 ^ 53) * two ^ x)%Q by ring. apply Qmult_le_compat_r; [|lra].
    assert (M2 : (inject_Z m <= inject_Z (2 ^ 53))%Q) by (rewrite <- Zle_Qle; lia). assert (K : (0 < inject_Z (2 ^ 53))%Q) by reflexivity. nra.
  - assert (G : 2 ^ 52 <= m) by lia.
    assert (U : (this w <= inject_Z (2 ^ 53 - 1) * two ^ (x - 1))%Q).
    { rewrite W3. apply Qle_trans with (inject_Z (2 ^ 53 - 1) * two ^ k)%Q; [apply Qmult_le_compat_r; [rewrite <- Zle_Qle; lia|apply Qlt_le_weak, pw_pos]|].
      rewrite !(Qmult_comm (inject_Z _)). apply Qmult_le_compat_r; [apply pw_le; lia|discriminate]. }
    assert (X : (two ^ x == two ^ (x - 1) * 2)%Q). { replace x with (x - 1 + 1) at 1 by lia. rewrite pw_add. reflexivity. }
    pose proof (pw_pos (x - 1)) as Py. set (p := (two ^ (x - 1))%Q) in *. rewrite X in V. clear X Px.
    change (2 ^ 53 - 1) with 9007199254740991 in U. change (inject_Z (2 ^ 53)) with (9007199254740992 # 1)%Q. change (inject_Z 9007199254740991) with (9007199254740991 # 1)%Q in U.
    assert (G' : (4503599627370496 # 1 <= inject_Z m)%Q) by (change (4503599627370496 # 1)%Q with (inject_Z (2 ^ 52)); rewrite <- Zle_Qle; exact G).
    set (i := inject_Z m) in *. clearbody i p. assert (Le : (this w <= this f)%Q) by (rewrite V; nra). rewrite Qabs_neg by lra. rewrite V in *. nra.
Qed.
Lemma nearest_close c f : (0 < this f)%Q -> float64 f -> (Qabs (this c - this f) * inject_Z (2 ^ 54) < this f)%Q -> nearest_f64 c f.
Proof.
  intros H F D. assert (K : forall w, float64 w -> w <> f -> (Qabs (this f - this c) < Qabs (this w - this c))%Q).
  { intros w Fw N. assert (N' : ~ (this w == this f)%Q) by (intros E; apply N, Qc_is_canon, E). pose proof (gap f w H F Fw N') as G.
    pose proof (Qabs_triangle (this w - this c) (this c - this f)) as T. setoid_replace (this w - this c + (this c - this f))%Q with (this w - this f)%Q in T by ring.
    rewrite (Qabs_Qminus (this f)). change (inject_Z (2 ^ 54)) with (18014398509481984 # 1)%Q in D. change (inject_Z (2 ^ 53)) with (9007199254740992 # 1)%Q in G. lra. }
  split; [exact F|]. split.
  - intros w Fw. unfold Qcle. rewrite !this_qabs, !this_minus. destruct (Qc_eq_dec w f) as [->|N]; [apply Qle_refl|apply Qlt_le_weak, K; assumption].
  - intros w Fw N E. exfalso. apply (f_equal this) in E. assert (E' : (Qabs (this w - this c) == Qabs (this f - this c))%Q) by (rewrite <- !this_minus, <- !this_qabs, E; reflexivity). pose proof (K w Fw N). lra.
Qed.
Lemma to_f64_close c f : (0 < this f)%Q -> float64 f -> (Qabs (this c - this f) * inject_Z (2 ^ 54) < this f)%Q -> to_f64 c = f.
Proof. intros H F D. apply (nearest_unique c); [apply to_f64_nearest|apply nearest_close; assumption]. Qed.

(** ** Powers of ten *)
Notation ten_ := (10 # 1)%Q.
Lemma inject_pow10 x : 0 <= x -> (inject_Z (10 ^ x) == ten_ ^ x)%Q. Proof. intros H. apply (Zpower_Qpower 10 x H). Qed.
Lemma this_pow10 x : (this (pow10 x) == ten_ ^ x)%Q.
Proof. unfold pow10. destruct (Z.leb_spec 0 x) as [H|H]; [rewrite this_qz; apply inject_pow10; exact H|]. rewrite this_inv, this_qz, inject_pow10 by lia. rewrite <- Qpower_opp, Z.opp_involutive. reflexivity. Qed.
Lemma ten_eq x : ten x = pow10 x. Proof. reflexivity. Qed.
Lemma pt_pos x : (0 < ten_ ^ x)%Q. Proof. apply Qpower_0_lt. reflexivity. Qed.
Lemma pt_add x y : (ten_ ^ (x + y) == ten_ ^ x * ten_ ^ y)%Q. Proof. apply Qpower_plus. discriminate. Qed.
Lemma pt_le x y : x <= y -> (ten_ ^ x <= ten_ ^ y)%Q. Proof. intros H. apply Qpower_le_compat_l; [exact H|discriminate]. Qed.
Lemma pt_lt x y : x < y -> (ten_ ^ x < ten_ ^ y)%Q. Proof. intros H. apply Qpower_lt_compat_l; [exact H|reflexivity]. Qed.
Lemma pt_nz x : ~ (ten_ ^ x == 0)%Q. Proof. apply Qpower_not_0. discriminate. Qed.

Lemma ilog10_spec q : (0 < this q)%Q -> (ten_ ^ (ilog10 q) <= this q)%Q /\ (this q < ten_ ^ (ilog10 q + 1))%Q.
Proof.
  intros Hq. unfold ilog10. set (n := Qnum (this q)). set (d := Qden (this q)).
  assert (Hn : 0 < n) by (unfold n; unfold Qlt in Hq; cbn [Qnum Qden] in Hq; lia).
  assert (Len : forall z, 0 < z -> 0 < Z.of_nat (length (dec z)) /\ 10 ^ (Z.of_nat (length (dec z)) - 1) <= z < 10 ^ Z.of_nat (length (dec z))).
  { intros z Hz. pose proof (dec_nonempty z ltac:(lia)) as Ne. split; [destruct (dec z); [congruence|cbn [length]; lia]|]. split; [apply dec_lower; exact Hz|]. rewrite <- (dec_val z) at 1 by lia. apply digval_nonneg, dec_digits. lia. }
  destruct (Len n Hn) as (Ln & N1 & N2). destruct (Len (Zpos d) eq_refl) as (Ld & D1 & D2).
  set (a := Z.of_nat (length (dec n))) in *. set (b := Z.of_nat (length (dec (Zpos d)))) in *.
  assert (Eq : (this q * inject_Z (Zpos d) == inject_Z n)%Q). { unfold n, d. destruct (this q) as [n0 d0]. cbn [Qnum Qden]. unfold Qeq, Qmult, inject_Z. cbn [Qnum Qden]. lia. }
  assert (N1' : (ten_ ^ (a - 1) <= inject_Z n)%Q) by (rewrite <- inject_pow10 by lia; rewrite <- Zle_Qle; exact N1).
  assert (N2' : (inject_Z n < ten_ ^ a)%Q) by (rewrite <- inject_pow10 by lia; rewrite <- Zlt_Qlt; exact N2).
  assert (D1' : (ten_ ^ (b - 1) <= inject_Z (Zpos d))%Q) by (rewrite <- inject_pow10 by lia; rewrite <- Zle_Qle; exact D1).
  assert (D2' : (inject_Z (Zpos d) < ten_ ^ b)%Q) by (rewrite <- inject_pow10 by lia; rewrite <- Zlt_Qlt; exact D2).
  assert (Up : (this q < ten_ ^ (a - b + 1))%Q).
  { apply Qnot_le_lt. intros H. apply (Qlt_not_le _ _ N2'). rewrite <- Eq. replace a with (a - b + 1 + (b - 1)) at 1 by lia. rewrite pt_add. apply Qmult_le_compat_nonneg; split; try assumption; apply Qlt_le_weak, pt_pos. }
  assert (Low : (ten_ ^ (a - b - 1) < this q)%Q).
  { apply Qnot_le_lt. intros H. apply (Qlt_not_le _ _ D2'). apply Qmult_lt_0_le_reg_r with (ten_ ^ (a - b - 1))%Q; [apply pt_pos|]. rewrite <- pt_add. replace (b + (a - b - 1)) with (a - 1) by lia.
    apply Qle_trans with (inject_Z n); [exact N1'|]. rewrite <- Eq, Qmult_comm. rewrite (Qmult_comm (inject_Z _) (ten_ ^ _)). rewrite (Qmult_comm (inject_Z _) (this q)). apply Qmult_le_compat_r; [exact H|]. apply Qlt_le_weak. reflexivity. }
  destruct (pow10 (a - b) ?= q)%Qc eqn:E; unfold Qccompare in E.
  - apply Qeq_alt in E. rewrite this_pow10 in E. split; [rewrite E; apply Qle_refl|exact Up].
  - apply Qlt_alt in E. rewrite this_pow10 in E. split; [apply Qlt_le_weak; exact E|exact Up].
  - apply Qgt_alt in E. rewrite this_pow10 in E. split; [apply Qlt_le_weak; exact Low|]. replace (a - b - 1 + 1) with (a - b) by lia. exact E.
Qed.

(** ** The search *)
Lemma qc_eqb_eq a b : qc_eqb a b = true <-> a = b.
Proof. unfold qc_eqb. destruct (Qc_eq_dec a b); split; congruence. Qed.
Definition dval (r : Z * Z) : Qc := (qz (fst r) * pow10 (snd r))%Qc.
Lemma shift_ten x k : 0 <= k -> (qz (10 ^ k) * pow10 x)%Qc = (qz 1 * pow10 (x + k))%Qc.
Proof.
  intros H. apply Qc_is_canon. rewrite !this_mult, !this_qz, !this_pow10, pt_add, inject_pow10 by exact H. change (inject_Z 1) with 1%Q. ring.
Qed.
Lemma first_digits_some q k l r : 0 <= k -> first_digits q k l = Some r -> to_f64 (dval r) = q /\ exists m, In m l /\ dval r = (qz m * pow10 (ilog10 q - k + 1))%Qc /\ (m = 10 ^ k -> fst r = 1) /\ (m <> 10 ^ k -> fst r = m).
Proof.
  intros Hk. induction l as [|m l IH]; cbn [first_digits]; [discriminate|]. destruct (qc_eqb _ q) eqn:E.
  - apply qc_eqb_eq in E. intros H. injection H as <-. destruct (Z.eqb_spec m (10 ^ k)) as [->|N].
    + split; [unfold dval; cbn [fst snd]; rewrite <- shift_ten by exact Hk; exact E|]. exists (10 ^ k). split; [left; reflexivity|]. split; [unfold dval; cbn [fst snd]; symmetry; apply shift_ten; exact Hk|]. split; [reflexivity|congruence].
    + split; [exact E|]. exists m. split; [left; reflexivity|]. split; [reflexivity|]. split; [congruence|reflexivity].
  - intros H. destruct (IH H) as (A & m' & B & C). split; [exact A|]. exists m'. split; [right; exact B|exact C].
Qed.
Lemma first_digits_none q k l : first_digits q k l = None -> forall m, In m l -> to_f64 (qz m * pow10 (ilog10 q - k + 1)) <> q.
Proof.
  induction l as [|m l IH]; cbn [first_digits]; intros H m' Hm; [destruct Hm|]. destruct (qc_eqb _ q) eqn:E; [discriminate|].
  destruct Hm as [<-|Hm]; [|exact (IH H m' Hm)]. intros C. apply qc_eqb_eq in C. congruence.
Qed.
Definition unit_at (q : Qc) (k : Z) : Q := (ten_ ^ (ilog10 q - k + 1))%Q.
Lemma candidate_close q k m : (0 < this q)%Q -> 0 < k -> In m (candidates q k) -> 1 <= m <= 10 ^ k /\ (Qabs (inject_Z m * unit_at q k - this q) <= unit_at q k)%Q.
Proof.
  intros H Hk Hm. destruct (ilog10_spec q H) as [L U]. set (u := unit_at q k). assert (Pu : (0 < u)%Q) by apply pt_pos.
  unfold candidates in Hm. set (y := (q / pow10 (ilog10 q - k + 1))%Qc) in *.
  assert (Y : (this y * u == this q)%Q). { unfold y. rewrite this_div, this_pow10. change (ten_ ^ (ilog10 q - k + 1))%Q with u. field. lra. }
  assert (Y1 : (inject_Z (10 ^ (k - 1)) <= this y)%Q). { apply Qmult_lt_0_le_reg_r with u; [exact Pu|]. rewrite Y, inject_pow10 by lia. unfold u, unit_at. rewrite <- pt_add. replace (k - 1 + (ilog10 q - k + 1)) with (ilog10 q) by lia. exact L. }
  assert (Y2 : (this y < inject_Z (10 ^ k))%Q). { apply Qnot_le_lt. intros C. apply (Qlt_not_le _ _ U). rewrite <- Y. apply Qle_trans with (inject_Z (10 ^ k) * u)%Q; [|apply Qmult_le_compat_r; [exact C|apply Qlt_le_weak; exact Pu]]. rewrite inject_pow10 by lia. unfold u, unit_at. rewrite <- pt_add. apply pt_le. lia. }
  assert (P1 : 1 <= 10 ^ (k - 1)) by (pose proof (Z.pow_pos_nonneg 10 (k - 1)); lia).
  pose proof (Qfloor_le (this y)) as F1. pose proof (Qlt_floor (this y)) as F2. set (f := Qfloor (this y)) in *. rewrite inject_Z_plus in F2. change (inject_Z 1) with 1%Q in F2.
  assert (Ff : 1 <= f <= 10 ^ k - 1).
  { split; [apply Z.le_trans with (1 := P1)|]; apply Z.lt_succ_r; unfold Z.succ; [|replace (10 ^ k - 1 + 1) with (10 ^ k) by lia]; rewrite Zlt_Qlt; [rewrite inject_Z_plus; change (inject_Z 1) with 1%Q|]; lra. }
  assert (Mf : m = f \/ m = f + 1).
  { assert (R : round_even y = f \/ round_even y = f + 1). { unfold round_even. fold f. destruct (_ ?= _)%Qc; [destruct (Z.even f)| |]; auto. }
    destruct Hm as [<-|[<-|[]]]; [exact R|]. destruct (_ =? _); auto. }
  split; [lia|]. rewrite <- Y. setoid_replace (inject_Z m * u - this y * u)%Q with ((inject_Z m - this y) * u)%Q by ring. rewrite Qabs_Qmult, (Qabs_pos u) by lra.
  setoid_replace u with (1 * u)%Q at 2 by ring. apply Qmult_le_compat_r; [|lra]. apply Qabs_Qle_condition. destruct Mf as [->| ->]; [split; lra|]. rewrite inject_Z_plus. change (inject_Z 1) with 1%Q. split; lra.
Qed.
(** every multiple of the unit within one unit is a candidate *)
Lemma candidate_all q k m : (Qabs (inject_Z m * unit_at q k - this q) < unit_at q k)%Q -> In m (candidates q k).
Proof.
  intros D. set (u := unit_at q k) in *. assert (Pu : (0 < u)%Q) by apply pt_pos.
  unfold candidates. set (y := (q / pow10 (ilog10 q - k + 1))%Qc) in *.
  assert (Y : (this y * u == this q)%Q). { unfold y. rewrite this_div, this_pow10. change (ten_ ^ (ilog10 q - k + 1))%Q with u. field. lra. }
  assert (D' : (Qabs (inject_Z m - this y) < 1)%Q). { apply Qmult_lt_r with u; [exact Pu|]. rewrite Qmult_1_l. rewrite <- (Qabs_pos u) at 1 by lra. rewrite <- Qabs_Qmult. setoid_replace ((inject_Z m - this y) * u)%Q with (inject_Z m * u - this y * u)%Q by ring. rewrite Y. exact D. }
  apply Qabs_Qlt_condition in D' as [D1 D2]. pose proof (Qfloor_le (this y)) as F1. pose proof (Qlt_floor (this y)) as F2. set (f := Qfloor (this y)) in *. rewrite inject_Z_plus in F2. change (inject_Z 1) with 1%Q in F2.
  assert (Mf : m = f \/ m = f + 1).
  { assert (f < m + 1) by (rewrite Zlt_Qlt, inject_Z_plus; change (inject_Z 1) with 1%Q; lra). assert (m < f + 1 + 1) by (rewrite Zlt_Qlt, !inject_Z_plus; change (inject_Z 1) with 1%Q; lra). lia. }
  assert (R : round_even y = f \/ round_even y = f + 1). { unfold round_even. fold f. destruct (_ ?= _)%Qc; [destruct (Z.even f)| |]; auto. }
  cbn [In]. destruct (Z.eqb_spec (round_even y) f) as [E|N]; lia.
Qed.
Lemma search_stops q : (0 < this q)%Q -> float64 q -> exists r, first_digits q 17 (candidates q 17) = Some r.
Proof.
  intros H F. destruct (first_digits q 17 (candidates q 17)) as [r|] eqn:E; [eauto|exfalso]. destruct (ilog10_spec q H) as [L U].
  pose proof (first_digits_none q 17 _ E) as N. set (y := (q / pow10 (ilog10 q - 17 + 1))%Qc) in *. apply (N (round_even y)); [left; reflexivity|]. clear N E.
  apply to_f64_close; [exact H|exact F|]. set (u := (ten_ ^ (ilog10 q - 17 + 1))%Q). assert (Pu : (0 < u)%Q) by apply pt_pos.
  assert (Y : (this y * u == this q)%Q). { unfold y. rewrite this_div, this_pow10. change (ten_ ^ (ilog10 q - 17 + 1))%Q with u. field. lra. }
  rewrite this_mult, this_qz, this_pow10. fold u. rewrite <- Y. setoid_replace (inject_Z (round_even y) * u - this y * u)%Q with ((inject_Z (round_even y) - this y) * u)%Q by ring.
  rewrite Qabs_Qmult, (Qabs_pos u), Qabs_Qminus by lra. destruct (round_even_half y) as [R _]. set (a := Qabs (this y - inject_Z (round_even y))) in *.
  assert (Yb : (inject_Z (10 ^ 16) <= this y)%Q). { apply Qmult_lt_0_le_reg_r with u; [exact Pu|]. rewrite Y, inject_pow10 by lia. unfold u. rewrite <- pt_add. replace (16 + (ilog10 q - 17 + 1)) with (ilog10 q) by lia. exact L. }
  change (inject_Z (10 ^ 16)) with (10000000000000000 # 1)%Q in Yb. change (inject_Z (2 ^ 54)) with (18014398509481984 # 1)%Q. clearbody a u. nra.
Qed.
Lemma search_ok q n k : (0 < this q)%Q -> float64 q -> 0 < k -> k + Z.of_nat n = 18 -> (0 < n)%nat -> exists j, k <= j <= 17 /\ first_digits q j (candidates q j) = Some (search_digits q k n) /\ forall i, k <= i < j -> first_digits q i (candidates q i) = None.
Proof.
  intros H F. revert k. induction n as [|n IH]; intros k Hk E Hn; [lia|]. cbn [search_digits]. destruct (first_digits q k (candidates q k)) as [r|] eqn:D; [exists k; split; [lia|split; [exact D|intros; lia]]|].
  destruct n as [|n]; [exfalso; assert (k = 17) by lia; subst k; destruct (search_stops q H F); congruence|].
  destruct (IH (k + 1) ltac:(lia) ltac:(lia) ltac:(lia)) as (j & J1 & J2 & J3). exists j. split; [lia|]. split; [exact J2|]. intros i Hi. destruct (Z.eq_dec i k) as [->|]; [exact D|apply J3; lia].
Qed.
Lemma shortest_ok q : (0 < this q)%Q -> float64 q -> to_f64 (dval (shortest q)) = q /\ 0 < fst (shortest q).
Proof.
  intros H F. destruct (search_ok q 17 1 H F) as (j & J1 & J2 & _); try lia. unfold shortest. destruct (first_digits_some q j _ _ ltac:(lia) J2) as (A & m & Hm & B & C1 & C2). split; [exact A|].
  destruct (candidate_close q j m H ltac:(lia) Hm) as [M _]. destruct (Z.eq_dec m (10 ^ j)) as [e|n]; [rewrite (C1 e); lia|rewrite (C2 n); lia].
Qed.

(** ** Amounts of up to 15 digits are written as they are. *)
Lemma pt_lt_inv x y : (ten_ ^ x < ten_ ^ y)%Q -> x < y.
Proof. intros H. destruct (Z.lt_ge_cases x y) as [L|L]; [exact L|exfalso]. apply (Qlt_not_le _ _ H), pt_le, L. Qed.
Lemma short_exact q k n : 0 <= k <= 17 -> (q * qz (10 ^ k))%Qc = qz n -> 0 < n <= 10 ^ 15 -> (0 < this (to_f64 q))%Q /\ dval (shortest (to_f64 q)) = q.
Proof.
  intros Hk E Hn. pose proof (units_of k q n E) as Q1. assert (PK : (0 < ten_ ^ k)%Q) by apply pt_pos. rewrite inject_pow10 in Q1 by lia.
  assert (N1 : (1 <= inject_Z n)%Q) by (change 1%Q with (inject_Z 1); rewrite <- Zle_Qle; lia). assert (N2 : (inject_Z n <= inject_Z (10 ^ 15))%Q) by (rewrite <- Zle_Qle; lia).
  assert (K1 : (1 <= ten_ ^ k)%Q) by (change 1%Q with (ten_ ^ 0)%Q; apply pt_le; lia). assert (K2 : (ten_ ^ k <= ten_ ^ 17)%Q) by (apply pt_le; lia).
  assert (Hq : (0 < this q)%Q) by nra. assert (Qu : (this q <= inject_Z (10 ^ 15))%Q) by nra.
  assert (Ql : (ten_ ^ (-17) <= this q)%Q). { apply Qmult_lt_0_le_reg_r with (ten_ ^ k)%Q; [exact PK|]. rewrite Q1, <- pt_add. apply Qle_trans with 1%Q; [|exact N1]. change 1%Q with (ten_ ^ 0)%Q. apply pt_le. lia. }
  set (f := to_f64 q) in *. pose proof (err_rel q) as ER. fold f in ER. rewrite (Qabs_pos (this q)) in ER by lra.
  assert (ER' : (Qabs (this f - this q) * inject_Z (2 ^ 53) <= this q)%Q).
  { apply ER; [apply Qle_trans with (2 := Ql); vm_compute; discriminate|apply Qle_trans with (1 := Qu); vm_compute; discriminate]. } clear ER.
  change (inject_Z (2 ^ 53)) with (9007199254740992 # 1)%Q in ER'.
  assert (Fq : (- this q <= (this f - this q) * (9007199254740992 # 1) <= this q)%Q).
  { pose proof (Qle_Qabs (this f - this q)) as A. pose proof (Qle_Qabs (- (this f - this q))) as B. rewrite Qabs_opp in B. lra. }
  assert (Hf : (0 < this f)%Q) by lra. split; [exact Hf|]. assert (Ff : float64 f) by apply to_f64_float.
  destruct (ilog10_spec q Hq) as [L U]. destruct (ilog10_spec f Hf) as [Lf Uf]. set (eq := ilog10 q) in *. set (ef := ilog10 f) in *.
  (* q is a multiple of 10^(eq-14) *)
  assert (QM : exists N, (this q == inject_Z N * ten_ ^ (eq - 14))%Q).
  { assert (Le : eq + k <= 15). { apply Z.lt_succ_r, pt_lt_inv. apply Qle_lt_trans with (inject_Z n); [rewrite <- Q1, pt_add; apply Qmult_le_compat_r; [exact L|lra]|]. apply Qle_lt_trans with (1 := N2). rewrite inject_pow10 by lia. apply pt_lt. lia. }
    destruct (Z.eq_dec (eq + k) 15) as [E15|N15].
    - exists (10 ^ 14). assert (G : n = 10 ^ 15). { assert (G : (inject_Z (10 ^ 15) <= inject_Z n)%Q) by (rewrite <- Q1, inject_pow10 by lia; rewrite <- E15, pt_add; apply Qmult_le_compat_r; [exact L|lra]). rewrite <- Zle_Qle in G. lia. }
      apply Qmult_inj_r with (ten_ ^ k)%Q; [lra|]. rewrite Q1, G, !inject_pow10 by lia. rewrite <- !pt_add. replace (14 + (eq - 14) + k) with 15 by lia. reflexivity.
    - exists (n * 10 ^ (14 - eq - k)). apply Qmult_inj_r with (ten_ ^ k)%Q; [lra|]. rewrite Q1, inject_Z_mult, inject_pow10 by lia. rewrite <- !Qmult_assoc, <- !pt_add. replace (14 - eq - k + (eq - 14 + k)) with 0 by lia. change (ten_ ^ 0)%Q with 1%Q. ring. }
  destruct QM as [N QM]. set (v := (ten_ ^ (eq - 14))%Q) in *. assert (Pv : (0 < v)%Q) by apply pt_pos.
  assert (V1 : (ten_ ^ eq == (100000000000000 # 1) * v)%Q) by (unfold v; replace eq with (14 + (eq - 14)) at 1 by lia; rewrite pt_add; reflexivity).
  assert (V2 : (ten_ ^ (eq + 1) == (1000000000000000 # 1) * v)%Q) by (unfold v; replace (eq + 1) with (15 + (eq - 14)) at 1 by lia; rewrite pt_add; reflexivity).
  assert (V0 : (ten_ ^ (eq - 1) == (10000000000000 # 1) * v)%Q) by (unfold v; replace (eq - 1) with (13 + (eq - 14)) at 1 by lia; rewrite pt_add; reflexivity).
  rewrite V1 in L. rewrite V2 in U.
  assert (NB : N < 10 ^ 15). { rewrite Zlt_Qlt. apply Qmult_lt_r with v; [exact Pv|]. rewrite <- QM. exact U. }
  assert (E1 : ef < eq + 1). { apply pt_lt_inv. apply Qle_lt_trans with (1 := Lf). rewrite V2. assert (NB' : N <= 10 ^ 15 - 1) by lia. rewrite Zle_Qle in NB'. apply (Qmult_le_compat_r _ _ v) in NB'; [|lra]. rewrite <- QM in NB'. change (inject_Z (10 ^ 15 - 1)) with (999999999999999 # 1)%Q in NB'. lra. }
  assert (E2 : eq - 1 < ef + 1). { apply pt_lt_inv. apply Qle_lt_trans with (2 := Uf). rewrite V0. lra. }
  (* the unit of f with 15 digits *)
  set (w := unit_at f 15). assert (Pw : (0 < w)%Q) by apply pt_pos. assert (Ew : (w == ten_ ^ (ef - 14))%Q) by (unfold w, unit_at; fold ef; replace (ef - 15 + 1) with (ef - 14) by lia; reflexivity).
  assert (W1 : (ten_ ^ ef == (100000000000000 # 1) * w)%Q) by (rewrite Ew; replace ef with (14 + (ef - 14)) at 1 by lia; rewrite pt_add; reflexivity).
  assert (W2 : (ten_ ^ (ef + 1) == (1000000000000000 # 1) * w)%Q) by (rewrite Ew; replace (ef + 1) with (15 + (ef - 14)) at 1 by lia; rewrite pt_add; reflexivity).
  rewrite W1 in Lf. rewrite W2 in Uf.
  assert (QW : exists N', (this q == inject_Z N' * w)%Q /\ (this q <= (2000000000000000 # 1) * w)%Q).
  { destruct (Z.eq_dec ef eq) as [Ee|Ne].
    - exists N. assert (w == v)%Q by (rewrite Ew; unfold v; rewrite Ee; reflexivity). split; [rewrite H; exact QM|rewrite H; lra].
    - exists (N * 10). assert (v == 10 * w)%Q. { rewrite Ew. unfold v. replace (eq - 14) with (1 + (ef - 14)) by lia. rewrite pt_add. reflexivity. }
      rewrite H in QM. split; [rewrite QM, inject_Z_mult; change (inject_Z 10) with 10%Q; ring|lra]. }
  destruct QW as (N' & QN & QB).
  assert (Cl : (Qabs (inject_Z N' * w - this f) < w)%Q) by (rewrite <- QN; apply Qabs_Qlt_condition; split; lra).
  assert (HN : qc_eqb (to_f64 (qz N' * pow10 (ef - 15 + 1))) f = true). { apply qc_eqb_eq. unfold f. f_equal. apply Qc_is_canon. rewrite this_mult, this_qz, this_pow10, QN. reflexivity. }
  pose proof (candidate_all f 15 N' Cl) as CA.
  destruct (search_ok f 17 1 Hf Ff ltac:(lia) eq_refl ltac:(lia)) as (j & J1 & J2 & J3).
  assert (Hj : j <= 15). { destruct (Z.le_gt_cases j 15) as [G|G]; [exact G|exfalso]. pose proof (first_digits_none f 15 _ (J3 15 ltac:(lia)) N' CA) as C. apply C, qc_eqb_eq, HN. }
  destruct (first_digits_some f j _ _ ltac:(lia) J2) as (A & m & Hm & B & _). change (search_digits f 1 17) with (shortest f) in *. set (c := dval (shortest f)) in *.
  destruct (candidate_close f j m Hf ltac:(lia) Hm) as [M1 _].
  assert (CW : (this c == inject_Z (m * 10 ^ (15 - j)) * w)%Q). { rewrite B, this_mult, this_qz, this_pow10, inject_Z_mult, inject_pow10, Ew by lia. fold ef. rewrite <- Qmult_assoc, <- pt_add. replace (15 - j + (ef - 14)) with (ef - j + 1) by lia. reflexivity. }
  set (z := m * 10 ^ (15 - j)) in *. assert (Z1 : 1 <= z <= 10 ^ 15). { unfold z. split; [pose proof (Z.pow_pos_nonneg 10 (15 - j)); nia|]. replace (10 ^ 15) with (10 ^ j * 10 ^ (15 - j)) by (rewrite <- Z.pow_add_r by lia; f_equal; lia). apply Z.mul_le_mono_nonneg_r; [apply Z.pow_nonneg|]; lia. }
  assert (C1 : (w <= this c)%Q). { rewrite CW. assert (G : (1 <= inject_Z z)%Q) by (change 1%Q with (inject_Z 1); rewrite <- Zle_Qle; lia). nra. }
  assert (C2 : (this c <= (1000000000000000 # 1) * w)%Q). { rewrite CW. change (1000000000000000 # 1)%Q with (inject_Z (10 ^ 15)). apply Qmult_le_compat_r; [rewrite <- Zle_Qle; lia|lra]. }
  pose proof (err_rel c) as ER. rewrite A, (Qabs_pos (this c)) in ER by lra.
  assert (ERc : (Qabs (this f - this c) * inject_Z (2 ^ 53) <= this c)%Q).
  { assert (B1 : -17 < eq + 1). { apply pt_lt_inv. apply Qle_lt_trans with (1 := Ql). rewrite V2. exact U. } assert (B2 : eq < 16). { apply pt_lt_inv. apply Qle_lt_trans with (this q); [rewrite V1; exact L|]. apply Qle_lt_trans with (1 := Qu). vm_compute. reflexivity. }
    apply ER.
    - apply Qle_trans with (2 := C1). rewrite Ew. apply Qle_trans with (ten_ ^ (-40))%Q; [vm_compute; discriminate|apply pt_le; lia].
    - apply Qle_trans with (1 := C2). rewrite <- W2. apply Qle_trans with (ten_ ^ 40)%Q; [apply pt_le; lia|vm_compute; discriminate]. }
  change (inject_Z (2 ^ 53)) with (9007199254740992 # 1)%Q in ERc.
  assert (Fc : (- this c <= (this f - this c) * (9007199254740992 # 1) <= this c)%Q).
  { pose proof (Qle_Qabs (this f - this c)) as G1. pose proof (Qle_Qabs (- (this f - this c))) as G2. rewrite Qabs_opp in G2. lra. }
  assert (D : (- w < this c - this q < w)%Q) by lra.
  assert (z = N').
  { rewrite CW, QN in D. destruct D as [D1 D2]. assert (z < N' + 1). { rewrite Zlt_Qlt, inject_Z_plus. change (inject_Z 1) with 1%Q. apply Qmult_lt_r with w; [exact Pw|]. lra. }
    assert (N' < z + 1). { rewrite Zlt_Qlt, inject_Z_plus. change (inject_Z 1) with 1%Q. apply Qmult_lt_r with w; [exact Pw|]. lra. } lia. }
  apply Qc_is_canon. rewrite CW, QN, H. reflexivity.
Qed.
